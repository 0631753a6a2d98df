(** What texts are taken for addresses: a grammar looser than the standard's
    (AddressSpec.v), written independently of the model. *)
From Coq Require Import String List NArith ZArith Bool.
From Verif Require Import Model.Base Spec.AddressSpec.
Import ListNotations.
Local Open Scope N_scope.

(** The fields of a text between its colons. *)
Fixpoint fields (t : list N) : list (list N) :=
  match t with
  | [] => [[]]
  | c :: t' =>
      if c =? 58 then [] :: fields t'
      else match fields t' with f :: fs => (c :: f) :: fs | [] => [[c]] end
  end.

(** A field of hexadecimal digits, perhaps none, perhaps more than four. *)
Definition hex_field (f : list N) : Prop := Forall (fun c => exists d, digit 16 c d) f.

(** The fields that are not empty: the groups given. *)
Definition given (fs : list (list N)) : list (list N) :=
  filter (fun f => match f with [] => false | _ => true end) fs.

(** The empty fields stand together, so that there is at most one gap. *)
Definition one_gap (fs : list (list N)) : Prop :=
  exists l n r, fs = l ++ repeat [] n ++ r /\ ~ In [] l /\ ~ In [] r.

(** A decimal number, perhaps with a sign, of any size. *)
Definition signed_number (t : list N) : Prop :=
  exists s ds, t = s ++ ds /\ (s = [] \/ s = [43] \/ s = [45]) /\ ds <> [] /\
    Forall (fun c => exists d, digit 10 c d) ds.

(** Four numbers between dots, the first of hexadecimal digits. *)
Definition loose_quad (f : list N) : Prop :=
  exists h t2 t3 t4, f = h ++ [46] ++ t2 ++ [46] ++ t3 ++ [46] ++ t4 /\ hex_field h /\
    signed_number t2 /\ signed_number t3 /\ signed_number t4.

(** Texts that may be accepted from a stream: groups with at most one gap,
    eight of them or a gap, or a dotted quad behind at most six groups. *)
Definition loose_text (t : list N) : Prop :=
  exists fs f, fields t = fs ++ [f] /\ Forall hex_field fs /\ one_gap fs /\
    (hex_field f /\ (length (given fs) = 7%nat \/ (length (given fs) < 7)%nat /\ In [] fs)
     \/ loose_quad f /\ (length (given fs) <= 6)%nat).

(** Three dots, each with something behind it. *)
Definition three_dots (f : list N) : Prop :=
  exists h t2 t3 t4, f = h ++ [46] ++ t2 ++ [46] ++ t3 ++ [46] ++ t4 /\ hex_field h /\
    t4 <> [] /\ ~ In 46 t2 /\ ~ In 46 t3.

(** Texts [Address::assign] may accept: as above, but a colon at the end is a
    gap, nothing is asked of what is behind the eighth group, or of what is
    behind the first dot except two more dots. *)
Definition looser_text (t : list N) : Prop :=
  exists u rest fs f, t = u ++ rest /\ fields u = fs ++ [f] /\
    Forall hex_field fs /\ hex_field f /\
    ((rest = [] \/ exists r, rest = 58 :: r) /\ one_gap fs /\ length (given fs) = 7%nat /\ f <> []
     \/ rest = [] /\ one_gap (fs ++ [f]) /\ (length (given (fs ++ [f])) <= 7)%nat /\ In [] (fs ++ [f])
     \/ three_dots (f ++ rest) /\ one_gap fs /\ (length (given fs) <= 6)%nat).
