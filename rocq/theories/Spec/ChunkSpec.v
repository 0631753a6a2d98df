(** What a history of writes should leave in the chunks. *)
From Coq Require Import List NArith Bool Arith.
From Verif Require Import Model.Base Model.WebMaps Model.Chunks Spec.StreamSpec.
Import ListNotations.

(** The text written, encoded as asked for at the time. *)
Fixpoint ctext (e : encoding) (os : list cop) : list N :=
  match os with
  | [] => []
  | CWrite s :: os' => escape e s ++ ctext e os'
  | CPut c :: os' => c :: ctext e os'
  | CEnc e' :: os' => ctext e' os'
  | CFlush :: os' => ctext e os'
  end.

(** No text is written while an encoding is set. *)
Fixpoint plain (e : encoding) (os : list cop) : bool :=
  match os with
  | [] => true
  | CWrite s :: os' => match e, s with E_NONE, _ => plain e os' | _, [] => plain e os' | _, _ => false end
  | CPut c :: os' => plain e os'
  | CEnc e' :: os' => plain e' os'
  | CFlush :: os' => plain e os'
  end.

Definition op_size (o : cop) : nat := match o with CWrite s => length s | _ => 0 end.
Definition size_of (os : list cop) : nat := fold_right (fun o n => Nat.max (op_size o) n) 0 os.

(** All chunks but the last are full, the last is not. *)
Definition packed (cap : nat) (l : list (list N)) : Prop :=
  exists full last, l = full ++ [last] /\ Forall (fun c => length c = cap) full /\ length last < cap.

(** The encoding set by a history. *)
Fixpoint enc_after (e : encoding) (os : list cop) : encoding :=
  match os with
  | [] => e
  | CEnc e' :: os' => enc_after e' os'
  | _ :: os' => enc_after e os'
  end.

(** A written character is replaced by bytes that would begin in one block of
    [cap] bytes and end in the next. *)
Definition straddling (cap : nat) (os : list cop) : Prop :=
  exists pre a c b post, os = pre ++ CWrite (a ++ c :: b) :: post /\
    let e := enc_after E_NONE pre in
    cap < (length (ctext E_NONE pre) + length (escape e a)) mod cap + length (escape e [c]).

(** Characters that UTF-8 can represent. *)
Definition cop_scalar (o : cop) : Prop :=
  match o with CWrite s => Forall scalar s | CPut c => scalar c | _ => True end.

(** Each chunk holds whole characters in UTF-8 and fits; in all but the last
    there was no room for one more character of any kind. *)
Definition utf8_chunk (cap : nat) (c : list N) : Prop := exists u, Forall scalar u /\ c = utf8 u /\ length c <= cap.
Definition utf8_packed (cap : nat) (l : list (list N)) : Prop :=
  l = [] \/ exists front last, l = front ++ [last] /\ utf8_chunk cap last /\
    Forall (fun c => utf8_chunk cap c /\ cap < length c + 4) front.
