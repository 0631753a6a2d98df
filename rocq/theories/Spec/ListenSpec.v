(** Vocabulary for C75 and C81. *)
From Coq Require Import List NArith Bool Arith.
From Verif Require Import Model.Base Model.Listen.
Import ListNotations.
Local Open Scope N_scope.

(** The group after some calls, among which other programs may have changed
    files. *)
Definition lreach (l : list lop) (s : lst) : Prop := exists files zero, lexec l (l_init files zero) = Some s.

(** The file has the mode and the owner asked for; what is not asked for is as
    the kernel made it. *)
Definition as_asked (k : kans) (mode : N) (owner group : option path) (f : file) : Prop :=
  f_mode f = (if mode =? 0xffffffff then fst (k_new k) else mode)
  /\ match owner, group with
     | Some _, Some _ => k_user k = Some (fst (f_owner f)) /\ k_group k = Some (snd (f_owner f))
     | _, _ => f_owner f = snd (k_new k)
     end.

(** A call with a name that fits and after whose bind nothing fails. *)
Definition smooth (o : lop) : Prop :=
  match o with
  | LUnix k name _ _ _ => (length name <= 107)%nat /\ k_chown k = true /\ k_chmod k = true /\ k_listen k = true
  | _ => True
  end.

(** No call of [listen] for this name nor for one with the same first 107
    bytes, and no other program touches the file. *)
Definition elsewhere (p : path) (o : lop) : Prop :=
  match o with
  | LUnix _ name _ _ _ => name <> p /\ sun_path name <> p
  | LOther q _ => q <> p
  | _ => True
  end.
