(** Separators of digits in texts that addresses are read from, written
    independently of the model. *)
From Coq Require Import List NArith.
Import ListNotations.
Local Open Scope N_scope.

(** The separator directly follows no decimal digit. *)
Definition apart (sep : N) (l : list N) : Prop :=
  forall l1 c l2, l = l1 ++ c :: sep :: l2 -> ~ (48 <= c <= 57).

(** A character that may be a separator: no digit and no sign. *)
Definition separator (c : N) : Prop := ~ (48 <= c <= 57) /\ c <> 43 /\ c <> 45.
