(** Vocabulary of the statements about starting and stopping the objects with
    one thread. *)
From Coq Require Import List Bool Arith.
From Verif Require Import Model.Lifecycle Model.Workers.
Import ListNotations.

(** Every [start] was followed by a [join] that came back. *)
Definition k_joined (l : list kact) : Prop :=
  forall l1 l2, l = l1 ++ KStart :: l2 -> In KJoin l2.

(** The thread has not ended since the last [join]. *)
Definition k_not_left (l : list kact) : Prop :=
  forall l1 l2, l = l1 ++ KLeave :: l2 -> In KJoin l2.

Definition k_running (s : worker) : Prop := k_thread s = Alive.

(** What may be called on an object that was never started, without examining
    an indeterminate value. *)
Definition early_ok (k : kind) (static : bool) (a : kact) : bool :=
  match a with
  | KStart | KJoin | KDestroy => true
  | KStop | KTerminate => static || match k with KCurler => false | _ => true end
  | KQueue _ => static || match k with KMailer => true | _ => false end
  | KWake | KWork _ | KLeave => false
  end.
