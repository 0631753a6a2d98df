(** C99: Socket objects as handles of connections. *)
From Coq Require Import List Arith Bool.
From Verif Require Import Model.Base Model.SocketHandles Spec.SocketHandlesSpec Proofs.SocketHandlesProofs.
Import ListNotations.

(** Whatever is done with handles, and whenever, nothing touches the group
    after its end. *)
Theorem C99_safe : forall l, s_run l s_init <> SUndef.
Proof. exact handles_safe. Qed.
Print Assumptions C99_safe.

(** No connection is closed twice. *)
Theorem C99_once : forall s, s_reached s -> NoDup (s_closed s) /\ forall d, In d (s_closed s) -> d < opened s.
Proof. exact closed_once. Qed.
Print Assumptions C99_once.

(** Every handle knows whether its connection is closed, whoever closed it. *)
Theorem C99_valid : forall s i d, s_reached s -> handle_of s i d -> (says_valid s i <-> ~ In d (s_closed s)).
Proof. exact valid_open. Qed.
Print Assumptions C99_valid.

(** Making, copying, moving, assigning and destroying handles closes nothing. *)
Theorem C99_handling : forall s s' a, s_reached s -> handling a -> s_step a s = SOn s' ->
  s_closed s' = s_closed s /\ opened s' = opened s.
Proof. exact handling_closes_nothing. Qed.
Print Assumptions C99_handling.

(** Copy and original, the object moved to and the one moved from, are handles
    of the same connection ... *)
Theorem C99_same : forall s s' i d a, In a [SCopy i; SMove i] -> handle_of s i d -> s_step a s = SOn s' ->
  handle_of s' i d /\ handle_of s' (length (s_handles s)) d.
Proof. exact same_connection. Qed.
Print Assumptions C99_same.

(** ... and so are both sides of an assignment. *)
Theorem C99_assigned : forall s s' i j, s_step (SAssign i j) s = SOn s' -> forall d, handle_of s j d -> handle_of s' i d.
Proof. exact assigned_connection. Qed.
Print Assumptions C99_assigned.

(** Closing through any handle closes that connection and no other. *)
Theorem C99_close : forall s s' i d, s_reached s -> handle_of s i d -> s_step (SClose i) s = SOn s' ->
  In d (s_closed s') /\ (forall e, e <> d -> In e (s_closed s') -> In e (s_closed s)).
Proof. exact closing_closes. Qed.
Print Assumptions C99_close.

(** At the end of the group every connection there ever was has been closed,
    and no handle says otherwise. *)
Theorem C99_end : forall s s', s_reached s -> s_step SEnd s = SOn s' ->
  (forall d, d < opened s' -> In d (s_closed s')) /\ (forall i, ~ says_valid s' i).
Proof. exact ended_closed. Qed.
Print Assumptions C99_end.

(** Three connections, the second not taken into the poll.  The first is closed
    through a copy of a copy, the third by the end of the group; handles go on
    being used. *)
Definition story : list sact :=
  [SOpen true false; SGive 0; SCopy 0; SMove 1; SDestroy 0; SOpen false false; SOpen true false; SGive 2; SDefault;
   SAssign 4 3; SUse 3 false; SClose 2; SUse 1 true; SEnd; SUse 4 true; SClose 3; SCopy 3; SDestroy 3].
Example C99_case :
  match s_run story s_init with
  | SOn s => s_closed s = [1; 0; 2] /\ opened s = 3 /\ handle_of s 4 2 /\ handle_of s 2 0 /\ handle_of s 1 0 /\ handle_of s 5 2
  | _ => False
  end.
Proof. vm_compute. repeat split; eexists; split; reflexivity. Qed.

Example C99_valid_case :
  match s_run [SOpen true false; SGive 0; SCopy 0; SDestroy 0] s_init with
  | SOn s => says_valid s 1 /\ s_closed s = [] | _ => False end /\
  match s_run [SOpen true true; SOpen true false; SGive 1; SCopy 0; SUse 0 true] s_init with
  | SOn s => handle_of s 1 1 /\ s_closed s = [0; 1] | _ => False end.
Proof. vm_compute. split; (split; [eexists; split; reflexivity|reflexivity]). Qed.
