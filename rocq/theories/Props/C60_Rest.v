(** C60: left to themselves the threads of the manager come to rest.  C33: what
    becomes of them in the end. *)
From Coq Require Import List NArith Bool Arith.
From Verif Require Import Model.Base Model.RequestMap Model.Manager Spec.ManagerSpec Spec.ManagerCases Proofs.ManagerEnds.
Import ListNotations.

(** C60.  However the threads take turns, as long as nothing comes from
    outside they take finitely many steps. *)
Theorem C60_comes_to_rest : forall (M : Type) (begins : M -> bool) (s : Manager.state M), reachable begins s ->
  ~ exists f : nat -> Manager.state M, f 0 = s /\ forall i, goes_on begins (f i) (f (S i)).
Proof. exact @no_endless. Qed.
Print Assumptions C60_comes_to_rest.

(** The same, as an order on states: no state that can be reached is at the
    top of an endless descent. *)
Theorem C60_well_founded : forall (M : Type) (begins : M -> bool) (s : Manager.state M), reachable begins s ->
  Acc (fun s' s => goes_on begins s s') s.
Proof. exact @comes_to_rest. Qed.
Print Assumptions C60_well_founded.

(** When no thread can go on, each of them is idle. *)
Theorem C60_rest_is_idle : forall (M : Type) (begins : M -> bool) (s : Manager.state M), reachable begins s ->
  (forall s', ~ goes_on begins s s') -> orderly s -> (forall t o, uses s t o -> o_alive (s_objs s o) = true) -> forall t, idle s t.
Proof. exact @rest_is_idle. Qed.
Print Assumptions C60_rest_is_idle.

(** When all are idle and there is a handler thread, nothing is left undone:
    no task waits, every management record has been handed to
    [localHandler], and each live request has been given every message that
    was pushed to it. *)
Theorem C60_nothing_left : forall (M : Type) (begins : M -> bool) (s : Manager.state M), reachable begins s ->
  (forall t, idle s t) -> s_terminate s = false -> s_stop s = false -> (exists t, t_base (s_threads s t) = HWaiting) ->
  s_tasks s = [] /\ local_out (s_hist s) = local_in (s_hist s) /\
  forall o, o_alive (s_objs s o) = true -> taken o (s_log s) = pushed o (s_log s).
Proof. exact @nothing_left. Qed.
Print Assumptions C60_nothing_left.

Example C60_example : after case_resting (fun s => reachable is_begin s /\ (forall t, idle s t) /\ s_terminate s = false /\ s_stop s = false /\
  t_base (s_threads s 1) = HWaiting /\ o_alive (s_objs s 0) = true /\ pushed 0 (s_log s) = [7; 8]%N).
Proof. exact rest_example. Qed.

(** A state from which a thread goes on. *)
Example C60_goes_on : after case_handling (fun s => reachable is_begin s /\ exists s', goes_on is_begin s s').
Proof.
  eexists. split; [vm_compute; reflexivity|]. split; [exists case_handling; vm_compute; reflexivity|].
  eexists. exists 1, (AReturn true). split; [vm_compute; reflexivity|exact I].
Qed.

(** C33.  After [terminate], once no thread can go on, every handler thread
    has ended. *)
Theorem C33_terminate_ends : forall (M : Type) (begins : M -> bool) (s : Manager.state M), reachable begins s ->
  s_terminate s = true -> (forall s', ~ goes_on begins s s') -> orderly s -> (forall t o, uses s t o -> o_alive (s_objs s o) = true) ->
  forall t, t_base (s_threads s t) = BOther \/ t_base (s_threads s t) = HDone.
Proof. exact @terminate_done. Qed.
Print Assumptions C33_terminate_ends.

Example C33_terminate_example : after case_terminated (fun s => reachable is_begin s /\ s_terminate s = true /\
  t_base (s_threads s 1) = HDone /\ s_requests s <> []).
Proof.
  eexists. split; [vm_compute; reflexivity|]. split; [exists case_terminated; vm_compute; reflexivity|].
  split; [reflexivity|]. split; [reflexivity|discriminate].
Qed.

(** The handler threads leave when there is no request, though connections are
    still open.  A request that then comes in on one of them is accepted and
    its messages queued, but whatever happens they are never handled, unless
    threads are started again. *)
Theorem C33_late_request_refuted : exists s : Manager.state N, reachable is_begin s /\ s_stop s = true /\ s_terminate s = false /\
  o_alive (s_objs s 0) = true /\ pushed 0 (s_log s) = [7%N] /\
  forall l s', Forall (fun x => snd x <> ASpawn) l -> exec is_begin l s = Some s' -> taken 0 (s_log s') = [].
Proof. exact late_request. Qed.
Print Assumptions C33_late_request_refuted.
