(** C64: starting, stopping, joining, resizing, destroying. *)
From Coq Require Import List Bool Arith.
From Verif Require Import Model.Lifecycle Spec.LifecycleSpec Proofs.LifecycleProofs.
Import ListNotations.

(** Destroying a manager works exactly when every [start] was followed by a
    [join]; otherwise the program is aborted, whether the manager was stopped
    or terminated or not. *)
Theorem C64_destroy : forall n j1 j2 l s, g_run l (g_init n j1 j2) = GOn s ->
  (all_joined l -> g_step GDestroy s = GGone) /\ (~ all_joined l -> g_step GDestroy s = GAbort).
Proof. exact destroy_exact. Qed.
Print Assumptions C64_destroy.

(** [start] gets every thread running if none has ended since the last
    [join], so in particular the first time and after a [join]. *)
Theorem C64_start : forall n j1 j2 l s, g_run l (g_init n j1 j2) = GOn s -> none_left l ->
  exists s', g_step GStart s = GOn s' /\ all_running (length (g_threads s)) s'.
Proof. exact start_runs. Qed.
Print Assumptions C64_start.

(** A running manager is not changed by it. *)
Theorem C64_start_again : forall n s, all_running n s -> g_tstop s = false -> g_tterm s = false ->
  g_step GStart s = GOn s.
Proof. exact start_again. Qed.
Print Assumptions C64_start_again.

(** There are as many handler threads as asked for in the constructor ... *)
Theorem C64_threads : forall n j1 j2 l s, g_run l (g_init n j1 j2) = GOn s -> (forall k, ~ In (GResize k) l) ->
  length (g_threads s) = n.
Proof. exact initial_kept. Qed.
Print Assumptions C64_threads.

(** ... or by [resizeThreads], if made before the first start or after [stop]
    and [join]. *)
Theorem C64_resize : forall n j1 j2 l s k, g_run l (g_init n j1 j2) = GOn s -> all_joined l -> stopped_last l ->
  exists s', g_step (GResize k) s = GOn s' /\ length (g_threads s') = k.
Proof. exact resize_works. Qed.
Print Assumptions C64_resize.

(** When [join] comes back no thread is running ... *)
Theorem C64_join : forall s s', g_step GJoin s = GOn s' -> none_running s /\ none_running s' /\
  Forall (fun t => t = Vacant) (g_threads s') /\ g_io s' = Vacant.
Proof. exact join_rests. Qed.
Print Assumptions C64_join.

(** ... and it comes back only after [stop] or [terminate]. *)
Theorem C64_join_waits : forall n j1 j2 l1 l2 s, g_run (l1 ++ [GStart] ++ l2 ++ [GJoin]) (g_init n j1 j2) = GOn s ->
  none_left l1 -> In GStop l2 \/ In GTerminate l2.
Proof. exact join_waits. Qed.
Print Assumptions C64_join_waits.

(** A running handler thread can leave exactly when there was a [terminate]
    since the last [start], or a [stop] and no request is left; the I/O thread
    when there was a [terminate], or a [stop] and no connection is left. *)
Theorem C64_leaves : forall n j1 j2 l1 l2 s, g_run (l1 ++ [GStart] ++ l2) (g_init n j1 j2) = GOn s -> ~ In GStart l2 ->
  (forall i, nth i (g_threads s) Vacant = Alive ->
    ((exists s', g_step (GLeave i) s = GOn s') <->
     In GTerminate l2 \/ (In GStop l2 /\ requests_left (l1 ++ [GStart] ++ l2) = false))) /\
  (g_io s = Alive ->
    ((exists s', g_step GLeaveIo s = GOn s') <->
     In GTerminate l2 \/ (In GStop l2 /\ sockets_left (l1 ++ [GStart] ++ l2) = false))).
Proof. exact leaving. Qed.
Print Assumptions C64_leaves.

(** Started again after a [stop] without [join] between, the manager looks
    started but has no thread, and gets none by any number of further starts
    and stops. *)
Theorem C64_unjoined_refuted : forall n j1 j2, exists s,
  g_run (down_up n) (g_init n j1 j2) = GOn s /\ g_stop s = false /\ g_term s = false /\
  forall l s', g_run l s = GOn s' -> ~ In GJoin l -> (forall k, ~ In (GResize k) l) -> none_running s'.
Proof. exact unjoined_witness. Qed.
Print Assumptions C64_unjoined_refuted.

(** There [join] comes back at once. *)
Theorem C64_early_join_refuted : forall n j1 j2, exists s s',
  g_run (down_up n) (g_init n j1 j2) = GOn s /\ g_stop s = false /\ g_term s = false /\ g_step GJoin s = GOn s'.
Proof. exact early_join_witness. Qed.
Print Assumptions C64_early_join_refuted.

(** After [terminate] and [join] [resizeThreads] does nothing. *)
Theorem C64_resize_ignored_refuted : forall n k j1 j2, n <> k -> exists s s',
  g_run ([GStart; GTerminate] ++ leave_all n ++ [GLeaveIo; GJoin]) (g_init n j1 j2) = GOn s /\
  g_run [GResize k; GStart] s = GOn s' /\ length (g_threads s') = n.
Proof. exact resize_ignored_witness. Qed.
Print Assumptions C64_resize_ignored_refuted.

(** Between [stop] and [join] a smaller number aborts the program. *)
Theorem C64_resize_abort_refuted : forall n k j1 j2, k < n ->
  g_run [GStart; GStop; GResize k] (g_init n j1 j2) = GAbort.
Proof. exact resize_abort_witness. Qed.
Print Assumptions C64_resize_abort_refuted.

(** [start] on a manager that is still running undoes a [stop]. *)
Theorem C64_cancel_refuted : forall n j1 j2, exists s,
  g_run [GStart; GStop; GStart] (g_init n j1 j2) = GOn s /\
  forall l s', g_run l s = GOn s' -> ~ In GStop l -> ~ In GTerminate l ->
    Forall (fun t => t = Alive) (g_threads s') /\ g_io s' = Alive.
Proof. exact cancel_witness. Qed.
Print Assumptions C64_cancel_refuted.

(** Two rounds with one and then two handler threads. *)
Definition c64_rounds : list gact :=
  [GStart; GRequests true; GStop; GRequests false; GLeave 0; GLeaveIo; GJoin; GResize 2;
   GStart; GTerminate; GLeave 1; GLeaveIo; GLeave 0; GJoin].

Example C64_example :
  (exists s, g_run c64_rounds (g_init 1 false true) = GOn s /\ length (g_threads s) = 2 /\ g_step GDestroy s = GGone) /\
  g_run (firstn 5 c64_rounds ++ [GJoin]) (g_init 1 false true) = GBlocked /\
  g_run (firstn 13 c64_rounds ++ [GDestroy]) (g_init 1 false true) = GAbort.
Proof. vm_compute. split; [eexists; split; [reflexivity|split; reflexivity]|split; reflexivity]. Qed.

Example C64_leaving :
  g_run [GStart; GRequests true; GStop; GLeave 0] (g_init 1 false true) = GBlocked /\
  g_run [GStart; GSockets true; GStop; GLeaveIo] (g_init 1 false true) = GBlocked /\
  (exists s, g_run [GStart; GRequests true; GStop; GRequests false; GSockets true; GLeave 0] (g_init 1 false true) = GOn s) /\
  exists s, g_run [GStart; GSockets true; GTerminate; GLeaveIo] (g_init 1 false true) = GOn s.
Proof. repeat split; eexists; reflexivity. Qed.
