(** C67: starting, stopping, joining and destroying HTTP client, SQL connection
    and mailer. *)
From Coq Require Import List Bool Arith.
From Verif Require Import Model.Lifecycle Model.Workers Spec.WorkersSpec Proofs.WorkersProofs.
Import ListNotations.

(** Destroying works exactly when every [start] was followed by a [join];
    otherwise the program is aborted. *)
Theorem C67_destroy : forall k l b s, k_run k l (k_init b) = KOn s ->
  (k_joined l -> k_step k KDestroy s = KGone) /\ (~ k_joined l -> k_step k KDestroy s = KAbort).
Proof. exact k_destroy_exact. Qed.
Print Assumptions C67_destroy.

(** [start] gets the thread running unless it has ended without a [join]
    since; it changes nothing if it is running. *)
Theorem C67_start : forall k l b s, k_run k l (k_init b) = KOn s -> k_not_left l ->
  exists s', k_step k KStart s = KOn s' /\ k_running s' /\ (k_running s -> s' = s).
Proof. exact k_start_runs. Qed.
Print Assumptions C67_start.

(** The thread leaves only after [terminate], or after [stop] with all the
    work done ... *)
Theorem C67_leaves : forall k l b s s' l2 s2, k_run k l (k_init b) = KOn s -> k_thread s = Vacant ->
  k_run k (KStart :: l2) s = KOn s' -> ~ In KLeave l2 -> k_step k KLeave s' = KOn s2 ->
  In KTerminate l2 \/ (In KStop l2 /\ k_work s' = false).
Proof. exact k_leaves. Qed.
Print Assumptions C67_leaves.

(** ... and then it does: no [start] undoes a [stop]. *)
Theorem C67_stop_kept : forall k l b s l2 s', k_run k l (k_init b) = KOn s -> k_thread s = Vacant ->
  k_run k (KStart :: l2) s = KOn s' -> ~ In KLeave l2 -> In KStop l2 -> k_work s' = false ->
  exists s2, k_step k KLeave s' = KOn s2.
Proof. exact k_stop_kept. Qed.
Print Assumptions C67_stop_kept.

(** The same for [terminate], whatever work is left. *)
Theorem C67_terminate_kept : forall k l b s l2 s', k_run k l (k_init b) = KOn s -> k_thread s = Vacant ->
  k_run k (KStart :: l2) s = KOn s' -> ~ In KLeave l2 -> In KTerminate l2 ->
  exists s2, k_step k KLeave s' = KOn s2.
Proof. exact k_terminate_kept. Qed.
Print Assumptions C67_terminate_kept.

(** [join] comes back only after [stop] or [terminate]. *)
Theorem C67_join_waits : forall k l b s l2 s', k_run k l (k_init b) = KOn s -> k_thread s = Vacant ->
  k_run k (KStart :: l2 ++ [KJoin]) s = KOn s' -> ~ In KJoin l2 -> In KTerminate l2 \/ In KStop l2.
Proof. exact k_join_waits. Qed.
Print Assumptions C67_join_waits.

(** What can be called before the first [start]. *)
Theorem C67_early : forall k l a b s, k_run k l (k_init b) = KOn s -> ~ In KStart l -> early_ok k b a = true ->
  k_step k a s <> KUndef /\ k_step k a s <> KBlocked.
Proof. exact k_early. Qed.
Print Assumptions C67_early.

(** REFUTED for the rest: on an object that is not static they examine a
    member without a value. *)
Theorem C67_early_refuted : forall c,
  k_step KCurler KStop (k_init false) = KUndef /\ k_step KCurler KTerminate (k_init false) = KUndef /\
  k_step KCurler (KQueue c) (k_init false) = KUndef /\ k_step KConnection (KQueue c) (k_init false) = KUndef.
Proof. repeat split. Qed.
Print Assumptions C67_early_refuted.

(** REFUTED: a [stop] is heeded: one before [start] is forgotten. *)
Theorem C67_forgotten_refuted : forall k l s', k_run k ([KStop; KStart] ++ l) (k_init true) = KOn s' ->
  ~ In KStop l -> ~ In KTerminate l -> k_running s'.
Proof. exact k_forgotten. Qed.
Print Assumptions C67_forgotten_refuted.

(** REFUTED: after [stop] [start] gets things going again: not without a
    [join] in between. *)
Theorem C67_unjoined_refuted : forall k b, exists s, k_run k [KStart; KStop; KLeave; KStart] (k_init b) = KOn s /\
  forall l s', k_run k l s = KOn s' -> ~ In KJoin l -> k_thread s' = Ended.
Proof. exact k_unjoined. Qed.
Print Assumptions C67_unjoined_refuted.

(** REFUTED: what is queued gets done: HTTP client and mailer take it when the
    thread has left, and there it stays.  [queue] does not tell. *)
Theorem C67_late_refuted : forall k, k <> KConnection -> forall b, exists s,
  k_run k [KStart; KStop; KLeave; KQueue true] (k_init b) = KOn s /\ k_work s = true /\
  forall l s', k_run k l s = KOn s' -> ~ In KJoin l -> k_work s' = true /\ k_thread s' = Ended.
Proof. exact k_late. Qed.
Print Assumptions C67_late_refuted.

(** Two rounds, the second ended with work left. *)
Definition c67_rounds : list kact :=
  [KStart; KQueue true; KStop; KWork false; KLeave; KJoin; KStart; KStart; KQueue true; KTerminate; KLeave; KJoin].

Example C67_example : forall k b, exists s,
  k_run k c67_rounds (k_init b) = KOn s /\ k_work s = true /\ k_step k KDestroy s = KGone /\
  k_run k (firstn 3 c67_rounds ++ [KLeave]) (k_init b) = KBlocked /\
  k_run k (firstn 4 c67_rounds ++ [KDestroy]) (k_init b) = KAbort.
Proof.
  intros [] []; eexists; (split; [vm_compute; reflexivity|]); (split; [reflexivity|]); (split; [reflexivity|]);
    split; vm_compute; reflexivity.
Qed.
