(** C41: the HTTP client's thread. *)
From Coq Require Import List Bool Arith.
From Verif Require Import Model.Curler Spec.CurlerSpec Proofs.CurlerProofs.
Import ListNotations.

(** Whatever the threads do, no more requests than the concurrency run at
    once; those running are those started and not done. *)
Theorem C41_bound : forall conc s, creachable conc s -> length (k_run s) <= conc /\
  forall c, times c (k_run s) = times c (started (k_log s)) - times c (done (k_log s)).
Proof. exact bound. Qed.
Print Assumptions C41_bound.

(** Requests are started in the order they were queued in, none left out. *)
Theorem C41_order : forall conc s, creachable conc s -> queued (k_log s) = started (k_log s) ++ k_queue s.
Proof. exact in_order. Qed.
Print Assumptions C41_order.

(** A request is not done more often than it is started, and not started more
    often than it is queued. *)
Theorem C41_once : forall conc s c, creachable conc s ->
  times c (done (k_log s)) <= times c (started (k_log s)) <= times c (queued (k_log s)).
Proof. exact done_once. Qed.
Print Assumptions C41_once.

(** No callback is called unless the request is done. *)
Theorem C41_callbacks : forall conc s c, creachable conc s -> times c (called (k_log s)) <= times c (done (k_log s)).
Proof. exact callbacks. Qed.
Print Assumptions C41_callbacks.

(** The callback of a request used once is called at most once, and is only
    still missing while the handler is about to call it. *)
Theorem C41_callback_once : forall conc s c, creachable conc s -> user_of c (k_log s) = [ESet c; EQueued c] ->
  times c (called (k_log s)) <= 1 /\
  (times c (called (k_log s)) < times c (done (k_log s)) -> exists l, k_pc s = HCall c l).
Proof. exact callback_once. Qed.
Print Assumptions C41_callback_once.

(** When the thread ends, and not because of [terminate], it has been told to
    stop and nothing is queued or running. *)
Theorem C41_stop : forall conc a s s', creachable conc s -> cstep conc a s = Some s' -> k_pc s <> HEnd -> k_pc s' = HEnd ->
  k_term s' = true \/ (k_stop s' = true /\ k_queue s' = [] /\ k_run s' = []).
Proof. exact stop_step. Qed.
Print Assumptions C41_stop.

(** Then the callback of each request used once and not queued since has been
    called. *)
Theorem C41_callback_at_stop : forall conc s c, creachable conc s -> user_of c (k_log s) = [ESet c; EQueued c] ->
  k_pc s = HEnd -> k_term s = false -> ~ In c (k_queue s) -> times c (called (k_log s)) = 1.
Proof. exact callback_at_stop. Qed.
Print Assumptions C41_callback_at_stop.

(** No wake-up is lost: with no call under way the handler does not sleep on
    something it should act on. *)
Theorem C41_noticed : forall conc s, creachable conc s -> quiet s -> k_pc s = HPoll -> news conc s -> k_bytes s <> 0.
Proof. exact noticed. Qed.
Print Assumptions C41_noticed.

(** The handler never waits for the mutex but for a thread that can go on. *)
Theorem C41_no_deadlock : forall conc s, creachable conc s -> k_pc s = HWake \/ k_pc s = HWant -> k_owner s <> None ->
  exists t s', k_owner s = Some (Some t) /\ cstep conc (AThread t) s = Some s'.
Proof. exact no_block. Qed.
Print Assumptions C41_no_deadlock.

(** If no request is queued twice, the process is not made to fail. *)
Theorem C41_no_fail : forall conc s, creachable conc s -> NoDup (queued (k_log s)) -> k_pc s <> HFail.
Proof. exact no_fail. Qed.
Print Assumptions C41_no_fail.

(** One that is queued again before it is done makes the process fail. *)
Theorem C41_twice_refuted : exists s, creachable 2 s /\ k_pc s = HFail /\ queued (k_log s) = [0; 0].
Proof. exact twice. Qed.
Print Assumptions C41_twice_refuted.

(** A request that is given a new callback and queued again by someone its
    callback has told may be done without that ever being reported: the
    callback is cleared after it has been called. *)
Theorem C41_reuse_refuted : exists s, creachable 1 s /\ k_pc s = HPoll /\ quiet s /\
  k_log s = [ESet 0; EQueued 0; EStarted 0; EDone 0; ECalled 0; ESet 0; EQueued 0; EStarted 0; EDone 0].
Proof. exact reuse. Qed.
Print Assumptions C41_reuse_refuted.

(** Three requests, two at once: the third waits. *)
Example C41_ex_bound : exists s,
  cexec 2 ([h; h] ++ queues 1 7 ++ [AQueue 1 8; AThread 1; AThread 1; AThread 1; AQueue 2 9; AThread 2; AThread 2; AThread 2] ++ wakes) c_init = Some s /\
  k_run s = [7; 8] /\ k_queue s = [9] /\ started (k_log s) = [7; 8] /\ queued (k_log s) = [7; 8; 9].
Proof. eexists; split; [vm_compute; reflexivity|]; repeat split. Qed.

(** One is run to its end, the thread is told to stop. *)
Example C41_ex_end : exists s,
  cexec 1 ([h; h; ASet 7] ++ queues 1 7 ++ wakes ++ reports 7 ++ [AStop 1; AThread 1; AThread 1; AThread 1] ++ [h; h; h; h]) c_init = Some s /\
  user_of 7 (k_log s) = [ESet 7; EQueued 7] /\ k_pc s = HEnd /\ k_term s = false /\ k_queue s = [] /\ called (k_log s) = [7].
Proof. eexists; split; [vm_compute; reflexivity|]; repeat split. Qed.

(** The handler sleeps, a request is queued: a byte is there. *)
Example C41_ex_noticed : exists s,
  cexec 1 ([h; h] ++ queues 1 7) c_init = Some s /\ k_pc s = HPoll /\ k_queue s = [7] /\ k_bytes s = 1.
Proof. eexists; split; [vm_compute; reflexivity|]; repeat split. Qed.

(** The handler waits for a thread in [queue]. *)
Example C41_ex_wait : exists s,
  cexec 1 ([h; h] ++ queues 1 7 ++ [h; AQueue 2 8; AThread 2]) c_init = Some s /\ k_pc s = HWake /\ k_owner s = Some (Some 2).
Proof. eexists; split; [vm_compute; reflexivity|]; repeat split. Qed.
