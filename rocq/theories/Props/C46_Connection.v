(** C46: SQL queries. *)
From Coq Require Import List Bool Arith Permutation.
From Verif Require Import Model.Connection Spec.ConnectionSpec Spec.ConnectionCases Proofs.ConnectionProofs.
Import ListNotations.

(** Queries go into the queue at its back, are sent from its front, and those
    of lost connections are put back at its front. *)
Theorem C46_queue : forall conc s, qreach conc s -> queue_after (z_log s) = Some (z_queue s).
Proof. exact queue_ok. Qed.
Print Assumptions C46_queue.

(** A query is sent only when all queued before it have had their turn. *)
Theorem C46_order : forall conc s l1 k b l2 x a y z, qreach conc s -> z_log s = l1 ++ VSent k b :: l2 -> queued (z_log s) = x ++ a :: y ++ b :: z ->
  In a (had_turn l1).
Proof. exact order_ok. Qed.
Print Assumptions C46_order.

(** A connection has one query at a time, and what comes on it is for that. *)
Theorem C46_one : forall conc s l1 e l2, qreach conc s -> z_log s = l1 ++ e :: l2 -> proper l1 e.
Proof. exact proper_ok. Qed.
Print Assumptions C46_one.

(** There are never more connections in use than allowed. *)
Theorem C46_concurrency : forall conc s, qreach conc s -> length (flying (z_conns s)) <= conc.
Proof. exact concurrency_ok. Qed.
Print Assumptions C46_concurrency.

(** Every query queued is waiting, in flight, completed or given up, and only
    one of them. *)
Theorem C46_where : forall conc s, qreach conc s ->
  Permutation (queued (z_log s)) (z_queue s ++ map snd (flying (z_conns s)) ++ completed (z_log s) ++ given_up (z_log s)) /\ NoDup (map y_id (queued (z_log s))).
Proof. exact where_ok. Qed.
Print Assumptions C46_where.

(** A callback is called once for each completed query that has one, and for
    no other. *)
Theorem C46_once : forall conc s, qreach conc s -> NoDup (map y_id (called_back (z_log s))) /\
  (forall q, In q (called_back (z_log s)) <-> In q (completed (z_log s)) /\ y_cb q = true) /\ incl (called_back (z_log s)) (queued (z_log s)).
Proof. exact once_ok. Qed.
Print Assumptions C46_once.

(** A results object has the first result that came for it. *)
Theorem C46_results : forall conc s o, qreach conc s -> z_res s o = first_result o (z_log s).
Proof. exact results_ok. Qed.
Print Assumptions C46_results.

(** The thread does not sleep over work: nothing is queued or every connection
    is busy, terminate is yet to wake it, and so is stop unless queries are
    waiting or in flight. *)
Theorem C46_sleep : forall conc s, qreach conc s -> z_pc s = QPoll -> z_bytes s = 0 ->
  (z_queue s = [] \/ all_busy s) /\ (z_term s = true -> 0 < z_waking s) /\ (z_stop s = true -> 0 < z_waking s \/ z_queue s <> [] \/ flying (z_conns s) <> []).
Proof. exact sleep_ok. Qed.
Print Assumptions C46_sleep.

(** stop does not wait for the queries in flight: their callbacks are never
    called. *)
Theorem C46_stop_refuted : exists s, qreach 1 s /\ z_pc s = QEnd /\ z_term s = false /\ queued (z_log s) = [Q0] /\ given_up (z_log s) = [Q0] /\ called_back (z_log s) = [].
Proof. exact stop_loses. Qed.
Print Assumptions C46_stop_refuted.

(** A query that cannot be sent is dropped, and the loop goes on with an
    iterator that is no longer valid. *)
Theorem C46_failed_refuted : exists s, qreach 1 s /\ z_pc s = QUndef /\ queued (z_log s) = [Q0] /\ given_up (z_log s) = [Q0] /\ called_back (z_log s) = [].
Proof. exact fail_undefined. Qed.
Print Assumptions C46_failed_refuted.

(** Anything the server sends unasked ends the process. *)
Theorem C46_notice_refuted : exists s, qreach 1 s /\ z_pc s = QExit /\ z_log s = [VCleared []].
Proof. exact notice_exits. Qed.
Print Assumptions C46_notice_refuted.

(** A query without a results object is undefined behaviour. *)
Theorem C46_no_results_refuted : exists s, qreach 1 s /\ z_pc s = QUndef /\ z_log s = [VCleared []; VQueued (mkQ 0 None true); VSent 5 (mkQ 0 None true)].
Proof. exact bare_undefined. Qed.
Print Assumptions C46_no_results_refuted.

(** A query put back keeps what it got on the lost connection, and its second
    answer is thrown away. *)
Theorem C46_again_refuted : exists s l1 l2, qreach 1 s /\ z_log s = l1 ++ VBack 5 Q0 :: l2 /\ called_back l1 = [] /\
  l2 = [VSent 6 Q0; VGot 6 Q0 2; VDone 6 Q0; VCalled Q0] /\ z_res s 0 = Some 1.
Proof. exact again_mixed. Qed.
Print Assumptions C46_again_refuted.

(** A results object used again keeps the results of the first query. *)
Theorem C46_reuse_refuted : exists s, qreach 1 s /\ called_back (z_log s) = [Q0; Q1] /\ In (VGot 5 Q1 43) (z_log s) /\ z_res s 0 = Some 42.
Proof. exact reuse_stale. Qed.
Print Assumptions C46_reuse_refuted.

(** [queue] may return true when the thread has ended; the query stays there,
    and starting the thread again drops it. *)
Theorem C46_late_refuted : exists s, qreach 1 s /\ z_pc s = QEnd /\ z_queue s = [Q0] /\ forall e, qstep 1 (AHand e) s = None.
Proof. exact late_lost. Qed.
Print Assumptions C46_late_refuted.
Theorem C46_restart_refuted : forall conc s s1 s2, z_pc s = QEnd -> qstep conc AStart s = Some s1 -> qexec conc [AHand ENone; AHand ENone] s1 = Some s2 -> z_queue s2 = [].
Proof. exact late_forgotten. Qed.
Print Assumptions C46_restart_refuted.

(** [queue] looks at the connections while the thread changes them, without a
    lock: both are possible in the same state and the answer depends on it. *)
Theorem C46_race_refuted : exists s k s1 s2, qreach 1 s /\ z_pc s = QConnect /\ qstep 1 (AHand (ELogin k)) s = Some s1 /\ z_conns s1 <> z_conns s /\
  qstep 1 (AAsk (Some 0) true) s = Some s2 /\ z_asked s2 <> z_asked (match qstep 1 (AAsk (Some 0) true) s1 with Some x => x | None => s1 end).
Proof. exact race. Qed.
Print Assumptions C46_race_refuted.

(** Of a query too long to be sent at once the rest goes only when the server
    says something: the thread does not wait for it to take more. *)
Theorem C46_long_refuted : exists s, qreach 1 s /\ lookup 5 (z_conns s) = Some (mkN (Some Q0) true) /\
  forall e s', qstep 1 (AHand e) s = Some s' -> exists i a b c ok rest r d, e = EEvent 5 i a b c ok rest r d /\ i || a || b || c = true.
Proof. exact rest_stuck. Qed.
Print Assumptions C46_long_refuted.

(** A query is answered; then two connections, a put-back and an order. *)
Example C46_ex : qreach 1 (q_end 1 run_answered) /\ z_log (q_end 1 run_answered) = [VCleared []; VQueued Q0; VSent 5 Q0; VGot 5 Q0 42; VDone 5 Q0; VCalled Q0] /\
  z_res (q_end 1 run_answered) 0 = Some 42.
Proof. split; [apply end_reach; vm_compute; reflexivity|]; vm_compute; split; reflexivity. Qed.
Example C46_ex_two : let s := q_end 2 run_two in let q i o c := mkQ i (Some o) c in qreach 2 s /\
  z_log s = [VCleared []; VQueued (q 1 1 true); VQueued (q 0 0 true); VQueued (q 2 2 false); VSent 5 (q 1 1 true); VSent 7 (q 0 0 true);
             VBack 5 (q 1 1 true); VSent 6 (q 1 1 true)] /\ z_queue s = [q 2 2 false] /\ z_pc s = QPoll /\ z_bytes s = 0.
Proof. split; [apply end_reach; vm_compute; reflexivity|]; vm_compute; repeat split. Qed.
