(** C76: which shared data is touched without its lock. *)
From Coq Require Import List Bool Arith.
From Verif Require Import Model.Race Spec.RaceSpec Proofs.RaceProofs.
Import ListNotations.

(** Every data race there can be is one of the seven of [known_race]. *)
Theorem C76_races : forall c f r1 w1 r2 w2, treach c -> race c f r1 w1 r2 w2 ->
  known_race f r1 w1 r2 w2 \/ known_race f r2 w2 r1 w1.
Proof. exact races. Qed.
Print Assumptions C76_races.

(** All else is free of races. *)
Theorem C76_safe : forall c f r1 w1 r2 w2, safe f = true -> treach c -> ~ race c f r1 w1 r2 w2.
Proof. exact no_race. Qed.
Print Assumptions C76_safe.

(** No thread takes a lock it has, gives back one it has not, or ends with one. *)
Theorem C76_locks : forall c i t, treach c -> nth_error c i = Some t ->
  (forall m, about_lock t = Some m -> holds m (t_held t) = false)
  /\ (forall m, about_unlock t = Some m -> holds m (t_held t) = true)
  /\ (t_code t = [] -> t_held t = []).
Proof. exact disciplined. Qed.
Print Assumptions C76_locks.

(** Transceiver::transmit looks at m_sendBuffer while a handler sends. *)
Theorem C76_send_refuted : exists c, treach c /\ race c FSend RIo false RHandler true.
Proof. exact race_send. Qed.
Print Assumptions C76_send_refuted.

(** Manager_base::resizeThreads looks at m_stop while another thread stops. *)
Theorem C76_stop_refuted : exists c, treach c /\ race c FStop RControl false ROutside true.
Proof. exact race_stop. Qed.
Print Assumptions C76_stop_refuted.

(** A handler asks whether a socket is valid while it is closed. *)
Theorem C76_valid_refuted : exists c, treach c /\ race c (FValid 0) RIo true RHandler false.
Proof. exact race_valid. Qed.
Print Assumptions C76_valid_refuted.

(** listen() adds a listener while the transceiver polls. *)
Theorem C76_listeners_refuted : exists c, treach c /\ race c FListeners RControl true RIo false.
Proof. exact race_listeners. Qed.
Print Assumptions C76_listeners_refuted.

(** Curler::stop sets m_waking while the curler's thread clears it. *)
Theorem C76_curl_refuted : exists c, treach c /\ race c FcWaking RControl true RCurl true.
Proof. exact race_curl. Qed.
Print Assumptions C76_curl_refuted.

(** The SQL thread looks at the queue while a query is queued. *)
Theorem C76_sql_queue_refuted : exists c, treach c /\ race c FsQueue RSql false ROutside true.
Proof. exact race_sql_queue. Qed.
Print Assumptions C76_sql_queue_refuted.

(** The SQL thread adds a connection while queue() counts them. *)
Theorem C76_sql_connections_refuted : exists c, treach c /\ race c FsConns RSql true ROutside false.
Proof. exact race_sql_connections. Qed.
Print Assumptions C76_sql_connections_refuted.

(** Two handlers, one of them about to write the task queue under its lock, the
    other waiting for that lock. *)
Definition C76_two : list thread :=
  match trun (at_thread 5 [0;0;0;0;0;1;0;0;1]) (t_init 2 0) with Some c => c | None => [] end.
Example C76_ex_two : treach C76_two
  /\ option_map about (nth_error C76_two 5) = Some (Some (FTasks, true))
  /\ option_map about_lock (nth_error C76_two 6) = Some (Some MTasks)
  /\ option_map t_held (nth_error C76_two 5) = Some [(MTasks, true)].
Proof. repeat split; try reflexivity. exists 2, 0, (at_thread 5 [0;0;0;0;0;1;0;0;1]). reflexivity. Qed.
(** A race that is there is one of the known ones. *)
Example C76_ex_race : exists c, treach c /\ race c FSend RIo false RHandler true /\ known_race FSend RIo false RHandler true.
Proof. destruct C76_send_refuted as (c & A & B). exists c. split; [exact A|]. split; [exact B|]. repeat split; discriminate. Qed.
