(** C90: what [stop] and [terminate] do to the whole server. *)
From Coq Require Import String List NArith ZArith Bool.
From Verif Require Import Model.Base Model.Transceiver Model.RequestMap Model.Streams Model.Environment Model.Request Model.System Model.Shutdown
  Spec.TransceiverSpec Spec.SystemSpec Spec.SystemCases Spec.ShutdownSpec Proofs.ShutdownProofs Proofs.ShutdownCases.
From Verif Require Model.Manager.
Import ListNotations.
Open Scope nat_scope.

(** The I/O thread leaves its loop only when [terminate] was called, or when
    [stop] was called and every connection is closed. *)
Theorem C90_leaves : forall vts junk http_time k (U : Type) (A : application U) maxPost u x,
  hreach vts junk http_time k A maxPost u x -> h_ended x = true ->
  Manager.s_terminate (y_man (h_sys x)) = true \/
  (Manager.s_stop (y_man (h_sys x)) = true /\ forall s, s_valid (t_socks (y_net (h_sys x)) s) = false).
Proof. exact @leaves. Qed.
Print Assumptions C90_leaves.

(** So if it left without [terminate], then of every connection there ever
    was, all that was sent up to the first final record is with the kernel, or
    the other side left, or a read or write failed. *)
Theorem C90_written : forall vts junk http_time k (U : Type) (A : application U) maxPost u x s,
  hreach vts junk http_time k A maxPost u x -> Forall ev_ok (y_tr (h_sys x)) -> h_ended x = true ->
  Manager.s_terminate (y_man (h_sys x)) = false -> s_born (t_socks (y_net (h_sys x)) s) = true ->
  left_by_peer s (y_tr (h_sys x)) \/ read_failed s (y_tr (h_sys x)) \/ write_failed s (y_tr (h_sys x)) \/
  finished s (y_tr (h_sys x)) (y_net (h_sys x)).
Proof. exact @settled. Qed.
Print Assumptions C90_written.

(** Once [stop] was called and every connection is closed, it does leave: a
    number of its steps that depends only on what is queued and sent is
    enough, *)
Theorem C90_ends : forall vts junk http_time k (U : Type) (A : application U) maxPost u x l x',
  hreach vts junk http_time k A maxPost u x -> Manager.s_stop (y_man (h_sys x)) = true ->
  (forall s, s_valid (t_socks (y_net (h_sys x)) s) = false) ->
  hexec vts junk http_time k A maxPost u l x = Some (Done x') ->
  4 + 2 * length (t_queue (y_net (h_sys x))) + 2 * send_count l <= io_count l -> h_ended x' = true.
Proof. exact @ends. Qed.
Print Assumptions C90_ends.

(** and there always is one to make, when it has handed over every message. *)
Theorem C90_goes_on : forall vts junk http_time k (U : Type) (A : application U) maxPost u x,
  hreach vts junk http_time k A maxPost u x -> Manager.s_stop (y_man (h_sys x)) = true ->
  (forall s, s_valid (t_socks (y_net (h_sys x)) s) = false) -> h_ended x = false -> io_free (h_sys x) = true ->
  exists v x', io_step v = 1 /\ hstep vts junk http_time k A maxPost u v x = Some (Done x').
Proof. exact @goes_on. Qed.
Print Assumptions C90_goes_on.

(** The handler threads need not end, so [join] need not return: when the
    final record of one request closes a connection on which another request
    has begun, nobody tells the manager, and that request stays in [m_requests].
    There is a state in which [stop] was called, every connection is closed, the
    I/O thread is gone and a handler thread waits; unless somebody calls
    [terminate] or the application itself pushes a message, no handler thread
    ever leaves handler(). *)
Theorem C90_join_refuted : exists x : shut (U := N),
  hreach (fun b _ => b) (repeat 0%N) (fun _ => 0%Z) Narrow quick 1000 0%N x /\
  Manager.s_stop (y_man (h_sys x)) = true /\ h_ended x = true /\
  (forall s, s_valid (t_socks (y_net (h_sys x)) s) = false) /\ Manager.t_base (Manager.s_threads (y_man (h_sys x)) 1) = Manager.HWaiting /\
  forall l x', no_calls l -> hexec (fun b _ => b) (repeat 0%N) (fun _ => 0%Z) Narrow quick 1000 0%N l x = Some (Done x') ->
    Manager.s_requests (y_man (h_sys x')) <> [] /\ forall t, Manager.t_base (Manager.s_threads (y_man (h_sys x')) t) <> Manager.HDone.
Proof. exact never_ends. Qed.
Print Assumptions C90_join_refuted.

(** Two requests on one connection, the first answered with 48 bytes in two
    records; [stop]; the I/O thread ends. *)
Example C90_stopped : hreach (fun b _ => b) (repeat 0%N) (fun _ => 0%Z) Narrow quick 1000 0%N (halted true) /\
  Forall ev_ok (y_tr (h_sys (halted true))) /\ h_ended (halted true) = true /\
  Manager.s_terminate (y_man (h_sys (halted true))) = false /\ s_born (t_socks (y_net (h_sys (halted true))) 1) = true /\
  length (s_out (t_socks (y_net (h_sys (halted true))) 1)) = 48 /\ length (sends 1 (y_tr (h_sys (halted true)))) = 2.
Proof. exact (halted_case true). Qed.

(** Before it does. *)
Example C90_stopping : hreach (fun b _ => b) (repeat 0%N) (fun _ => 0%Z) Narrow quick 1000 0%N (stopping true) /\
  Manager.s_stop (y_man (h_sys (stopping true))) = true /\
  (forall s, s_valid (t_socks (y_net (h_sys (stopping true))) s) = false) /\ h_ended (stopping true) = false /\ io_free (h_sys (stopping true)) = true /\
  hexec (fun b _ => b) (repeat 0%N) (fun _ => 0%Z) Narrow quick 1000 0%N (to_end true) (stopping true) = Some (Done (halted true)) /\
  4 + 2 * length (t_queue (y_net (h_sys (stopping true)))) + 2 * send_count (to_end true) <= io_count (to_end true).
Proof. exact ends_case. Qed.

(** With the first request alone the handler thread ends too. *)
Example C90_alone : h_ended (halted false) = true /\ Manager.t_base (Manager.s_threads (y_man (h_sys (halted false))) 1) = Manager.HDone.
Proof. split; vm_compute; reflexivity. Qed.

(** After [terminate] the thread is gone with both records still queued. *)
Example C90_terminated : hreach (fun b _ => b) (repeat 0%N) (fun _ => 0%Z) Narrow quick 1000 0%N cut /\ h_ended cut = true /\
  Manager.s_terminate (y_man (h_sys cut)) = true /\ length (t_queue (y_net (h_sys cut))) = 2 /\
  s_valid (t_socks (y_net (h_sys cut)) 1) = true /\ s_out (t_socks (y_net (h_sys cut)) 1) = [].
Proof. split; [exact cut_reach|]. repeat split; vm_compute; reflexivity. Qed.
