(** C21, C58: wake-ups of the I/O thread. *)
From Coq Require Import List Bool Arith.
From Verif Require Import Model.Wake Spec.WakeSpec Proofs.WakeProofs Proofs.WakeStop.
Import ListNotations.

(** C21.  At most one byte is ever in the socket pair, a writer always finds it
    empty (so [write] does not block), the reader always finds the byte. *)
Theorem C21_bounded : forall s, wreachable s ->
  w_bytes s <= 1 /\ (forall t, w_threads s t = KWrite -> w_bytes s = 0) /\
  (w_loop s = LRead -> w_bytes s = 1) /\ w_loop s <> LFail.
Proof. exact wake_bounded. Qed.
Print Assumptions C21_bounded.

(** The I/O thread never sleeps over a call of [wake] that returned; nor, once
    [send], [terminate] and [stop] have returned, over a record to be sent,
    over the request to terminate, or over the request to stop when there is
    no connection left. *)
Theorem C21_not_slept_over : forall s, wreachable s -> asleep s ->
  w_due s = 0 /\
  (w_queue s <> 0 \/ w_terminate s = true \/ (w_stop s = true /\ w_conns s = 0) -> exists t, w_threads s t <> KOut).
Proof. exact not_slept_over. Qed.
Print Assumptions C21_not_slept_over.

(** And a call never hangs: it can go on, or the holder of the mutex can. *)
Theorem C21_no_deadlock : forall s, wreachable s -> forall t, w_threads s t <> KOut ->
  exists a s', wstep a s = Some s' /\
    (a = WRun t \/ (exists t', w_owner s = Some (Some t') /\ a = WRun t') \/
     (w_owner s = Some None /\ exists e c f, a = WLoop e c f)).
Proof. exact wake_no_deadlock. Qed.
Print Assumptions C21_no_deadlock.

(** Two threads call [send] while the I/O thread sleeps; one is about to write. *)
Example C21_example : exists s, wexec wake_case w_init = Some s /\ wreachable s /\
  asleep s /\ w_queue s = 2 /\ w_threads s 1 = KWrite /\ w_threads s 2 = KWant.
Proof.
  eexists. split; [vm_compute; reflexivity|]. split; [exists wake_case; vm_compute; reflexivity|].
  repeat split.
Qed.

(** C58.  After [stop] has returned the I/O thread does not go to sleep with a
    listening socket in the poll list, unless it was refreshing the listeners
    while [stop] had set m_refreshListeners and not yet m_accept. *)
Theorem C58_listener : forall l s, wexec l w_init = Some s -> apart l w_init -> quiet s -> asleep s -> w_stop s = true ->
  w_accept s = false /\ w_listening s = false.
Proof. exact listener_gone. Qed.
Print Assumptions C58_listener.

Example C58_ex_listener : exists s, wexec clean_case w_init = Some s /\ apart clean_case w_init /\ quiet s /\ asleep s /\
  w_stop s = true /\ w_conns s = 1.
Proof.
  eexists. split; [vm_compute; reflexivity|]. split; [|split; [|repeat split]].
  - vm_compute. repeat (split; [intros [[b E] [t K]]; first [discriminate E|destruct t as [|[|t]]; discriminate K]|]).
    exact I.
  - intros [|[|t]]; reflexivity.
Qed.

(** In that case they may stay in the list. *)
Theorem C58_listener_refuted : exists s, wreachable s /\
  quiet s /\ asleep s /\ w_stop s = true /\ w_accept s = false /\ w_listening s = true.
Proof. exact listener_kept. Qed.
Print Assumptions C58_listener_refuted.

(** Even so, from then on no connection is taken in. *)
Theorem C58_refuses : forall s a s', w_accept s = false -> wstep a s = Some s' ->
  w_accept s' = false /\ w_conns s' <= w_conns s.
Proof. exact refuses. Qed.
Print Assumptions C58_refuses.

(** Somebody connects in that state: the connection is closed at once. *)
Example C58_example : exists s s', wexec stop_case w_init = Some s /\ w_accept s = false /\
  wstep (WLoop EvListener 0 true) s = Some s' /\ w_conns s = 1 /\ w_conns s' = 1.
Proof.
  eexists. eexists. split; [vm_compute; reflexivity|]. repeat split; vm_compute; reflexivity.
Qed.
