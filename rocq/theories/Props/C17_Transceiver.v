(** C17 to C20: the transceiver. *)
From Coq Require Import String List NArith ZArith Bool.
From Verif Require Import Model.Base Model.Protocol Model.Block Model.Transceiver
  Spec.WireSpec Spec.TransceiverSpec Proofs.TransceiverProofs Proofs.TransmitProofs Proofs.LostProofs.
Import ListNotations.

(** C17.  What was delivered from connection [s] are the first records of what
    the peer sent, each once and whole, and nothing that was read holds a
    further whole record. *)
Theorem C17_reassembly : forall tr st s, texec tr st -> Forall ev_ok tr ->
  exists recs rest,
    peer_bytes s tr = concat (map snd recs) ++ rest /\
    filter (is_rec_of s) (t_msgs st) = map (fun '(id, r) => MRecord id s (known r)) recs /\
    Forall (fun '(id, r) => whole_record id r) recs /\
    (s_valid (t_socks st s) = true ->
     exists partial, rest = partial ++ s_in (t_socks st s) /\
       forall id w t, whole_record id w -> partial <> w ++ t).
Proof. exact reassembly. Qed.
Print Assumptions C17_reassembly.

(** Once everything is read, every record has been delivered. *)
Theorem C17_all_delivered : forall tr st s rs, texec tr st -> Forall ev_ok tr ->
  Forall (fun '(id, r) => whole_record id r) rs ->
  peer_bytes s tr = concat (map snd rs) ->
  s_valid (t_socks st s) = true -> s_in (t_socks st s) = [] ->
  filter (is_rec_of s) (t_msgs st) = map (fun '(id, r) => MRecord id s (known r)) rs.
Proof. exact reassembly_all. Qed.
Print Assumptions C17_all_delivered.

(** A read attempt with data waiting takes some of it. *)
Theorem C17_progress : forall tr st s c1 c2, texec tr st -> Forall ev_ok tr ->
  t_pc st = AtRecv (Some s) -> s_valid (t_socks st s) = true -> s_in (t_socks st s) <> [] ->
  exists st', tstep (ERecv (KGive (S c1)) (KGive (S c2))) st = Some (Val st') /\
    (length (s_in (t_socks st' s)) < length (s_in (t_socks st s)))%nat.
Proof. exact receive_takes. Qed.
Print Assumptions C17_progress.

(** No step is undefined: no byte outside a buffer or never written is used. *)
Theorem C17_no_undefined_step : forall tr st e r, texec tr st -> Forall ev_ok tr -> ev_ok e ->
  tstep e st = Some r -> r <> UB.
Proof. exact no_ub. Qed.
Print Assumptions C17_no_undefined_step.

(** When a connection is closed, all that was read and not delivered is less
    than a record, or a single bare header from a peer that has closed its
    side. *)
Theorem C17_lost : forall tr st s, texec tr st -> Forall ev_ok tr ->
  s_valid (t_socks st s) = false ->
  exists recs partial,
    peer_bytes s tr = concat (map snd recs) ++ partial ++ s_in (t_socks st s) /\
    filter (is_rec_of s) (t_msgs st) = map (fun '(id, r) => MRecord id s (known r)) recs /\
    Forall (fun '(id, r) => whole_record id r) recs /\
    ((forall id w t, whole_record id w -> partial <> w ++ t) \/
     (s_closing (t_socks st s) = true /\ length partial = 8%nat /\ exists id, whole_record id partial)).
Proof. exact close_loses. Qed.
Print Assumptions C17_lost.

(** The bare header is lost indeed: a
    complete record without content is read but not delivered. *)
Theorem C17_half_closed_record_lost_refuted : exists tr st r,
  texec tr st /\ Forall ev_ok tr /\ whole_record 1 r /\
  peer_bytes 1 tr = r /\ s_in (t_socks st 1) = [] /\ t_msgs st = [MClosed 1].
Proof. exact half_closed_record_lost. Qed.
Print Assumptions C17_half_closed_record_lost_refuted.

(** Two records, the first split in the header and in the content, with an
    empty read in between; part of a third. *)
Definition C17_trace : list tev :=
  ([EAccept 1; EPeer 1 [1;5;0;1;0]; EPoll (Some (1, false)); ERecv (KGive 3) KAgain; EDone;
    EPoll (Some (1, false)); ERecv KAgain KAgain; EDone;
    EPeer 1 [2;1;0;65;66;0;1;5;0;1;0;0;0;0;1;5]; EPoll (Some (1, false)); ERecv (KGive 9) (KGive 1); EDone;
    EPoll (Some (1, false)); ERecv (KGive 9) (KGive 9); EDone;
    EPoll (Some (1, false)); ERecv (KGive 9) (KGive 9); EDone;
    EPoll (Some (1, false)); ERecv (KGive 9) (KGive 9); EDone])%N.

Example C17_ex : Forall ev_ok C17_trace /\ exists st, texec C17_trace st /\
  t_msgs st = [MRecord 1 1 (known [1;5;0;1;0;2;1;0;65;66;0]%N); MRecord 1 1 (known [1;5;0;1;0;0;0;0]%N)] /\
  s_valid (t_socks st 1) = true /\ s_in (t_socks st 1) = [].
Proof.
  split; [unfold C17_trace; repeat apply Forall_cons; cbn; auto; repeat constructor|].
  apply trun_ex. vm_compute. auto.
Qed.

(** A record, the beginning of another, then the peer hangs up. *)
Definition C17_hangup : list tev :=
  ([EAccept 1; EPeer 1 [1;5;0;1;0;1;0;0;65;1;5;0]; EPoll (Some (1, false)); ERecv (KGive 9) (KGive 1); EDone;
    EPoll (Some (1, true)); ERecv (KGive 9) KAgain; EDone; EPoll (Some (1, true)); ERecv KEof KAgain; EDone])%N.

Example C17_ex_lost : Forall ev_ok C17_hangup /\ exists st, texec C17_hangup st /\
  s_valid (t_socks st 1) = false /\
  t_msgs st = [MRecord 1 1 (known [1;5;0;1;0;1;0;0;65]%N); MClosed 1] /\ s_in (t_socks st 1) = [].
Proof.
  split; [unfold C17_hangup; repeat apply Forall_cons; cbn; auto; repeat constructor|].
  apply trun_ex. vm_compute. auto.
Qed.

(** C18.  A read on one connection touches nothing of another one and, when it
    finds the connection gone, discards the partial input and notifies once. *)
Theorem C18_isolation : forall tr st o1 o2 st' s, texec tr st -> Forall ev_ok tr ->
  t_pc st = AtRecv (Some s) -> tstep (ERecv o1 o2) st = Some (Val st') ->
  (forall x, x <> s -> t_socks st' x = t_socks st x /\ t_bufs st' x = t_bufs st x /\
     msgs_of x (t_msgs st') = msgs_of x (t_msgs st)) /\
  t_queue st' = t_queue st /\
  (s_valid (t_socks st s) = true -> s_valid (t_socks st' s) = false ->
   t_bufs st' s = b_empty /\ t_msgs st' = t_msgs st ++ [MClosed s]).
Proof. exact recv_isolated. Qed.
Print Assumptions C18_isolation.

(** Over a whole execution: at most one notification, after all records. *)
Theorem C18_notified_once : forall tr st s, texec tr st -> Forall ev_ok tr ->
  exists recs tail, msgs_of s (t_msgs st) = recs ++ tail /\
    (forall m, In m recs -> is_rec_of s m = true) /\
    (tail = [] \/ (tail = [MClosed s] /\ s_valid (t_socks st s) = false /\ t_bufs st s = b_empty)).
Proof. exact closed_once. Qed.
Print Assumptions C18_notified_once.

(** Sending, transmitting and polling change no connection's input. *)
Theorem C18_output_leaves_input : forall e st st' s, tstep e st = Some (Val st') ->
  match e with EPeer _ _ | ERecv _ _ | EAccept _ => False | _ => True end ->
  t_msgs st' = t_msgs st /\ s_in (t_socks st' s) = s_in (t_socks st s) /\
  (s_valid (t_socks st' s) = true -> t_bufs st' s = t_bufs st s).
Proof. exact other_events_quiet. Qed.
Print Assumptions C18_output_leaves_input.

(** The notification is missing when it is a write that finds the connection
    broken, and the partial input stays. *)
Theorem C18_write_error_silent_refuted : exists tr st,
  texec tr st /\ Forall ev_ok tr /\
  s_born (t_socks st 1) = true /\ s_valid (t_socks st 1) = false /\
  t_msgs st = [] /\ b_size (t_bufs st 1) = 3%nat.
Proof. exact write_error_silent. Qed.
Print Assumptions C18_write_error_silent_refuted.

Definition C18_trace : list tev :=
  ([EAccept 1; EAccept 2; EPeer 1 [1;5;0]; EPeer 2 [1;5;0;7;0;0;0;0]; EPoll (Some (1, false));
    ERecv (KGive 9) KAgain; EDone; EPoll (Some (2, false))])%N.

Example C18_ex : Forall ev_ok C18_trace /\ exists st, texec C18_trace st /\
  t_pc st = AtRecv (Some 2%N) /\
  match tstep (ERecv (KGive 8) (KGive 8)) st with
  | Some (Val st') =>
      msgs_of 2 (t_msgs st') = [MRecord 7 2 (known [1;5;0;7;0;0;0;0]%N)] /\ b_size (t_bufs st' 1) = 3%nat
  | _ => False
  end.
Proof.
  split; [unfold C18_trace; repeat apply Forall_cons; cbn; auto; repeat constructor|].
  apply trun_ex. vm_compute. auto.
Qed.

(** C19.  The bytes the kernel took for a connection are a prefix of the
    records sent to it, in order. *)
Theorem C19_prefix : forall tr st s, texec tr st -> Forall ev_ok tr ->
  exists rest, contents (sends s tr) = s_out (t_socks st s) ++ rest.
Proof. exact written_prefix. Qed.
Print Assumptions C19_prefix.

Theorem C19_drained : forall tr st s, texec tr st -> Forall ev_ok tr ->
  s_valid (t_socks st s) = true -> s_closing (t_socks st s) = false ->
  (forall r, In r (t_queue st) -> x_sock r <> s) ->
  (forall r, t_pc st = TxHave r \/ t_pc st = TxBack r -> x_sock r <> s) ->
  s_out (t_socks st s) = contents (sends s tr).
Proof. exact drained. Qed.
Print Assumptions C19_drained.

(** Why [C19_drained] asks that the peer has not closed its side: then records
    are dropped. *)
Theorem C19_half_closed_dropped : forall st r o, t_pc st = TxHave r ->
  s_closing (t_socks st (x_sock r)) = true ->
  exists st', tstep (EWrite o) st = Some (Val st') /\ t_pc st' = TxTop /\ t_queue st' = t_queue st /\
    forall s, s_out (t_socks st' s) = s_out (t_socks st s).
Proof. exact half_closed_dropped. Qed.
Print Assumptions C19_half_closed_dropped.

(** Sends to two connections with a partial write, a send in the middle of it,
    and a close after the final record of the first. *)
Definition C19_trace : list tev :=
  ([EAccept 1; EAccept 2; ESend 1 [Some 1; Some 2] false; EPoll None; ERecv KAgain KAgain;
    EPop; EWrite (WTake 1); ESend 2 [Some 9] false; EBack; ESend 1 [Some 3] true; EPoll None;
    ERecv KAgain KAgain; EPop; EWrite (WTake 9); EPop; EWrite (WTake 9); EPop])%N.

Example C19_ex : Forall ev_ok C19_trace /\ exists st, texec C19_trace st /\
  s_valid (t_socks st 1) = true /\
  match tstep (EWrite (WTake 4)) st with
  | Some (Val st') => s_valid (t_socks st' 1) = false /\
      s_out (t_socks st' 1) = [Some 1; Some 2; Some 3]%N /\ s_out (t_socks st' 2) = [Some 9%N]
  | _ => False
  end.
Proof.
  split; [unfold C19_trace; repeat apply Forall_cons; cbn; auto; repeat constructor|].
  apply trun_ex. vm_compute. auto.
Qed.

(** C20.  When transmitting closes a connection, either the kernel refused the
    write or the first record marked final and all before it are completely
    written, and the partial input is dropped. *)
Theorem C20_close_after_final : forall tr st o st' s, texec tr st -> Forall ev_ok tr ->
  tstep (EWrite o) st = Some (Val st') ->
  s_valid (t_socks st s) = true -> s_valid (t_socks st' s) = false ->
  o = WErr \/
  exists pre d post, sends s tr = pre ++ (d, true) :: post /\ nokill pre /\
    s_out (t_socks st' s) = contents pre ++ d /\ t_bufs st' s = b_empty.
Proof. exact local_close. Qed.
Print Assumptions C20_close_after_final.

(** While a connection is open, its final record is not completely written. *)
Theorem C20_open_until_written : forall tr st s pre d post, texec tr st -> Forall ev_ok tr ->
  s_valid (t_socks st s) = true -> sends s tr = pre ++ (d, true) :: post -> d <> [] ->
  (length (s_out (t_socks st s)) < length (contents pre ++ d))%nat.
Proof. exact open_until_written. Qed.
Print Assumptions C20_open_until_written.

(** Nothing but a read attempt and a write closes a connection. *)
Theorem C20_nothing_else_closes : forall e st st' s, tstep e st = Some (Val st') ->
  s_valid (t_socks st s) = true -> s_valid (t_socks st' s) = false ->
  (exists o1 o2, e = ERecv o1 o2) \/ (exists o, e = EWrite o).
Proof. exact close_events. Qed.
Print Assumptions C20_nothing_else_closes.

(** [C19_ex] also meets the hypotheses of [C20_close_after_final]; here those
    of [C20_open_until_written]. *)
Example C20_ex :
  sends 1 C19_trace = [([Some 1; Some 2]%N, false)] ++ [([Some 3%N], true)] /\
  exists st, texec C19_trace st /\
    s_valid (t_socks st 1) = true /\ s_out (t_socks st 1) = [Some 1; Some 2]%N.
Proof. split; [reflexivity|]. apply trun_ex. vm_compute. auto. Qed.
