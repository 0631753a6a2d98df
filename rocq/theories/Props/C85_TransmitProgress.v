(** C85.  How sending goes on. *)
From Coq Require Import String List NArith ZArith Bool.
From Verif Require Import Model.Base Model.Protocol Model.Transceiver Model.Wake
  Spec.TransceiverSpec Spec.WakeSpec Spec.TransmitProgressSpec
  Proofs.TransmitProofs Proofs.TransmitProgressProofs.
Import ListNotations.
Local Open Scope nat_scope.

(** While clients read, all that had been handed over is with the kernel after
    so many steps of the I/O thread, whatever else is sent meanwhile; and a
    connection with a final record among it is closed. *)
Theorem C85_written : forall tr st l st', texec tr st -> texec (tr ++ l) st' -> Forall ev_ok (tr ++ l) ->
  Forall reading l ->
  5 * bytes_waiting st + 2 * length (waiting st) + 5 <= io_steps l ->
  forall s, s_valid (t_socks st' s) = true -> s_closing (t_socks st' s) = false ->
  (exists more, s_out (t_socks st' s) = contents (sends s tr) ++ more) /\ nokill (sends s tr).
Proof. exact written. Qed.
Print Assumptions C85_written.

(** The I/O thread always can go on. *)
Theorem C85_goes_on : forall tr st, texec tr st -> Forall ev_ok tr ->
  exists e st', io e = true /\ reading e /\ tstep e st = Some (Val st').
Proof. exact goes_on. Qed.
Print Assumptions C85_goes_on.

(** One client that does not read stops what is sent to all others. *)
Theorem C85_others_refuted : forall n, exists tr st l st',
  texec tr st /\ texec (tr ++ l) st' /\ Forall ev_ok (tr ++ l) /\ n <= io_steps l /\
  sends 2 tr = [([Some 9%N], false)] /\
  (forall l1 l2 st1 r, l = l1 ++ l2 -> texec (tr ++ l1) st1 -> t_pc st1 = TxHave r -> x_sock r = 1%N) /\
  s_valid (t_socks st' 1) = true /\
  s_valid (t_socks st' 2) = true /\ s_closing (t_socks st' 2) = false /\ s_out (t_socks st' 2) = [].
Proof. exact one_stalls_all. Qed.
Print Assumptions C85_others_refuted.

(** The I/O thread takes no more than so many steps for what comes from
    outside, writes that are not taken whole included ... *)
Theorem C85_no_spin : forall l s s', wexec l s = Some s' ->
  loops l <= 15 * (1 + w_bytes s + w_queue s + outside l s).
Proof. exact runs_bounded. Qed.
Print Assumptions C85_no_spin.

(** ... but while a client does not read it runs without end. *)
Theorem C85_spin_refuted : forall n, exists s l s',
  wreachable s /\ wexec l s = Some s' /\ n <= loops l /\ w_terminate s' = false /\
  Forall (fun a => a = WLoop EvNone 0 false) l.
Proof. exact spins_forever. Qed.
Print Assumptions C85_spin_refuted.

(** Three bytes for two clients that take one at a time, and a record that
    comes later. *)
Definition C85_start : list tev :=
  ([EAccept 1; EAccept 2; ESend 1 [Some 7; Some 8] false; ESend 2 [Some 9] false])%N.
Definition C85_more : list tev :=
  ([EPoll None; ERecv KAgain KAgain; EPop; EWrite (WTake 1); EBack; ESend 1 [Some 5] false] ++
   [EPoll None; ERecv KAgain KAgain; EPop; EWrite (WTake 1); EPop; EWrite (WTake 1); EPop; EWrite (WTake 3); EDone] ++
   concat (repeat [EPoll None; ERecv KAgain KAgain; EDone] 4))%N.

Example C85_example : exists st st', texec C85_start st /\ texec (C85_start ++ C85_more) st' /\
  Forall ev_ok (C85_start ++ C85_more) /\ Forall reading C85_more /\
  bytes_waiting st = 3 /\ length (waiting st) = 2 /\ io_steps C85_more = 26 /\
  s_valid (t_socks st' 1) = true /\ s_closing (t_socks st' 1) = false /\
  s_out (t_socks st' 1) = [Some 7; Some 8; Some 5]%N.
Proof.
  destruct (trun_ex C85_start (fun st => bytes_waiting st = 3 /\ length (waiting st) = 2)) as (st & T & A & B).
  { vm_compute. auto. }
  destruct (trun_ex (C85_start ++ C85_more) (fun st' => s_valid (t_socks st' 1) = true /\
    s_closing (t_socks st' 1) = false /\ s_out (t_socks st' 1) = [Some 7; Some 8; Some 5]%N)) as (st' & T' & D & E & G).
  { vm_compute. auto. }
  exists st, st'. split; [exact T|]. split; [exact T'|].
  split; [cbn; repeat (constructor; [exact I|]); constructor|].
  split; [cbn; repeat (constructor; [discriminate|]); constructor|]. auto 10.
Qed.
