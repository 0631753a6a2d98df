(** C83: with a mail server that does its part all mail is handed over; when
    the sender waits and when it does not. *)
From Coq Require Import String List NArith Bool Arith Lia.
From Verif Require Import Model.Base Model.Mailer Spec.MailerSpec Spec.MailerCases Spec.MailerProgressSpec Proofs.MailerProofs Proofs.MailDataProofs Proofs.MailerProgressProofs.
Import ListNotations.

(** From any state in which the server has said nothing wrong on the present
    connection: after so many steps all mail with a recipient is handed over. *)
Theorem C83_done : forall o k x s n w s', 12 < k -> mreachable o s -> x_term s = false -> good_so_far k x s -> goes_on o k x s n w s' ->
  3 * (1 + (x + 9) * k) * (1 + length (unsent s)) + 3 * w < n ->
  x_queue s' = [] /\ purged (x_log s') = filter addressed (queued (x_log s')).
Proof. exact all_done. Qed.
Print Assumptions C83_done.

(** The thread can always go on that way … *)
Theorem C83_goes_on : forall o k x n s, 12 < k -> mreachable o s -> x_term s = false -> good_so_far k x s -> alive s ->
  exists m s', goes_on o k x s m 0 s' /\ (m = n \/ (m <= n /\ x_pc s' = MEnd)).
Proof. exact keeps_going. Qed.
Print Assumptions C83_goes_on.

(** … with defined behaviour, and to an end only if told to stop and all is
    handed over; … *)
Theorem C83_stays : forall o k x s n w s', 12 < k -> mreachable o s -> x_term s = false -> good_so_far k x s -> alive s -> goes_on o k x s n w s' ->
  good_so_far k x s' /\ x_pc s' <> MUndef /\ (x_pc s' = MEnd -> x_stop s = true /\ purged (x_log s') = filter addressed (queued (x_log s'))).
Proof. exact stays. Qed.
Print Assumptions C83_stays.

(** … and told to stop it does come to the end. *)
Theorem C83_stops : forall o k x s n w s', 12 < k -> mreachable o s -> x_term s = false -> x_stop s = true -> good_so_far k x s -> goes_on o k x s n w s' ->
  n <= 3 * (1 + (x + 9) * k) * (1 + length (unsent s)) + 3 * w + 2.
Proof. exact stops. Qed.
Print Assumptions C83_stops.

(** When a round goes wrong (no connection, a bad answer, or a write that did
    not go out) the connection is closed, and no other is made before the time
    for a retry is waited for. *)
Theorem C83_retry : forall o v s s1, mreachable o s -> mstep o (ANet v) s = Some s1 -> failed v s s1 ->
  opened s1 = false /\ forall l s', mexec o l s1 = Some s' -> connections (x_log s') <> connections (x_log s1) -> retries o l s1.
Proof. exact error_retry. Qed.
Print Assumptions C83_retry.

(** But a server that hangs up is connected to again at once, any number of
    times. *)
Theorem C83_hammer_refuted : forall o e n, m_to e <> [] ->
  exists l s, mexec o l m_init = Some s /\ connections (x_log s) = n /\ ~ retries o l m_init.
Proof. intros o e n H. destruct (hammer o e n H) as (s & A). exact (ex_intro _ _ (ex_intro _ s A)). Qed.
Print Assumptions C83_hammer_refuted.

(** And with all handed over and the connection closed the thread goes round
    without waiting, whatever the network does. *)
Theorem C83_rounds_refuted : forall o s v n, x_pc s = MTop -> x_state s <> ERROR -> x_sock s = SClosed -> unsent s = [] -> x_stop s = false -> x_term s = false ->
  mexec o (concat (repeat [AGo; ANet v] n)) s = Some s.
Proof. exact rounds. Qed.
Print Assumptions C83_rounds_refuted.

(** Two emails, the server in the middle of taking the first, half a line
    there: both get handed over. *)
Definition half : mst := at_end (AMail T0 :: AMail dotmail :: script (firstn 4 good) ++ turns [lit "250 s"]).
Example C83_ex : x_state half = MAIL /\ x_sock half = SOpen /\ x_line half = lit "250 s" /\ purged (x_log half) = [] /\ unsent half = [T0; dotmail]
  /\ mreachable (lit "me") half /\ good_so_far 20 5 half
  /\ exists n s', goes_on (lit "me") 20 5 half n 0 s' /\ purged (x_log s') = [T0; dotmail].
Proof.
  assert (R : mreachable (lit "me") half) by (apply at_end_reach; vm_compute; reflexivity).
  assert (G : good_so_far 20 5 half).
  { intros _. exists (lit "ure" ++ [10%N])%list. split; [discriminate|]. exists (lit "250 sure"), []. split; [vm_compute; intuition discriminate|]. split; [vm_compute; lia|].
    assert (X : x_state half = MAIL) by (vm_compute; reflexivity). rewrite X. assert (Y : x_line half = lit "250 s") by (vm_compute; reflexivity). rewrite Y.
    split; [exists (lit "sure"); reflexivity|reflexivity]. }
  do 5 (split; [vm_compute; reflexivity|]). split; [exact R|]. split; [exact G|].
  assert (T : x_term half = false) by (vm_compute; reflexivity).
  assert (Al : alive half) by (split; vm_compute; discriminate).
  assert (Qd : filter addressed (queued (x_log half)) = [T0; dotmail]) by (vm_compute; reflexivity).
  generalize dependent half. intros s R G T Al Qd. assert (K : 12 < 20) by lia.
  destruct (C83_goes_on (lit "me") 20 5 (S (3 * (1 + (5 + 9) * 20) * (1 + length (unsent s)) + 3 * 0)) s K R T G Al) as (m & s' & S & E).
  exists m, s'. split; [exact S|]. rewrite <- Qd, <- (goes_queued _ _ _ _ _ _ _ S). destruct E as [E|[_ E]].
  - apply (C83_done (lit "me") 20 5 s m 0 s' K R T G S). rewrite E. apply Nat.lt_succ_diag_r.
  - apply (C83_stays (lit "me") 20 5 s m 0 s' K R T G Al S). exact E.
Qed.
(** A mail that was refused is tried again after the wait; so it is when the
    server cannot be reached. *)
Example C83_ex_retry : let s := at_end (AMail T0 :: script ["220 hi"]%string ++ [AGo]) in let l := [AGo; AGo; ANet (arrives (line "220 hi"))] in
  exists s1 s', mreachable (lit "me") s /\ mstep (lit "me") (ANet (arrives (line "500 no"))) s = Some s1 /\ failed (arrives (line "500 no")) s s1
  /\ mexec (lit "me") l s1 = Some s' /\ connections (x_log s1) = 1 /\ connections (x_log s') = 2 /\ retries (lit "me") l s1.
Proof.
  set (s := at_end _). assert (R : mreachable (lit "me") s) by (apply at_end_reach; vm_compute; reflexivity).
  destruct (mstep (lit "me") (ANet (arrives (line "500 no"))) s) as [s1|] eqn:E; [|vm_compute in E; discriminate].
  destruct (mexec (lit "me") [AGo; AGo; ANet (arrives (line "220 hi"))] s1) as [s'|] eqn:M; [|vm_compute in E; injection E as <-; vm_compute in M; discriminate].
  assert (F : failed (arrives (line "500 no")) s s1).
  { right. split; [left; vm_compute; reflexivity|]. exists [LRead (line "500 no")], (lit "500 no"), []. vm_compute in E. injection E as <-.
    split; [vm_compute; reflexivity|]. left. intros x h P. change (asked s) with EHLO in P. destruct P as [[r P] _]. discriminate P. }
  assert (C : connections (x_log s1) = 1) by (vm_compute in E; injection E as <-; vm_compute; reflexivity).
  assert (C' : connections (x_log s') = 2) by (vm_compute in E; injection E as <-; vm_compute in M; injection M as <-; vm_compute; reflexivity).
  exists s1, s'. split; [exact R|]. split; [first [exact E|reflexivity]|]. split; [exact F|]. split; [exact M|]. split; [exact C|]. split; [exact C'|].
  apply (proj2 (C83_retry _ _ _ _ R E F) _ s' M). rewrite C, C'. discriminate.
Qed.
Example C83_ex_unreachable : let s := at_end [AMail T0; AGo] in exists s1, mstep (lit "me") (ANet (mkEnv false false [] false 0 [])) s = Some s1 /\ failed (mkEnv false false [] false 0 []) s s1.
Proof. eexists. split; [vm_compute; reflexivity|]. left. repeat split; vm_compute; reflexivity. Qed.
(** Delivered, and round and round. *)
Example C83_ex_rounds : let s := at_end (talk T0 good) in purged (x_log s) = [T0] /\ mexec (lit "me") (concat (repeat [AGo; ANet (arrives [])] 1000)) s = Some s.
Proof. split; [vm_compute; reflexivity|]. apply C83_rounds_refuted; vm_compute; try reflexivity. discriminate. Qed.
