(** Proofs for C83. *)
From Coq Require Import String List NArith Bool Arith Lia.
From Verif Require Import Model.Base Model.Mailer Spec.MailerSpec Spec.MailerProgressSpec Proofs.MailerProofs.
Import ListNotations.

(** ** One answer *)
Definition to_come (x h : nat) (st : mstate) : nat :=
  match st with
  | CONNECTED => x + 9 | EHLO => (x - h) + 8 | EIGHTBIT => (x - h) + 7 | MAIL => 6 | RCPT => 5 | DATA => 4 | DUMP => 3 | QUIT => 2
  | DISCONNECTED | ERROR => 0
  end.
Definition talking (st : mstate) : Prop := st <> DISCONNECTED /\ st <> ERROR.

Lemma dash_not_space : forall l, answers "250-" l -> code "250" space l = false.
Proof. intros l [r ->]. reflexivity. Qed.
Lemma reply_good : forall o x h st l e, proper x h st l -> exists st' k ev p, reply o st l e SOpen [] = (st', k, ev, p) /\
  ((k = SOpen /\ to_come x (S h) st' < to_come x h st /\ st' <> QUIT /\ st <> QUIT /\ talking st' /\ p = false)
   \/ (st = DUMP /\ st' = QUIT /\ k = SOpen /\ p = true)
   \/ (st = QUIT /\ st' = DISCONNECTED /\ k = SClosed /\ p = false)).
Proof.
  intros o x h st l e P. destruct st; cbn [proper reply] in *; try contradiction.
  - rewrite (answers_space "220" l P). do 4 eexists. split; [reflexivity|]. left. cbn [to_come]. unfold talking. repeat split; try discriminate; lia.
  - destruct P as [A B]. destruct (list_eqb l (lit "250-8BITMIME")) eqn:E.
    + do 4 eexists. split; [reflexivity|]. left. cbn [to_come]. unfold talking. repeat split; try discriminate; lia.
    + rewrite (answers_dash "250" l A). do 4 eexists. split; [reflexivity|]. left. cbn [to_come]. unfold talking.
      destruct B as [B|B]; [|apply eqb_list in B; congruence]. repeat split; try discriminate; lia.
  - destruct P as [A|[A B]].
    + rewrite (answers_space "250" l A). do 4 eexists. split; [reflexivity|]. left. cbn [to_come]. unfold talking. repeat split; try discriminate; lia.
    + rewrite (dash_not_space l A), (answers_dash "250" l A). do 4 eexists. split; [reflexivity|]. left. cbn [to_come]. unfold talking. repeat split; try discriminate; lia.
  - rewrite (answers_space "250" l P). do 4 eexists. split; [reflexivity|]. left. cbn [to_come]. unfold talking. repeat split; try discriminate; lia.
  - rewrite (answers_space "250" l P). do 4 eexists. split; [reflexivity|]. left. cbn [to_come]. unfold talking. repeat split; try discriminate; lia.
  - rewrite (answers_space "354" l P), send_all_free. do 4 eexists. split; [reflexivity|]. left. cbn [to_come]. unfold talking. repeat split; try discriminate; lia.
  - rewrite (answers_space "250" l P). do 4 eexists. split; [reflexivity|]. right. left. auto.
  - rewrite (answers_space "221" l P). do 4 eexists. split; [reflexivity|]. right. right. auto.
Qed.
Lemma proper_some : forall k x h st, 12 < k -> talking st -> exists seg, seg <> [] /\ continues k x h st [] seg.
Proof.
  intros k x h st K [N1 N2].
  assert (G : forall t : string, (length (lit t) <= 12)%nat -> ~ In 10%N (lit t) -> chomp (lit t) = lit t -> proper x h st (lit t) -> exists seg, seg <> [] /\ continues k x h st [] seg).
  { intros t L I C P. exists (lit t ++ [10%N])%list. split; [destruct (lit t); discriminate|]. exists (lit t), []. rewrite C, app_nil_r. cbn [app]. repeat split; auto; lia. }
  destruct st; try congruence.
  - apply (G "220 "%string); [cbn; lia|cbn; intuition discriminate|reflexivity|exists []; reflexivity].
  - apply (G "250-8BITMIME"%string); [cbn; lia|cbn; intuition discriminate|reflexivity|]. split; [exists (lit "8BITMIME"); reflexivity|right; reflexivity].
  - apply (G "250 "%string); [cbn; lia|cbn; intuition discriminate|reflexivity|left; exists []; reflexivity].
  - apply (G "250 "%string); [cbn; lia|cbn; intuition discriminate|reflexivity|exists []; reflexivity].
  - apply (G "250 "%string); [cbn; lia|cbn; intuition discriminate|reflexivity|exists []; reflexivity].
  - apply (G "354 "%string); [cbn; lia|cbn; intuition discriminate|reflexivity|exists []; reflexivity].
  - apply (G "250 "%string); [cbn; lia|cbn; intuition discriminate|reflexivity|exists []; reflexivity].
  - apply (G "221 "%string); [cbn; lia|cbn; intuition discriminate|reflexivity|exists []; reflexivity].
Qed.
Lemma proper_talks : forall x h st l, proper x h st l -> talking st.
Proof. intros x h [] l P; cbn in P; try contradiction; split; discriminate. Qed.
Lemma proper_not : forall x h st, ~ proper x h st [].
Proof.
  intros x h st P. destruct st; cbn in P; try contradiction; try (destruct P as [r P]; discriminate).
  - destruct P as [[r P] _]; discriminate.
  - destruct P as [[r P]|[[r P] _]]; discriminate.
Qed.

(** ** Reading *)
Lemma listen_same : forall o v s, x_sock s = SOpen -> v_mine v = true -> v_read v <> [] -> v_lost v = false -> v_writes v = [] ->
  listen o v s = listen o (arrives (v_read v)) s.
Proof.
  intros o [c m b lo j w] s K. cbn [v_mine v_read v_lost v_writes]. intros -> NE -> ->. unfold listen. rewrite K. cbn [arrives v_mine v_read v_lost v_junk v_writes].
  assert (L : last b j = last b 0%N) by (clear - NE; induction b as [|y b IH]; [congruence|]; destruct b; [reflexivity|]; change (last (n :: b) j = last (n :: b) 0%N); apply IH; discriminate).
  rewrite L. destruct b; [congruence|reflexivity].
Qed.

Definition left (k x : nat) (s : mst) : nat := if opened s then to_come x (heard_now s) (x_state s) * k - length (x_line s) else 0.
Definition cost (k x : nat) : nat := 3 * ((x + 9) * k) + 3.
Definition is_quit (st : mstate) : bool := match st with QUIT => true | _ => false end.
Definition at_hand (k x : nat) (s : mst) : nat := if in_mail (x_email s) && (negb (opened s) || is_quit (x_state s)) then cost k x else 0.

Lemma heard_more : forall log a l p ev, Forall sent ev -> heard (conv (log ++ [LRead a] ++ [LLine l] ++ p ++ ev)) = heard (conv_from (conv log ++ [Heard l]) (p ++ ev)).
Proof. intros. now rewrite conv_app. Qed.

Lemma listen_good : forall o k x v s s', 12 < k -> minv o s -> x_sock s = SOpen -> v_mine v = true -> v_writes v = [] -> v_lost v = false ->
  v_read v <> [] -> continues k x (heard_now s) (x_state s) (x_line s) (v_read v) -> listen o v s = Some s' ->
  x_pc s' = MTop /\ x_queue s' = x_queue s /\ x_stop s' = x_stop s /\ x_term s' = x_term s /\ good_so_far k x s'
  /\ (in_mail (x_email s) = false -> in_mail (x_email s') = false)
  /\ 3 * left k x s' + at_hand k x s' + 3 <= 3 * left k x s + at_hand k x s.
Proof.
  intros o k x v s s' K I So Mi Wr Lo Ne (raw & rest & Nl & Lr & P & E) H. rewrite listen_same in H by assumption.
  destruct (i_said _ _ I So) as [_ IM].
  assert (Op : opened s = true) by (unfold opened; now rewrite So).
  assert (T := proper_talks _ _ _ _ P).
  destruct rest as [|z rest] using rev_ind.
  - (* the whole line *)
    rewrite app_nil_r in E. destruct (v_read v) as [|y b] eqn:Rd using rev_ind; [congruence|]. clear IHb. rewrite app_assoc in E. apply app_inj_tail in E as [E <-].
    assert (NR : x_line s ++ b <> []) by (rewrite <- E; intro X; rewrite X in P; exact (proper_not _ _ _ P)).
    destruct (reply_good o x (heard_now s) (x_state s) (chomp raw) (x_email s) P) as (st' & kk & ev & p & R & Cs).
    change [10%N] with [lf] in H. rewrite (listen_full o s b (chomp raw) st' kk ev p So) in H; [|intro X; apply Nl; rewrite E; apply in_or_app; auto|exact NR|now rewrite E|exact R].
    injection H as <-. cbn [x_pc x_queue x_stop x_term x_email].
    assert (Se := reply_sent _ _ _ _ _ _ _ _ _ _ R).
    assert (Hd : length (heard (conv (x_log s ++ [LRead (b ++ [lf])] ++ [LLine (chomp raw)] ++ (if p then [LPurged (x_email s)] else []) ++ ev))) = S (heard_now s)).
    { rewrite conv_app. cbn [app conv_from]. assert (X : forall t, conv_from t ((if p then [LPurged (x_email s)] else []) ++ ev) = conv_from t ev) by (intro; destruct p; reflexivity).
      rewrite X, heard_sent by exact Se. rewrite heard_app, app_length. unfold heard_now. cbn. lia. }
    assert (Lx : length (x_line s) < k) by (rewrite E, app_length in Lr; lia).
    cbn [app] in Hd. do 4 (split; [reflexivity|]). unfold good_so_far, left, at_hand, opened, heard_now. cbn [x_sock x_state x_line x_log x_email]. rewrite Hd, So. cbn [length negb orb].
    fold (heard_now s).
    destruct Cs as [(-> & L & Nq & Nq' & T' & ->)|[(Es & -> & -> & ->)|(Es & -> & -> & ->)]].
    + split; [intros _; exact (proper_some k x _ st' K T')|]. split; [auto|].
      assert (is_quit st' = false) by (destruct st'; auto; congruence). rewrite H. rewrite andb_false_r.
      assert (to_come x (S (heard_now s)) st' * k + k <= to_come x (heard_now s) (x_state s) * k) by nia. lia.
    + split; [intros _; apply (proper_some k x _ QUIT K); split; discriminate|]. split; [auto|]. rewrite Es. cbn -[Nat.mul]. lia.
    + split; [discriminate|]. split; [auto|]. rewrite Es. cbn -[Nat.mul cost]. rewrite !andb_true_r. destruct (in_mail (x_email s)); lia.
  - (* part of it *)
    clear IHrest. rewrite app_assoc in E. apply app_inj_tail in E as [E <-].
    assert (Nv : ~ In lf (v_read v)) by (intro X; apply Nl; rewrite E; apply in_or_app; left; apply in_or_app; auto).
    rewrite listen_part in H by assumption. injection H as <-. cbn [x_pc x_queue x_stop x_term x_email].
    do 4 (split; [reflexivity|]).
    assert (Hn : heard (conv (x_log s ++ [LRead (v_read v)])) = heard (conv (x_log s))) by (rewrite conv_app; reflexivity).
    unfold good_so_far, left, at_hand, opened, heard_now. cbn [x_sock x_state x_line x_log x_email]. rewrite Hn, So. fold (heard_now s).
    split; [|split; [auto|]].
    + intros _. exists (rest ++ [10%N]). split; [destruct rest; discriminate|]. exists raw, []. repeat split; auto. rewrite E, app_nil_r, !app_assoc. reflexivity.
    + rewrite app_length. assert (length (x_line s) + length (v_read v) < k) by (rewrite E, !app_length in Lr; lia).
      assert (1 <= length (v_read v)) by (destruct (v_read v); [congruence|cbn; lia]).
      assert (1 <= to_come x (heard_now s) (x_state s)) by (destruct T as [T1 T2]; destruct (x_state s); cbn; try congruence; lia).
      assert (k <= to_come x (heard_now s) (x_state s) * k) by nia. lia.
Qed.

(** ** The thread *)
Definition pcw (s : mst) : nat :=
  match x_pc s with
  | MTop => 2 | MWait => 1 | MRun => if in_mail (x_email s) || opened s then 0 else 3
  | MEnd | MUndef => 0
  end.
Definition weight (k x : nat) (s : mst) : nat := cost k x * length (x_queue s) + at_hand k x s + 3 * left k x s + pcw s.
Definition finished (s : mst) : Prop := x_queue s = [] /\ in_mail (x_email s) = false.

Lemma opened_iff : forall s, opened s = true <-> x_sock s = SOpen.
Proof. intro s. unfold opened. destruct (x_sock s); split; congruence. Qed.
Lemma opened_talks : forall o s, minv o s -> opened s = true -> talking (x_state s).
Proof. intros o s I O. apply opened_iff in O. destruct (i_said _ _ I O) as [T _]. split; intro E; rewrite E in T; exact T. Qed.
Lemma opened_mail : forall o s, minv o s -> opened s = true -> is_quit (x_state s) = false -> in_mail (x_email s) = true.
Proof. intros o s I O Q. apply opened_iff in O. destruct (i_said _ _ I O) as [_ T]. apply T. intro E. rewrite E in Q. discriminate. Qed.

Lemma take_step : forall o k x st s, minv o s -> x_term s = false -> (st = x_state s \/ opened s = false) -> good_so_far k x s -> x_pc s = MTop \/ x_pc s = MWait ->
  good_so_far k x (take st s) /\ x_stop (take st s) = x_stop s /\ x_term (take st s) = x_term s /\ x_pc (take st s) = MRun
  /\ (finished s -> finished (take st s)) /\ (finished s \/ weight k x (take st s) < weight k x s).
Proof.
  intros o k x st s I T St G Pc.
  assert (Le : forall e q, left k x (mkMS MRun st (x_sock s) (x_line s) e q (x_stop s) (x_term s) (x_log s)) = left k x s).
  { intros e q. unfold left, opened, heard_now. cbn [x_sock x_state x_line x_log]. destruct St as [->|St]; [reflexivity|]. unfold opened in St. now rewrite St. }
  assert (Gd : forall e q, good_so_far k x (mkMS MRun st (x_sock s) (x_line s) e q (x_stop s) (x_term s) (x_log s))).
  { intros e q. unfold good_so_far, opened, heard_now in *. cbn [x_sock x_state x_line x_log]. destruct St as [->|St]; [exact G|]. unfold opened in St. rewrite St. discriminate. }
  assert (Qd : opened s = true -> is_quit st = is_quit (x_state s)) by (destruct St as [->|St]; [reflexivity|]; rewrite St; discriminate).
  assert (Pp : 1 <= pcw s) by (unfold pcw; destruct Pc as [-> | ->]; lia).
  unfold take. destruct (in_mail (x_email s)) eqn:M.
  - split; [apply Gd|]. do 3 (split; [reflexivity|]). split; [intros [_ F]; congruence|]. right. unfold weight. rewrite Le. unfold at_hand, pcw, opened. cbn [x_pc x_queue x_email x_sock x_state]. rewrite M.
    cbn [orb andb]. change (match x_sock s with SOpen => true | _ => false end) with (opened s). destruct (opened s) eqn:O; [rewrite Qd by reflexivity|]; cbn [negb orb]; destruct Pc as [-> | ->]; lia.
  - destruct (x_queue s) as [|e q] eqn:Q.
    + split; [apply Gd|]. do 3 (split; [reflexivity|]). split; [intros _; split; auto|]. left. split; auto.
    + split; [apply Gd|]. do 3 (split; [reflexivity|]). split; [intros [F _]; congruence|]. right. unfold weight. rewrite Le. unfold at_hand, pcw, opened. cbn [x_pc x_queue x_email x_sock x_state]. rewrite M, Q.
      cbn [length andb]. change (match x_sock s with SOpen => true | _ => false end) with (opened s). clear Pp. assert (3 <= cost k x) by (unfold cost; lia).
      rewrite Nat.mul_succ_r. destruct (in_mail e) eqn:Me; cbn [orb andb].
      * destruct (negb (opened s) || is_quit st), Pc as [-> | ->]; lia.
      * destruct (opened s), Pc as [-> | ->]; lia.
Qed.

Lemma net_step : forall o k x v s s', 12 < k -> minv o s -> x_pc s = MRun -> good_so_far k x s -> serves k x s v -> handle o v s = Some s' ->
  good_so_far k x s' /\ x_stop s' = x_stop s /\ x_term s' = x_term s /\ x_pc s' = MTop
  /\ (finished s -> finished s') /\ (finished s \/ weight k x s' < weight k x s + 3 * woken s v).
Proof.
  intros o k x v s s' K I Pc G (Vc & Vw & Vl & Vj & Vm) H. unfold handle in H. fold (opened s) in H. unfold woken. rewrite addressed_in in *.
  destruct (in_mail (x_email s)) eqn:M; cbn [andb] in H.
  - destruct (opened s) eqn:O; cbn [negb] in H.
    + (* on an open connection *) cbn [orb]. assert (So := O). apply opened_iff in So. destruct (v_mine v) eqn:Mi.
      * destruct (Vm eq_refl) as [Ne C]. destruct (listen_good o k x v s s' K I So Mi Vw Vl Ne C H) as (A1 & A2 & A3 & A4 & A5 & A6 & A7).
        do 4 (split; [assumption|]). split; [intros [_ F]; congruence|]. right. unfold weight. rewrite A2. unfold pcw. rewrite A1, Pc. lia.
      * unfold listen in H. rewrite So, Mi in H. injection H as <-. cbn [x_pc x_stop x_term x_queue x_email].
        split; [unfold good_so_far, opened, heard_now in *; rewrite So in G; exact G|]. do 3 (split; [reflexivity|]). split; [intros [_ F]; congruence|]. right. unfold weight, left, at_hand, pcw, opened, heard_now. cbn [x_pc x_queue x_email x_sock x_state x_line x_log].
        rewrite Pc, M, So. cbn -[Nat.mul]. lia.
    + (* connecting *) rewrite Vc in H. set (s1 := mkMS MRun CONNECTED SOpen [] (x_email s) (x_queue s) (x_stop s) (x_term s) (x_log s ++ [LConnect])) in *.
      assert (I1 : minv o s1).
      { assert (X : handle o (mkEnv true false [] false 0 []) s = Some (at_pc MTop s1)) by (unfold handle; fold (opened s); rewrite M, O; reflexivity).
        pose proof (handle_inv o _ s _ I Pc X) as [J1 J2 J3 J4 J5 J6]. constructor; auto; [intros _ _ B; apply J5; auto; discriminate|discriminate]. }
      assert (O1 : opened s1 = true) by reflexivity. assert (H1 : heard_now s1 = 0) by (unfold heard_now, s1; cbn [x_log]; rewrite conv_app; reflexivity).
      assert (Wt : cost k x * length (x_queue s) + cost k x <= weight k x s) by (unfold weight, at_hand; rewrite M, O; cbn -[Nat.mul cost]; lia).
      assert (L1 : left k x s1 <= (x + 9) * k) by (unfold left; rewrite O1; cbn [s1 x_state to_come x_line]; lia).
      assert (A1 : at_hand k x s1 = 0) by (unfold at_hand; cbn [s1 x_email x_state is_quit]; now rewrite O1, andb_false_r).
      destruct (v_mine v) eqn:Mi.
      * destruct (Vm eq_refl) as [Ne C]. specialize (C eq_refl). rewrite <- H1 in C.
        destruct (listen_good o k x v s1 s' K I1 eq_refl Mi Vw Vl Ne C H) as (B1 & B2 & B3 & B4 & B5 & B6 & B7).
        do 4 (split; [assumption|]). split; [intros [_ F]; congruence|]. right. unfold weight at 1. rewrite B2. unfold pcw. rewrite B1. unfold cost in Wt at 2. change (x_queue s1) with (x_queue s). lia.
      * unfold listen in H. rewrite Mi in H. cbn [s1 x_sock] in H. injection H as <-. cbn [x_pc x_stop x_term x_queue x_email orb].
        split; [intros _; apply (proper_some k x _ CONNECTED K); split; discriminate|]. do 3 (split; [reflexivity|]). split; [intros [_ F]; congruence|]. right.
        unfold weight at 1. unfold pcw. cbn [x_pc x_queue]. unfold at_hand, left, opened. cbn [x_sock x_state is_quit negb orb to_come x_line length]. rewrite andb_false_r. unfold cost in Wt at 2. lia.
  - destruct (opened s) eqn:O; cbn [orb].
    + assert (So := O). apply opened_iff in So. destruct (v_mine v) eqn:Mi.
      * destruct (Vm eq_refl) as [Ne C]. destruct (listen_good o k x v s s' K I So Mi Vw Vl Ne C H) as (A1 & A2 & A3 & A4 & A5 & A6 & A7).
        do 4 (split; [assumption|]). split; [intros [F _]; split; [congruence|auto]|]. right. unfold weight. rewrite A2. unfold pcw. rewrite A1, Pc. lia.
      * unfold listen in H. rewrite So, Mi in H. injection H as <-. cbn [x_pc x_stop x_term x_queue x_email].
        split; [unfold good_so_far, opened, heard_now in *; rewrite So in G; exact G|]. do 3 (split; [reflexivity|]). split; [intros F; exact F|]. right. unfold weight, left, at_hand, pcw, opened, heard_now. cbn [x_pc x_queue x_email x_sock x_state x_line x_log].
        rewrite Pc, M, So. cbn -[Nat.mul]. lia.
    + (* nothing to do *)
      assert (X : s' = mkMS MTop (x_state s) (x_sock s) (x_line s) (x_email s) (x_queue s) (x_stop s) (x_term s) (x_log s') ).
      { unfold listen in H. unfold opened in O. destruct (x_sock s) eqn:So; [| |discriminate].
        - cbn [last] in H. rewrite (proj2 (N.eqb_neq (v_junk v) lf) Vj) in H. cbn [without_lf filter] in H. rewrite app_nil_r in H. injection H as <-. reflexivity.
        - injection H as <-. reflexivity. }
      assert (So : match x_sock s with SOpen => true | _ => false end = false) by exact O.
      rewrite X. cbn [x_pc x_stop x_term]. split; [unfold good_so_far, opened; cbn [x_sock]; rewrite So; discriminate|]. do 3 (split; [reflexivity|]). split; [intros F; exact F|]. right.
      unfold weight, left, at_hand, pcw, opened. cbn [x_pc x_queue x_email x_sock x_state x_line x_log]. rewrite Pc, M, So. cbn -[Nat.mul]. destruct (v_mine v); lia.
Qed.

Lemma go_step : forall o k x s s', minv o s -> x_term s = false -> good_so_far k x s -> mstep o AGo s = Some s' ->
  good_so_far k x s' /\ x_stop s' = x_stop s /\ x_term s' = x_term s /\ (x_pc s' = MEnd -> finished s /\ x_stop s = true) /\ x_pc s' <> MUndef
  /\ (finished s -> finished s') /\ (finished s \/ weight k x s' < weight k x s).
Proof.
  intros o k x s s' I T G H. cbn [mstep] in H. destruct (x_pc s) eqn:Pc; try discriminate.
  - destruct (over s) eqn:Ov.
    + injection H as <-. assert (F : finished s /\ x_stop s = true).
      { apply over_spec in Ov as [Ov|(A & B & C)]; [congruence|]. split; [split; [exact B|]|exact A]. unfold in_mail. now rewrite C. }
      destruct F as [F Fs]. cbn. split; [exact G|]. repeat (split; [auto; discriminate|]). auto.
    + destruct (x_state s) eqn:St; try (injection H as <-; rewrite <- St; destruct (take_step o k x (x_state s) s I T (or_introl eq_refl) G (or_introl Pc)) as (A1 & A2 & A3 & A4 & A5 & A6);
        split; [exact A1|]; split; [exact A2|]; split; [exact A3|]; split; [rewrite A4; discriminate|]; split; [rewrite A4; discriminate|]; auto).
      injection H as <-. split; [exact G|]. do 2 (split; [reflexivity|]). split; [discriminate|]. split; [discriminate|]. split; [auto|]. right.
      unfold weight, left, at_hand, pcw, opened, heard_now. cbn [at_pc x_pc x_queue x_email x_sock x_state x_line x_log]. rewrite Pc. lia.
  - assert (O : opened s = false).
    { destruct (opened s) eqn:O; [|reflexivity]. destruct (opened_talks o s I O) as [_ X]. now rewrite (i_wait _ _ I Pc) in X. }
    destruct (over s) eqn:Ov.
    + injection H as <-. assert (F : finished s /\ x_stop s = true).
      { apply over_spec in Ov as [Ov|(A & B & C)]; [congruence|]. split; [split; [exact B|]|exact A]. unfold in_mail. now rewrite C. }
      destruct F as [F Fs]. split; [unfold good_so_far, opened in *; cbn [x_sock]; rewrite O; discriminate|]. repeat (split; [auto; discriminate|]). auto.
    + injection H as <-. destruct (take_step o k x DISCONNECTED s I T (or_intror O) G (or_intror Pc)) as (A1 & A2 & A3 & A4 & A5 & A6).
      split; [exact A1|]; split; [exact A2|]; split; [exact A3|]; split; [rewrite A4; discriminate|]; split; [rewrite A4; discriminate|]; auto.
Qed.

Lemma goes : forall o k x s n w s', 12 < k -> goes_on o k x s n w s' -> minv o s -> x_term s = false -> good_so_far k x s ->
  minv o s' /\ x_term s' = false /\ x_stop s' = x_stop s /\ good_so_far k x s' /\ (finished s -> finished s') /\ (x_pc s <> MUndef -> x_pc s' <> MUndef)
  /\ (x_pc s' = MEnd -> x_pc s = MEnd \/ finished s') /\ (finished s' \/ n + weight k x s' <= weight k x s + 3 * w).
Proof.
  intros o k x s n w s' K R. induction R as [s|s s1 n w s2 H R IH|v s s1 n w s2 V H R IH]; intros I T G.
  - repeat (split; [auto|]). right. lia.
  - pose proof (mstep_inv _ _ _ _ I H) as I1. destruct (go_step o k x s s1 I T G H) as (A1 & A2 & A3 & A4 & A5 & A6 & A7).
    destruct (IH I1 ltac:(congruence) A1) as (B1 & B2 & B3 & B4 & B5 & B6 & B7 & B8).
    split; [exact B1|]. split; [exact B2|]. split; [congruence|]. split; [exact B4|]. split; [auto|]. split; [auto|]. split.
    + intro E. destruct (B7 E) as [E1|F]; [right; apply B5, A6; apply A4; exact E1|auto].
    + destruct A7 as [F|L]; [left; auto|]. destruct B8 as [F|L']; [auto|right; lia].
  - pose proof (mstep_inv _ _ _ _ I H) as I1. cbn [mstep] in H. destruct (x_pc s) eqn:Pc; try discriminate.
    destruct (net_step o k x v s s1 K I Pc G V H) as (A1 & A2 & A3 & A4 & A5 & A6).
    destruct (IH I1 ltac:(congruence) A1) as (B1 & B2 & B3 & B4 & B5 & B6 & B7 & B8).
    split; [exact B1|]. split; [exact B2|]. split; [congruence|]. split; [exact B4|]. split; [auto|]. split; [intros _; apply B6; congruence|]. split.
    + intro E. destruct (B7 E) as [E1|F]; [congruence|auto].
    + destruct A6 as [F|L]; [left; auto|]. destruct B8 as [F|L']; [auto|right; lia].
Qed.
Lemma weight_le : forall k x s, weight k x s <= 3 * (1 + (x + 9) * k) * (1 + length (unsent s)).
Proof.
  intros k x s. unfold weight, unsent. rewrite app_length, addressed_in.
  assert (L : left k x s <= (x + 9) * k).
  { unfold left. destruct (opened s); [|lia]. assert (to_come x (heard_now s) (x_state s) <= x + 9) by (destruct (x_state s); cbn; lia). nia. }
  assert (A : at_hand k x s <= cost k x * length (if in_mail (x_email s) then [x_email s] else [])) by (unfold at_hand; destruct (in_mail (x_email s)); [cbn [andb length]|cbn; lia]; destruct (negb (opened s) || is_quit (x_state s)); lia).
  assert (P : pcw s <= 3) by (unfold pcw; destruct (x_pc s), (in_mail (x_email s) || opened s); lia).
  unfold cost in *. nia.
Qed.

Lemma all_done : forall o k x s n w s', 12 < k -> mreachable o s -> x_term s = false -> good_so_far k x s -> goes_on o k x s n w s' ->
  3 * (1 + (x + 9) * k) * (1 + length (unsent s)) + 3 * w < n -> 
  x_queue s' = [] /\ purged (x_log s') = filter addressed (queued (x_log s')).
Proof.
  intros o k x s n w s' K R T G S N. destruct (goes o k x s n w s' K S (minv_reach _ _ R) T G) as (B1 & B2 & B3 & B4 & B5 & B6 & B7 & B8).
  destruct B8 as [[F1 F2]|L]; [|pose proof (weight_le k x s); lia]. split; [exact F1|]. rewrite (i_order _ _ B1), F1. unfold cur. rewrite F2. cbn. now rewrite app_nil_r.
Qed.

(** ** It can go on, and it ends. *)
Lemma can_go : forall o k x s, 12 < k -> mreachable o s -> alive s -> good_so_far k x s ->
  (exists s', mstep o AGo s = Some s') \/ (exists v s', serves k x s v /\ v_mine v = true /\ mstep o (ANet v) s = Some s').
Proof.
  intros o k x s K R [A1 A2] G. cbn [mstep]. destruct (x_pc s) eqn:Pc; try congruence.
  - left. destruct (over s); [eexists; reflexivity|]. destruct (x_state s); eexists; reflexivity.
  - left. destruct (over s); eexists; reflexivity.
  - right.
    assert (X : forall v, (opened s = true \/ in_mail (x_email s) = true -> v_mine v = true /\ reads_ok (v_read v) = true) -> exists s', handle o v s = Some s').
    { intros v V. unfold handle. fold (opened s).
      assert (L : forall s, (opened s = true -> v_mine v = true /\ reads_ok (v_read v) = true) -> exists s', listen o v s = Some s').
      { clear. intros s V. unfold listen. unfold opened in V. destruct (x_sock s); [| |].
        - destruct (N.eqb (last [] (v_junk v)) lf); [|eexists; reflexivity]. destruct (strip _); [|eexists; reflexivity].
          match goal with |- context [reply ?a ?b ?c ?d ?e ?f] => destruct (reply a b c d e f) as [[[st k'] ev] p] end. eexists; reflexivity.
        - eexists; reflexivity.
        - destruct (V eq_refl) as [-> ->]. destruct (N.eqb (last (v_read v) (v_junk v)) lf); [|eexists; reflexivity]. destruct (strip _); [|eexists; reflexivity].
          match goal with |- context [reply ?a ?b ?c ?d ?e ?f] => destruct (reply a b c d e f) as [[[st k'] ev] p] end. eexists; reflexivity. }
      destruct (in_mail (x_email s)) eqn:M, (opened s) eqn:O; cbn [andb negb].
      - apply L. intros _. auto.
      - destruct (v_connect v); [|eexists; reflexivity]. apply L. intros _. auto.
      - apply L. intros _. auto.
      - apply L. intro F. congruence. }
    assert (Y : forall h st ln seg, seg <> [] -> continues k x h st ln seg -> reads_ok seg = true).
    { clear. intros h st ln seg Ne (raw & rest & Nl & _ & _ & E). unfold reads_ok. rewrite not_in_lf; [reflexivity|]. intro F. apply Nl.
      destruct rest as [|z rest] using rev_ind.
      - rewrite app_nil_r in E. destruct seg as [|y seg] using rev_ind; [congruence|]. rewrite app_assoc in E. apply app_inj_tail in E as [-> _]. rewrite removelast_last in F. apply in_or_app. auto.
      - rewrite app_assoc in E. apply app_inj_tail in E as [-> _]. apply in_or_app. left. apply in_or_app. right. clear - F. induction seg as [|c seg IH]; [contradiction|]. cbn in F. destruct seg; [contradiction|]. destruct F as [->|F]; [now left|right; auto]. }
    unfold serves. rewrite addressed_in.
    destruct (opened s) eqn:O.
    + destruct (G O) as (seg & Ne & C). exists (mkEnv true true seg false 0 []). destruct (X (mkEnv true true seg false 0 [])) as [s' H]; [intros _; split; [reflexivity|exact (Y _ _ _ _ Ne C)]|].
      exists s'. split; [|auto]. cbn. repeat (split; [auto; discriminate|]). auto.
    + destruct (proper_some k x 0 CONNECTED K) as (seg & Ne & C); [split; discriminate|]. exists (mkEnv true true seg false 0 []). destruct (X (mkEnv true true seg false 0 [])) as [s' H]; [intros _; split; [reflexivity|exact (Y _ _ _ _ Ne C)]|].
      exists s'. split; [|auto]. cbn. repeat (split; [auto; discriminate|]). auto.
Qed.
Lemma serves_keeps : forall o k x v s s', 12 < k -> minv o s -> x_pc s = MRun -> good_so_far k x s -> serves k x s v -> handle o v s = Some s' -> x_pc s' = MTop.
Proof. intros o k x v s s' K I Pc G V H. apply (net_step o k x v s s' K I Pc G V H). Qed.

Lemma stops : forall o k x s n w s', 12 < k -> mreachable o s -> x_term s = false -> x_stop s = true -> good_so_far k x s -> goes_on o k x s n w s' ->
  n <= 3 * (1 + (x + 9) * k) * (1 + length (unsent s)) + 3 * w + 2.
Proof.
  assert (Fi : forall o k x s n w s', 12 < k -> goes_on o k x s n w s' -> minv o s -> x_term s = false -> x_stop s = true -> good_so_far k x s -> finished s ->
    n <= match x_pc s with MRun => 2 | MTop | MWait => 1 | _ => 0 end).
  { intros o k x s n w s' K S. induction S as [s|s s1 n w s2 H S IH|v s s1 n w s2 V H S IH]; intros I T St G F; [lia| |].
    - pose proof (mstep_inv _ _ _ _ I H) as I1. destruct (go_step o k x s s1 I T G H) as (A1 & A2 & A3 & A4 & A5 & A6 & A7).
      specialize (IH I1 ltac:(congruence) ltac:(congruence) A1 (A6 F)). cbn [mstep] in H.
      assert (Ov : over s = true) by (unfold over; destruct F as [-> ->]; rewrite St; now rewrite orb_true_r). rewrite Ov in H.
      destruct (x_pc s); try discriminate; injection H as <-; cbn in IH; lia.
    - pose proof (mstep_inv _ _ _ _ I H) as I1. cbn [mstep] in H. destruct (x_pc s) eqn:Pc; try discriminate.
      destruct (net_step o k x v s s1 K I Pc G V H) as (A1 & A2 & A3 & A4 & A5 & A6).
      specialize (IH I1 ltac:(congruence) ltac:(congruence) A1 (A5 F)). rewrite A4 in IH. lia. }
  assert (Ge : forall o k x s n w s', 12 < k -> goes_on o k x s n w s' -> minv o s -> x_term s = false -> x_stop s = true -> good_so_far k x s -> n <= weight k x s + 3 * w + 2).
  { intros o k x s n w s' K S I T St G. assert (FF : finished s -> n <= weight k x s + 3 * w + 2).
    { intro F. pose proof (Fi o k x s n w s' K S I T St G F). destruct (x_pc s); lia. }
    revert I T St G FF. induction S as [s|s s1 n w s2 H S IH|v s s1 n w s2 V H S IH]; intros I T St G FF; [lia| |].
    - pose proof (mstep_inv _ _ _ _ I H) as I1. destruct (go_step o k x s s1 I T G H) as (A1 & A2 & A3 & A4 & A5 & A6 & A7).
      destruct A7 as [F|L]; [auto|]. assert (n <= weight k x s1 + 3 * w + 2); [|lia]. apply IH; auto; try congruence.
      intro F. pose proof (Fi o k x s1 n w s2 K S I1 ltac:(congruence) ltac:(congruence) A1 F). destruct (x_pc s1); lia.
    - pose proof (mstep_inv _ _ _ _ I H) as I1. cbn [mstep] in H. destruct (x_pc s) eqn:Pc; try discriminate.
      destruct (net_step o k x v s s1 K I Pc G V H) as (A1 & A2 & A3 & A4 & A5 & A6).
      destruct A6 as [F|L]; [auto|]. assert (n <= weight k x s1 + 3 * w + 2); [|lia]. apply IH; auto; try congruence.
      intro F. pose proof (Fi o k x s1 n w s2 K S I1 ltac:(congruence) ltac:(congruence) A1 F). destruct (x_pc s1); lia. }
  intros o k x s n w s' K R T St G S. pose proof (Ge o k x s n w s' K S (minv_reach _ _ R) T St G). pose proof (weight_le k x s). lia.
Qed.
Lemma stays : forall o k x s n w s', 12 < k -> mreachable o s -> x_term s = false -> good_so_far k x s -> alive s -> goes_on o k x s n w s' ->
  good_so_far k x s' /\ x_pc s' <> MUndef /\ (x_pc s' = MEnd -> x_stop s = true /\ purged (x_log s') = filter addressed (queued (x_log s'))).
Proof.
  intros o k x s n w s' K R T G [Al1 Al2] S. pose proof (minv_reach _ _ R) as I. destruct (goes o k x s n w s' K S I T G) as (B1 & B2 & B3 & B4 & B5 & B6 & B7 & B8).
  split; [exact B4|]. split; [auto|]. intro E. split.
  - clear - K S I T G Al1 E. induction S as [s|s s1 n w s2 H S IH|v s s1 n w s2 V H S IH]; [contradiction| |].
    + pose proof (mstep_inv _ _ _ _ I H) as I1. destruct (go_step o k x s s1 I T G H) as (A1 & A2 & A3 & A4 & A5 & A6 & A7).
      destruct (x_pc s1) eqn:P1; try (rewrite <- A2; apply IH; auto; congruence). apply A4. reflexivity.
    + pose proof (mstep_inv _ _ _ _ I H) as I1. cbn [mstep] in H. destruct (x_pc s) eqn:Pc; try discriminate.
      destruct (net_step o k x v s s1 K I Pc G V H) as (A1 & A2 & A3 & A4 & A5 & A6). rewrite <- A2. apply IH; auto; congruence.
  - destruct (B7 E) as [X|[F1 F2]]; [contradiction|]. rewrite (i_order _ _ B1), F1. unfold cur. rewrite F2. cbn. now rewrite app_nil_r.
Qed.

(** ** Retries *)
Lemma connections_app : forall a b, connections (a ++ b) = connections a + connections b.
Proof. intros a b. induction a as [|y a IH]; [reflexivity|]. destruct y; cbn; rewrite IH; reflexivity. Qed.
Lemma after_error : forall o l s s', x_pc s = MTop -> x_state s = ERROR -> mexec o l s = Some s' -> connections (x_log s') <> connections (x_log s) -> retries o l s.
Proof.
  intros o l. induction l as [|a l IH]; intros s s' Pc St H N; [injection H as <-; now destruct N|]. cbn [mexec] in H.
  destruct (mstep o a s) as [s1|] eqn:E; [|discriminate].
  assert (K : forall s1, mstep o a s = Some s1 -> x_pc s1 = MTop -> x_state s1 = ERROR -> connections (x_log s1) = connections (x_log s) -> mexec o l s1 = Some s' -> retries o (a :: l) s).
  { clear - IH N. intros s1 E P1 S1 C1 H1. destruct (IH s1 s' P1 S1 H1 ltac:(congruence)) as (l1 & l2 & s2 & -> & M & P2).
    exists (a :: l1), l2, s2. split; [reflexivity|]. split; [cbn [mexec]; now rewrite E|exact P2]. }
  assert (Ca : forall a b, connections (a ++ b) = connections a + connections b) by (exact connections_app).
  destruct a as [|v|e| |]; pose proof E as E'; cbn [mstep] in E.
  - rewrite Pc, St in E. destruct (over s); injection E as <-.
    + exfalso. apply N. clear - H. assert (G : forall l s s', x_pc s = MEnd -> mexec o l s = Some s' -> connections (x_log s') = connections (x_log s)).
      { clear. induction l as [|a l IH]; intros s s' P H; [injection H as <-; reflexivity|]. cbn [mexec] in H. destruct (mstep o a s) as [s1|] eqn:E; [|discriminate].
        assert (Ca : forall a b, connections (a ++ b) = connections a + connections b) by (exact connections_app).
        destruct a as [|v|e| |]; cbn [mstep] in E; rewrite ?P in E; try discriminate; injection E as <-; apply IH in H; auto; rewrite H; cbn; auto. rewrite Ca. cbn. lia. }
      exact (G l (at_pc MEnd s) s' eq_refl H).
    + exists [AGo], l, (at_pc MWait s). split; [reflexivity|]. cbn [mexec]. rewrite E'. auto.
  - rewrite Pc in E. discriminate.
  - injection E as <-. eapply K; [exact E'|exact Pc|exact St| |exact H]. cbn. rewrite Ca. cbn. lia.
  - injection E as <-. eapply K; [exact E'|exact Pc|exact St|reflexivity|exact H].
  - injection E as <-. eapply K; [exact E'|exact Pc|exact St|reflexivity|exact H].
Qed.

(** A server that takes connections and hangs up. *)
Definition hangs_up : menv := mkEnv true true [] true 0 [].
Definition hammers (n : nat) : list mact := flat_map (fun _ => [AGo; ANet hangs_up]) (repeat tt n).
Lemma hammer : forall o e n, m_to e <> [] -> exists s, mexec o (AMail e :: hammers n) m_init = Some s /\ connections (x_log s) = n /\ ~ retries o (AMail e :: hammers n) m_init.
Proof.
  intros o e n Ne. assert (M : in_mail e = true) by (unfold in_mail; destruct (m_to e); congruence).
  assert (Ca : forall a b, connections (a ++ b) = connections a + connections b) by (exact connections_app).
  set (P := fun s => x_pc s = MTop /\ x_sock s <> SOpen /\ x_state s <> ERROR /\ x_term s = false /\ x_stop s = false /\ (x_email s = e \/ (x_email s = no_mail /\ x_queue s = [e]))).
  assert (One : forall s, P s -> exists s1 s2, mstep o AGo s = Some s1 /\ x_pc s1 = MRun /\ mstep o (ANet hangs_up) s1 = Some s2 /\ P s2 /\ connections (x_log s2) = S (connections (x_log s))).
  { intros s (P1 & P2 & P3 & P4 & P5 & P6). cbn [mstep]. rewrite P1. assert (Ov : over s = false) by (unfold over; rewrite P4, P5; reflexivity). rewrite Ov.
    assert (Tk : exists s1, take (x_state s) s = s1 /\ x_pc s1 = MRun /\ x_email s1 = e /\ x_sock s1 = x_sock s /\ x_term s1 = false /\ x_stop s1 = false /\ x_log s1 = x_log s).
    { eexists. split; [reflexivity|]. unfold take. destruct P6 as [->|[-> ->]]; [rewrite M|]; cbn; auto 8. }
    destruct Tk as (s1 & Tk & T1 & T2 & T3 & T4 & T5 & T6). exists s1.
    assert (X : match x_state s with ERROR => Some (at_pc MWait s) | _ => Some (take (x_state s) s) end = Some s1) by (rewrite Tk; destruct (x_state s); auto; congruence).
    assert (Hd : handle o hangs_up s1 = Some (mkMS MTop CONNECTED SClosed [] e (x_queue s1) false false ((x_log s ++ [LConnect]) ++ [LRead []; LJunk 0]))).
    { unfold handle. rewrite T2, M, T3, T4, T5, T6. destruct (x_sock s); try congruence; reflexivity. }
    eexists. split; [exact X|]. split; [exact T1|]. split; [rewrite T1; exact Hd|]. split; [|cbn; rewrite !Ca; cbn; lia].
    unfold P. cbn. repeat (split; [auto; discriminate|]). auto. }
  assert (All : forall n s, P s -> (exists s', mexec o (hammers n) s = Some s' /\ connections (x_log s') = n + connections (x_log s)) /\ ~ retries o (hammers n) s).
  { clear n. induction n as [|n IH]; intros s Ps.
    - split; [exists s; split; reflexivity|]. intros (l1 & l2 & s1 & E & H & W). cbn in E. symmetry in E. apply app_eq_nil in E as [-> ->]. injection H as <-. destruct Ps as [Ps _]. congruence.
    - destruct (One s Ps) as (s1 & s2 & A1 & A2 & A3 & A4 & A5). destruct (IH s2 A4) as [(s' & B1 & B2) B3]. split.
      + exists s'. change (hammers (S n)) with (AGo :: ANet hangs_up :: hammers n). cbn [mexec]. rewrite A1, A3. split; [exact B1|]. lia.
      + intros (l1 & l2 & s3 & E & H & W). change (hammers (S n)) with (AGo :: ANet hangs_up :: hammers n) in E. destruct l1 as [|a l1]; [injection H as <-; destruct Ps; congruence|].
        cbn [app] in E. injection E as <- E. cbn [mexec] in H. rewrite A1 in H. destruct l1 as [|a l1]; [injection H as <-; congruence|].
        cbn [app] in E. injection E as <- E. cbn [mexec] in H. rewrite A3 in H. apply B3. exists l1, l2, s3. auto. }
  set (s0 := mkMS MTop DISCONNECTED SNull [] no_mail [e] false false [LQueued e]).
  assert (P0 : P s0) by (unfold P, s0; cbn; repeat (split; [auto; discriminate|]); auto).
  destruct (All n s0 P0) as [(s' & A & B) C]. exists s'. split; [exact A|]. split; [rewrite B; cbn; lia|].
  intros (l1 & l2 & s3 & E & H & W). destruct l1 as [|a l1]; [injection H as <-; discriminate|]. cbn [app] in E. injection E as <- E. apply C. exists l1, l2, s3. split; [exact E|]. split; [exact H|exact W].
Qed.

(** Nothing to do and no connection: round and round. *)
Lemma rounds : forall o s v n, x_pc s = MTop -> x_state s <> ERROR -> x_sock s = SClosed -> unsent s = [] -> x_stop s = false -> x_term s = false ->
  mexec o (concat (repeat [AGo; ANet v] n)) s = Some s.
Proof.
  intros o s v n Pc St So U Sp T. unfold unsent in U. rewrite addressed_in in U. apply app_eq_nil in U as [U Q]. destruct (in_mail (x_email s)) eqn:M; [discriminate|].
  assert (X : mexec o [AGo; ANet v] s = Some s).
  { cbn [mexec mstep]. rewrite Pc. unfold over. rewrite T, Sp. cbn [orb andb]. unfold take. rewrite M, Q.
    assert (Y : match x_state s with ERROR => Some (at_pc MWait s) | _ => Some (mkMS MRun (x_state s) (x_sock s) (x_line s) (x_email s) [] (x_stop s) (x_term s) (x_log s)) end = Some (mkMS MRun (x_state s) (x_sock s) (x_line s) (x_email s) [] (x_stop s) (x_term s) (x_log s))) by (destruct (x_state s); auto; congruence).
    rewrite Y. cbn [x_pc]. unfold handle. cbn [x_email x_sock]. rewrite M. cbn [andb]. unfold listen. cbn [x_sock]. rewrite So. cbn [x_state x_line x_email x_queue x_stop x_term x_log].
    destruct s; cbn in *. subst. reflexivity. }
  induction n as [|n IH]; [reflexivity|]. cbn [repeat concat]. rewrite (mexec_app _ _ _ _ _ X). exact IH.
Qed.
Lemma mreach_step : forall o a s s', mreachable o s -> mstep o a s = Some s' -> mreachable o s'.
Proof. intros o a s s' [l H] E. exists (l ++ [a]). rewrite (mexec_app _ _ _ _ _ H). cbn [mexec]. now rewrite E. Qed.
Lemma keeps_going : forall o k x n s, 12 < k -> mreachable o s -> x_term s = false -> good_so_far k x s -> alive s ->
  exists m s', goes_on o k x s m 0 s' /\ (m = n \/ (m <= n /\ x_pc s' = MEnd)).
Proof.
  intros o k x n. induction n as [|n IH]; intros s K R T G Al; [exists 0, s; split; [apply goes_no|auto]|].
  pose proof (minv_reach _ _ R) as I. destruct (can_go o k x s K R Al G) as [[s1 H]|(v & s1 & V & Mi & H)].
  - destruct (go_step o k x s s1 I T G H) as (A1 & A2 & A3 & A4 & A5 & A6 & A7). destruct (x_pc s1) eqn:P1.
    4: { exists 1, s1. split; [apply (goes_go o k x s s1 0 0 s1 H); apply goes_no|]. right. split; [lia|exact P1]. }
    4: congruence.
    all: destruct (IH s1 K (mreach_step _ _ _ _ R H) ltac:(congruence) A1 ltac:(split; congruence)) as (m & s' & Sg & E); exists (S m), s';
      (split; [exact (goes_go o k x s s1 m 0 s' H Sg)|]); destruct E as [->|[L E]]; [auto|right; split; [lia|exact E]].
  - pose proof H as H'. cbn [mstep] in H'. destruct (x_pc s) eqn:Pc; try discriminate.
    destruct (net_step o k x v s s1 K I Pc G V H') as (A1 & A2 & A3 & A4 & A5 & A6).
    destruct (IH s1 K (mreach_step _ _ _ _ R H) ltac:(congruence) A1 ltac:(split; congruence)) as (m & s' & Sg & E).
    exists (S m), s'. split; [|destruct E as [->|[L E]]; [auto|right; split; [lia|exact E]]].
    pose proof (goes_net o k x v s s1 m 0 s' V H Sg) as Z. unfold woken in Z. rewrite Mi in Z. exact Z.
Qed.
Lemma listen_queued : forall o v s s', listen o v s = Some s' -> queued (x_log s') = queued (x_log s).
Proof.
  intros o v s s' H. unfold listen in H.
  assert (G : forall k b pre, queued pre = [] ->
    (if N.eqb (last b (v_junk v)) lf then match strip (x_line s ++ without_lf b) with
      | None => Some (mkMS MUndef (x_state s) k (x_line s ++ without_lf b) (x_email s) (x_queue s) (x_stop s) (x_term s) (x_log s ++ pre ++ match b with [] => [LJunk (v_junk v)] | _ => [] end))
      | Some l => match reply o (x_state s) l (x_email s) k (v_writes v) with (st, k', ev', purge) =>
          Some (mkMS MTop st k' [] (if purge then no_mail else x_email s) (x_queue s) (x_stop s) (x_term s)
                      (x_log s ++ (pre ++ match b with [] => [LJunk (v_junk v)] | _ => [] end) ++ [LLine l] ++ (if purge then [LPurged (x_email s)] else []) ++ ev')) end end
     else Some (mkMS MTop (x_state s) k (x_line s ++ without_lf b) (x_email s) (x_queue s) (x_stop s) (x_term s) (x_log s ++ pre ++ match b with [] => [LJunk (v_junk v)] | _ => [] end))) = Some s' ->
    queued (x_log s') = queued (x_log s)).
  { intros k b pre Qp E. assert (Qj : queued (match b with [] => [LJunk (v_junk v)] | _ => [] end) = []) by (destruct b; reflexivity).
    destruct (N.eqb (last b (v_junk v)) lf); [|injection E as <-; cbn [x_log]; now rewrite !queued_app, Qp, Qj, !app_nil_r].
    destruct (strip (x_line s ++ without_lf b)) as [l|]; [|injection E as <-; cbn [x_log]; now rewrite !queued_app, Qp, Qj, !app_nil_r].
    destruct (reply o (x_state s) l (x_email s) k (v_writes v)) as [[[st k'] ev] p] eqn:R. injection E as <-. assert (Qe : queued ev = []) by (apply queued_sent; eapply reply_sent; eauto). cbn [x_log].
    rewrite queued_app. assert (X : forall y z, queued y = [] -> queued z = [] -> queued (y ++ z) = []) by (intros y z Y Z; now rewrite queued_app, Y, Z).
    rewrite X; [apply app_nil_r|apply X; assumption|]. destruct p; exact Qe. }
  destruct (x_sock s).
  - apply (G SNull [] []); auto.
  - injection H as <-. reflexivity.
  - destruct (v_mine v); [|injection H as <-; reflexivity]. destruct (reads_ok (v_read v)); [|discriminate]. eapply (G _ (v_read v) [LRead (v_read v)] eq_refl). exact H.
Qed.
Lemma goes_queued : forall o k x s n w s', goes_on o k x s n w s' -> queued (x_log s') = queued (x_log s).
Proof.
  intros o k x s n w s' S. induction S as [s|s s1 n w s2 H S IH|v s s1 n w s2 V H S IH]; [reflexivity| |]; rewrite IH; cbn [mstep] in H.
  - assert (Tk : forall st, x_log (take st s) = x_log s) by (intro st; unfold take; destruct (in_mail _); [reflexivity|]; destruct (x_queue s); reflexivity).
    destruct (x_pc s); try discriminate; destruct (over s); try (injection H as <-; reflexivity).
    + destruct (x_state s); injection H as <-; rewrite ?Tk; reflexivity.
    + injection H as <-. now rewrite Tk.
  - destruct (x_pc s); try discriminate. unfold handle in H. destruct (_ && _).
    + destruct (v_connect v); [|injection H as <-; reflexivity]. apply listen_queued in H. rewrite H. cbn [x_log]. rewrite queued_app. cbn. now rewrite app_nil_r.
    + exact (listen_queued _ _ _ _ H).
Qed.

(** ** What goes wrong *)
Lemma sends_plain : forall b k w ok ev k' w' l, send b k w = (ok, ev, k', w') -> ~ In (LLine l) ev.
Proof.
  intros b k w ok ev k' w' l H I. unfold send in H. destruct k; try (injection H as <- <- <- <-; now destruct I).
  destruct w as [|[|n|] w]; try (injection H as <- <- <- <-; cbn in I; intuition discriminate).
  destruct (Nat.ltb n (length b)); injection H as <- <- <- <-; cbn in I; intuition discriminate.
Qed.
Lemma sends_all_plain : forall bs k w ok ev k' w' l, send_all bs k w = (ok, ev, k', w') -> ~ In (LLine l) ev.
Proof.
  induction bs as [|b bs IH]; intros k w ok ev k' w' l H I; cbn [send_all] in H; [injection H as <- <- <- <-; now destruct I|].
  destruct (send b k w) as [[[[] e1] k1] w1] eqn:E.
  - destruct (send_all bs k1 w1) as [[[o2 e2] k2] w2] eqn:E2. injection H as <- <- <- <-. apply in_app_iff in I as [I|I].
    + exact (sends_plain _ _ _ _ _ _ _ _ E I).
    + exact (IH _ _ _ _ _ _ _ E2 I).
  - injection H as <- <- <- <-. exact (sends_plain _ _ _ _ _ _ _ _ E I).
Qed.
Lemma went_plain : forall n r st k ev l, (forall ok e k' w', r = (ok, e, k', w') -> ~ In (LLine l) e) -> went n r = (st, k, ev) -> ~ In (LLine l) ev.
Proof. intros n [[[[] e] k'] w'] st k ev l H E; injection E as <- <- <-; eapply H; reflexivity. Qed.
Lemma reply_plain : forall o st l e k w st' k' ev p x, reply o st l e k w = (st', k', ev, p) -> ~ In (LLine x) ev.
Proof.
  assert (S : forall n b k w st' k' ev x, went n (send b k w) = (st', k', ev) -> ~ In (LLine x) ev).
  { intros n b k w st' k' ev x H. eapply went_plain; [|exact H]. intros ok e k2 w2 E. exact (sends_plain _ _ _ _ _ _ _ _ E). }
  intros o st l e k w st' k' ev p x H. destruct st; cbn [reply] in H.
  - injection H as <- <- <- <-. auto.
  - destruct (code "220" space l); [destruct (went _ _) as [[a b] c] eqn:Q; injection H as <- <- <- <-; eauto|injection H as <- <- <- <-; auto].
  - destruct (list_eqb _ _); [injection H as <- <- <- <-; auto|]. destruct (code "250" dash l); injection H as <- <- <- <-; auto.
  - destruct (code "250" space l); [destruct (went _ _) as [[a b] c] eqn:Q; injection H as <- <- <- <-; eauto|]. destruct (code "250" dash l); injection H as <- <- <- <-; auto.
  - destruct (code "250" space l); [destruct (went _ _) as [[a b] c] eqn:Q; injection H as <- <- <- <-; eauto|injection H as <- <- <- <-; auto].
  - destruct (code "250" space l); [destruct (went _ _) as [[a b] c] eqn:Q; injection H as <- <- <- <-; eauto|injection H as <- <- <- <-; auto].
  - destruct (code "354" space l); [|injection H as <- <- <- <-; auto].
    destruct (went _ _) as [[a b] c] eqn:Q; injection H as <- <- <- <-. eapply went_plain; [|exact Q]. intros ok e1 k2 w2 E.
    destruct (send_all (m_body e) k w) as [[[[] e3] k3] w3] eqn:E3.
    + destruct (send dot_end k3 w3) as [[[o4 e4] k4] w4] eqn:E4. injection E as <- <- <- <-. intro I. apply in_app_iff in I as [I|I].
      * exact (sends_all_plain _ _ _ _ _ _ _ _ E3 I).
      * exact (sends_plain _ _ _ _ _ _ _ _ E4 I).
    + injection E as <- <- <- <-. exact (sends_all_plain _ _ _ _ _ _ _ _ E3).
  - destruct (code "250" space l); [destruct (went _ _) as [[a b] c] eqn:Q; injection H as <- <- <- <-; eauto|injection H as <- <- <- <-; auto].
  - injection H as <- <- <- <-. auto.
  - injection H as <- <- <- <-. auto.
Qed.
Definition shut (k : msock) : Prop := k <> SOpen.
Lemma close_shut : forall k, close k <> SOpen.
Proof. intros []; discriminate. Qed.
Lemma went_err : forall n r st k ev, went n r = (st, k, ev) -> (st = n /\ fst (fst (fst r)) = true) \/ (st = ERROR /\ k <> SOpen).
Proof. intros n [[[[] e] k'] w'] st k ev E; injection E as <- <- <-; [left; auto|right; split; [reflexivity|apply close_shut]]. Qed.
Lemma send_true : forall b k w e k' w', send b k w = (true, e, k', w') -> k' = SOpen.
Proof. intros b [] w e k' w' H; try discriminate H. cbn [send] in H. destruct w as [|[|n|] w]; try (injection H as <- <- <-; reflexivity); try discriminate. destruct (Nat.ltb n (length b)); [discriminate|injection H as <- <- <-; reflexivity]. Qed.
Lemma went_sock : forall n b k w st k' ev, n <> ERROR -> went n (send b k w) = (st, k', ev) -> (st = n /\ k' = SOpen) \/ (st = ERROR /\ k' <> SOpen).
Proof.
  intros n b k w st k' ev N H. destruct (send b k w) as [[[[] e] k2] w2] eqn:E; injection H as <- <- <-.
  - left. split; [reflexivity|]. exact (send_true _ _ _ _ _ _ E).
  - right. split; [reflexivity|apply close_shut].
Qed.
Lemma reply_bad : forall o st l e k w st' k' ev p, talking st -> (forall x h, ~ proper x h st l) -> reply o st l e k w = (st', k', ev, p) -> st' = ERROR /\ k' <> SOpen.
Proof.
  intros o st l e k w st' k' ev p [T1 T2] B H.
  assert (Sp : (code "220" space l = true -> answers "220 " l) /\ (code "250" space l = true -> answers "250 " l) /\ (code "354" space l = true -> answers "354 " l) /\ (code "221" space l = true -> answers "221 " l)).
  { repeat split; intros H0; apply code_answers in H0 as [r ->]; exists r; reflexivity. }
  destruct Sp as (S220 & S250 & S354 & S221).
  assert (Ds : code "250" dash l = true -> answers "250-" l).
  { intros H0. apply code_answers in H0 as [r ->]. exists r. reflexivity. }
  destruct st; try congruence; cbn [reply proper] in *.
  - destruct (code "220" space l) eqn:C; [destruct (B 0 0 (S220 eq_refl))|]. injection H as <- <- <- <-. split; [reflexivity|apply close_shut].
  - destruct (list_eqb l (lit "250-8BITMIME")) eqn:L.
    { exfalso. apply (B 1 0). apply eqb_list in L. split; [exists (lit "8BITMIME"); exact L|left; lia]. }
    destruct (code "250" dash l) eqn:C; [exfalso; apply (B 1 0); split; [auto|left; lia]|]. injection H as <- <- <- <-. split; [reflexivity|apply close_shut].
  - destruct (code "250" space l) eqn:C; [exfalso; apply (B 0 0); left; exact (S250 eq_refl)|].
    destruct (code "250" dash l) eqn:C'; [exfalso; apply (B 1 0); right; split; [auto|lia]|]. injection H as <- <- <- <-. split; [reflexivity|apply close_shut].
  - destruct (code "250" space l) eqn:C; [destruct (B 0 0 (S250 eq_refl))|]. injection H as <- <- <- <-. split; [reflexivity|apply close_shut].
  - destruct (code "250" space l) eqn:C; [destruct (B 0 0 (S250 eq_refl))|]. injection H as <- <- <- <-. split; [reflexivity|apply close_shut].
  - destruct (code "354" space l) eqn:C; [destruct (B 0 0 (S354 eq_refl))|]. injection H as <- <- <- <-. split; [reflexivity|apply close_shut].
  - destruct (code "250" space l) eqn:C; [destruct (B 0 0 (S250 eq_refl))|]. injection H as <- <- <- <-. split; [reflexivity|apply close_shut].
  - destruct (code "221" space l) eqn:C; [destruct (B 0 0 (S221 eq_refl))|]. injection H as <- <- <- <-. split; [reflexivity|apply close_shut].
Qed.
Lemma reply_shut : forall o st l e w st' k' ev p, talking st -> reply o st l e SOpen w = (st', k', ev, p) -> k' <> SOpen -> ~ (st = QUIT /\ answers "221 " l) -> st' = ERROR.
Proof.
  intros o st l e w st' k' ev p [T1 T2] H K Q.
  assert (W : forall n b k st' k' ev, n <> ERROR -> went n (send b k w) = (st', k', ev) -> k' <> SOpen -> st' = ERROR).
  { clear. intros n b k st' k' ev N H K. destruct (went_sock n b k w st' k' ev N H) as [[_ X]|[X _]]; [contradiction|exact X]. }
  destruct st; try congruence; cbn [reply] in H.
  - destruct (code "220" space l); [|injection H as <- <- <- <-; reflexivity]. destruct (went _ _) as [[a b] c] eqn:Z. injection H as <- <- <- <-. eapply W; [|exact Z|exact K]; discriminate.
  - destruct (list_eqb _ _); [injection H as <- <- <- <-; congruence|]. destruct (code "250" dash l); injection H as <- <- <- <-; congruence.
  - destruct (code "250" space l); [destruct (went _ _) as [[a b] c] eqn:Z; injection H as <- <- <- <-; eapply W; [|exact Z|exact K]; discriminate|].
    destruct (code "250" dash l); injection H as <- <- <- <-; congruence.
  - destruct (code "250" space l); [|injection H as <- <- <- <-; reflexivity]. destruct (went _ _) as [[a b] c] eqn:Z. injection H as <- <- <- <-. eapply W; [|exact Z|exact K]; discriminate.
  - destruct (code "250" space l); [|injection H as <- <- <- <-; reflexivity]. destruct (went _ _) as [[a b] c] eqn:Z. injection H as <- <- <- <-. eapply W; [|exact Z|exact K]; discriminate.
  - destruct (code "354" space l); [|injection H as <- <- <- <-; reflexivity]. destruct (went _ _) as [[a b] c] eqn:Z. injection H as <- <- <- <-.
    destruct (send_all (m_body e) SOpen w) as [[[[] e3] k3] w3] eqn:E3.
    + destruct (send dot_end k3 w3) as [[[[] e4] k4] w4] eqn:E4; injection Z as <- <- <-; [|reflexivity]. destruct K. exact (send_true _ _ _ _ _ _ E4).
    + injection Z as <- <- <-. reflexivity.
  - destruct (code "250" space l); [|injection H as <- <- <- <-; reflexivity]. destruct (went _ _) as [[a b] c] eqn:Z. injection H as <- <- <- <-. eapply W; [|exact Z|exact K]; discriminate.
  - destruct (code "221" space l) eqn:C; [|injection H as <- <- <- <-; reflexivity]. exfalso. apply Q. split; [reflexivity|]. apply code_answers in C as [r ->]. exists r. reflexivity.
Qed.
Lemma listen_failed : forall o v s s1 g c a' l b, x_sock s = SOpen -> talking (x_state s) -> listen o v s = Some s1 -> x_log s = g ++ c -> ~ In (LLine l) c ->
  x_log s1 = g ++ a' ++ LLine l :: b ->
  ((forall x h, ~ proper x h (x_state s) l) \/ (v_lost v = false /\ opened s1 = false /\ ~ (x_state s = QUIT /\ answers "221 " l))) ->
  x_pc s1 = MTop /\ x_state s1 = ERROR /\ opened s1 = false.
Proof.
  intros o v s s1 g c0 a' l b K T H G C0 L F. unfold listen in H. rewrite K in H.
  assert (Nil : forall c, x_log s ++ c = g ++ a' ++ LLine l :: b -> In (LLine l) c).
  { intros c E. rewrite G, <- app_assoc in E. apply app_inv_head in E. assert (X : In (LLine l) (c0 ++ c)) by (rewrite E; apply in_app_iff; right; now left).
    apply in_app_iff in X as [X|X]; [contradiction|exact X]. }
  destruct (v_mine v).
  - destruct (reads_ok (v_read v)); [|discriminate]. cbv zeta in H.
    set (k := if negb (N.eqb (last (v_read v) 0%N) lf) && v_lost v then SClosed else SOpen) in *.
    set (ev := [LRead (v_read v)] ++ match v_read v with [] => [LJunk (v_junk v)] | _ => [] end) in *.
    assert (Ev : forall x, ~ In (LLine x) ev) by (intros x I; unfold ev in I; destruct (v_read v); cbn in I; intuition discriminate).
    destruct (N.eqb (last (v_read v) (v_junk v)) lf).
    + destruct (strip _) as [l0|].
      * destruct (reply o (x_state s) l0 (x_email s) k (v_writes v)) as [[[st k'] ev'] p] eqn:R. injection H as <-. cbn [x_log x_pc x_state opened x_sock] in *.
        apply Nil in L. change (In (LLine l) (ev ++ [LLine l0] ++ (if p then [LPurged (x_email s)] else []) ++ ev')) in L.
        apply in_app_iff in L as [L|[L|L]]; [destruct (Ev _ L)| |].
        -- injection L as ->. split; [reflexivity|]. destruct F as [F|(F1 & F2 & F3)].
           ++ destruct (reply_bad _ _ _ _ _ _ _ _ _ _ T F R) as [X Y]. split; [exact X|]. unfold opened; cbn. now destruct k'.
           ++ assert (Kk : k = SOpen) by (unfold k; rewrite F1, andb_false_r; reflexivity). rewrite Kk in R.
              split; [|exact F2]. eapply reply_shut; [exact T|exact R| |exact F3]. intro E; subst k'; discriminate F2.
        -- exfalso. change (In (LLine l) ((if p then [LPurged (x_email s)] else []) ++ ev')) in L. destruct (in_app_or _ _ _ L) as [L'|L']; [destruct p; cbn in L'; intuition discriminate|]. exact (reply_plain _ _ _ _ _ _ _ _ _ _ _ R L').
      * injection H as <-. cbn [x_log] in L. apply Nil in L. destruct (Ev _ L).
    + injection H as <-. cbn [x_log] in L. apply Nil in L. destruct (Ev _ L).
  - injection H as <-. cbn [x_log] in L. rewrite <- (app_nil_r (x_log s)) in L at 1. apply Nil in L. destruct L.
Qed.
Lemma said_talking : forall o s, minv o s -> x_sock s = SOpen -> talking (x_state s).
Proof. intros o s I K. destruct (i_said _ _ I K) as [A _]. destruct (x_state s); try (split; discriminate); destruct A. Qed.
Lemma addressed_in : forall e, addressed e = in_mail e.
Proof. intros e. unfold addressed, in_mail. now destruct (m_to e). Qed.
Lemma failed_error : forall o v s s1, mreachable o s -> mstep o (ANet v) s = Some s1 -> failed v s s1 -> x_pc s1 = MTop /\ x_state s1 = ERROR /\ opened s1 = false.
Proof.
  intros o v s s1 R H F. pose proof (minv_reach _ _ R) as I. cbn [mstep] in H. destruct (x_pc s); try discriminate. unfold handle in H.
  assert (O : opened s = match x_sock s with SOpen => true | _ => false end) by reflexivity. rewrite <- O in H.
  destruct F as [(F1 & F2 & F3)|(F0 & a & l & b & L & F)].
  - rewrite <- addressed_in, F1, F2, F3 in H. injection H as <-. repeat split.
  - unfold asked in F. destruct (opened s) eqn:Op.
    + rewrite andb_false_r in H. destruct (x_sock s) eqn:K; try discriminate O. apply (listen_failed o v s s1 (x_log s) [] a l b K); auto; [exact (said_talking _ _ I K)|now rewrite app_nil_r].
    + destruct F0 as [F0|[F0 F1]]; [discriminate|]. rewrite <- addressed_in, F0, F1 in H. cbn [andb negb] in H.
      refine (listen_failed o v _ s1 (x_log s) [LConnect] a l b _ _ H _ _ L F); [reflexivity|split; discriminate|reflexivity|intros [X|[]]; discriminate].
Qed.
Lemma error_retry : forall o v s s1, mreachable o s -> mstep o (ANet v) s = Some s1 -> failed v s s1 ->
  opened s1 = false /\ forall l s', mexec o l s1 = Some s' -> connections (x_log s') <> connections (x_log s1) -> retries o l s1.
Proof.
  intros o v s s1 R H F. destruct (failed_error o v s s1 R H F) as (P & S & O). split; [exact O|]. intros l s' M C. exact (after_error o l s1 s' P S M C).
Qed.
