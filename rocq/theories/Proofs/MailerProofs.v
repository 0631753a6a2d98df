(** Proofs about the mail sender. *)
From Coq Require Import String List NArith Bool Arith Lia.
From Verif Require Import Model.Base Model.Mailer Spec.MailerSpec.
Import ListNotations.

(** * Logs *)
Lemma queued_app : forall a b, queued (a ++ b) = queued a ++ queued b.
Proof. induction a as [|x a IH]; intros b; [|destruct x]; cbn; rewrite ?IH; reflexivity. Qed.
Lemma purged_app : forall a b, purged (a ++ b) = purged a ++ purged b.
Proof. induction a as [|x a IH]; intros b; [|destruct x]; cbn; rewrite ?IH; reflexivity. Qed.
Lemma conv_from_app : forall a b t, conv_from t (a ++ b) = conv_from (conv_from t a) b.
Proof. induction a as [|x a IH]; intros b t; [|destruct x]; cbn; rewrite ?IH; reflexivity. Qed.
Lemma conv_app : forall a b, conv (a ++ b) = conv_from (conv a) b.
Proof. intros; apply conv_from_app. Qed.
Lemma received_from_app : forall a b t, received_from t (a ++ b) = received_from (received_from t a) b.
Proof. induction a as [|x a IH]; intros b t; [|destruct x]; cbn; rewrite ?IH; reflexivity. Qed.
Lemma received_app : forall a b, received (a ++ b) = received_from (received a) b.
Proof. intros; apply received_from_app. Qed.
Lemma heard_app : forall a b, heard (a ++ b) = heard a ++ heard b.
Proof. induction a as [|x a IH]; intros b; [|destruct x]; cbn; rewrite ?IH; reflexivity. Qed.
Lemma said_app : forall a b, said (a ++ b) = said a ++ said b.
Proof. induction a as [|x a IH]; intros b; [|destruct x]; cbn; rewrite ?IH, ?app_assoc; reflexivity. Qed.

Lemma eqb_list : forall a b, list_eqb a b = true <-> a = b.
Proof.
  induction a as [|x a IH]; intros [|y b]; cbn; split; try discriminate; try reflexivity; intros H.
  - apply andb_prop in H as [H1 H2]; apply N.eqb_eq in H1; apply IH in H2; congruence.
  - injection H as -> ->; rewrite N.eqb_refl; now apply IH.
Qed.
Lemma addressed_in : forall e, addressed e = in_mail e.
Proof. intros [b [|c t] f]; reflexivity. Qed.

Lemma code_answers : forall p c l, code p c l = true -> exists r, l = lit p ++ [c] ++ r.
Proof.
  intros p c l H; unfold code, starts in H; apply eqb_list in H; set (q := lit p ++ [c]) in *.
  exists (skipn (length q) l); rewrite app_assoc; fold q; rewrite <- (firstn_skipn (length q) l) at 1; now rewrite <- H.
Qed.
Lemma lit_app : forall a b, lit (a ++ b)%string = lit a ++ lit b.
Proof. induction a as [|x a IH]; intros b; cbn; [reflexivity|]; now rewrite IH. Qed.
Lemma ans_space : forall p l, code p space l = true -> answers (p ++ " ") l.
Proof. intros p l H; apply code_answers in H as [r ->]; exists r; rewrite lit_app, <- app_assoc; reflexivity. Qed.
Lemma ans_dash : forall p l, code p dash l = true -> answers (p ++ "-") l.
Proof. intros p l H; apply code_answers in H as [r ->]; exists r; rewrite lit_app, <- app_assoc; reflexivity. Qed.

(** * Writing *)
Lemma send_ok : forall b k w ev k' w', send b k w = (true, ev, k', w') -> k = SOpen /\ k' = SOpen /\ ev = [LSent b].
Proof.
  intros b k w ev k' w' H; destruct k; try discriminate; unfold send in H; destruct w as [|[|n|] w].
  - injection H as <- <- <-; auto.
  - injection H as <- <- <-; auto.
  - destruct (n <? length b); [discriminate|]; injection H as <- <- <-; auto.
  - discriminate.
Qed.
Definition sent (x : mlog) : Prop := match x with LSent _ => True | _ => False end.
Lemma send_sent : forall b k w ok ev k' w', send b k w = (ok, ev, k', w') -> Forall sent ev.
Proof.
  intros b k w ok ev k' w' H; destruct k; unfold send in H; [injection H as <- <- <- <-; constructor|injection H as <- <- <- <-; constructor|].
  destruct w as [|[|n|] w]; [| |destruct (n <? length b)|]; injection H as <- <- <- <-; repeat constructor.
Qed.
Lemma send_all_ok : forall l k w ev k' w', send_all l k w = (true, ev, k', w') -> k' = k /\ ev = map LSent l.
Proof.
  induction l as [|b l IH]; intros k w ev k' w' H; cbn in H; [injection H as <- <- <-; auto|].
  destruct (send b k w) as [[[[] e1] k1] w1] eqn:S; [|discriminate]; apply send_ok in S as (-> & -> & ->).
  destruct (send_all l SOpen w1) as [[[ok e2] k2] w2] eqn:R; injection H as -> <- <- <-; apply IH in R as [-> ->]; auto.
Qed.
Lemma send_all_sent : forall l k w ok ev k' w', send_all l k w = (ok, ev, k', w') -> Forall sent ev.
Proof.
  induction l as [|b l IH]; intros k w ok ev k' w' H; cbn in H; [injection H as <- <- <- <-; constructor|].
  destruct (send b k w) as [[[[] e1] k1] w1] eqn:S; apply send_sent in S.
  - destruct (send_all l k1 w1) as [[[ok2 e2] k2] w2] eqn:R; injection H as <- <- <- <-; apply IH in R; now apply Forall_app.
  - injection H as <- <- <- <-; exact S.
Qed.
Lemma close_not : forall k, close k <> SOpen.
Proof. intros []; discriminate. Qed.

(** * The conversation in each state *)
Definition said_in (st : mstate) (origin : list N) (e : mail) (t : list tev) : Prop :=
  match st with
  | CONNECTED => t = []
  | EHLO => exists g a, t = Heard g :: Said (ehlo origin) :: map Heard a /\ answers "220 " g /\ Forall (answers "250-") a
  | EIGHTBIT => exists g a b, t = Heard g :: Said (ehlo origin) :: map Heard (a ++ [lit "250-8BITMIME"] ++ b) /\
      answers "220 " g /\ Forall (answers "250-") a /\ Forall (answers "250-") b
  | MAIL => exists h, greeted origin h /\ t = h ++ [Said (mail_from e)]
  | RCPT => exists h m, greeted origin h /\ answers "250 " m /\ t = h ++ [Said (mail_from e); Heard m; Said (rcpt_to e)]
  | DATA => exists h m r, greeted origin h /\ answers "250 " m /\ answers "250 " r /\
      t = h ++ [Said (mail_from e); Heard m; Said (rcpt_to e); Heard r; Said data_cmd]
  | DUMP => exists h m r d, greeted origin h /\ answers "250 " m /\ answers "250 " r /\ answers "354 " d /\
      t = h ++ [Said (mail_from e); Heard m; Said (rcpt_to e); Heard r; Said data_cmd; Heard d] ++ map Said (m_body e) ++ [Said dot_end]
  | QUIT => exists e' t', handed_over origin e' t' /\ t = t' ++ [Said quit_cmd]
  | DISCONNECTED | ERROR => False
  end.

Lemma conv_sent : forall l t, conv_from t (map LSent l) = t ++ map Said l.
Proof. induction l as [|b l IH]; intros t; cbn; [now rewrite app_nil_r|]; rewrite IH, <- app_assoc; reflexivity. Qed.
Lemma mail_from_cmd : forall e, mail_from e = command (lit "MAIL FROM: <" ++ m_from e ++ lit ">").
Proof. intros e; unfold mail_from, command; now rewrite <- !app_assoc. Qed.
Lemma rcpt_to_cmd : forall e, rcpt_to e = command (lit "RCPT TO: <" ++ m_to e ++ lit ">").
Proof. intros e; unfold rcpt_to, command; now rewrite <- !app_assoc. Qed.
Lemma ehlo_cmd : forall o, ehlo o = command (lit "EHLO " ++ o).
Proof. intros e; unfold ehlo, command; now rewrite <- !app_assoc. Qed.
Lemma went_open : forall next r st k ev, went next r = (st, k, ev) -> k = SOpen ->
  exists k0 w, r = (true, ev, k0, w) /\ st = next /\ k = k0.
Proof.
  intros next [[[[] e] k0] w] st k ev H K; cbn in H; injection H as <- <- <-; [eauto|]; now apply close_not in K.
Qed.
Lemma went_sent : forall next r st k ev, went next r = (st, k, ev) -> exists ok k0 w, r = (ok, ev, k0, w).
Proof. intros next [[[[] e] k0] w] st k ev H; cbn in H; injection H as <- <- <-; eauto. Qed.

Lemma reply_sent : forall origin st l e k w st' k' ev p, reply origin st l e k w = (st', k', ev, p) -> Forall sent ev.
Proof.
  assert (W : forall next b k w st k' ev, went next (send b k w) = (st, k', ev) -> Forall sent ev).
  { intros next b k w st k' ev H; apply went_sent in H as (ok & k0 & w0 & H); eapply send_sent; eauto. }
  assert (B : forall k st k' ev, bad k = (st, k', ev) -> Forall sent ev).
  { intros k st k' ev H; injection H as <- <- <-; constructor. }
  intros origin st l e k w st' k' ev p H; destruct st; unfold reply in H.
  - injection H as <- <- <- <-; constructor.
  - destruct (code "220" space l); [destruct (went _ _) as [[x y] z] eqn:Q|destruct (bad k) as [[x y] z] eqn:Q]; injection H as <- <- <- <-; eauto.
  - destruct (list_eqb l _); [injection H as <- <- <- <-; constructor|]; destruct (code "250" dash l); [injection H as <- <- <- <-; constructor|].
    destruct (bad k) as [[x y] z] eqn:Q; injection H as <- <- <- <-; eauto.
  - destruct (code "250" space l); [destruct (went _ _) as [[x y] z] eqn:Q; injection H as <- <- <- <-; eauto|].
    destruct (code "250" dash l); [injection H as <- <- <- <-; constructor|].
    destruct (bad k) as [[x y] z] eqn:Q; injection H as <- <- <- <-; eauto.
  - destruct (code "250" space l); [destruct (went _ _) as [[x y] z] eqn:Q|destruct (bad k) as [[x y] z] eqn:Q]; injection H as <- <- <- <-; eauto.
  - destruct (code "250" space l); [destruct (went _ _) as [[x y] z] eqn:Q|destruct (bad k) as [[x y] z] eqn:Q]; injection H as <- <- <- <-; eauto.
  - destruct (code "354" space l); [|destruct (bad k) as [[x y] z] eqn:Q; injection H as <- <- <- <-; eauto].
    destruct (went _ _) as [[x y] z] eqn:Q; injection H as <- <- <- <-; apply went_sent in Q as (ok & k0 & w0 & Q).
    destruct (send_all (m_body e) k w) as [[[[] e1] k1] w1] eqn:R; apply send_all_sent in R.
    + destruct (send dot_end k1 w1) as [[[ok2 e2] k2] w2] eqn:T; apply send_sent in T; injection Q as <- <- <- <-; now apply Forall_app.
    + injection Q as <- <- <- <-; exact R.
  - destruct (code "250" space l); [destruct (went _ _) as [[x y] z] eqn:Q|destruct (bad k) as [[x y] z] eqn:Q]; injection H as <- <- <- <-; eauto.
  - injection H as <- <- <- <-; constructor.
  - injection H as <- <- <- <-; constructor.
Qed.

Lemma reply_purge : forall origin st l e k w st' k' ev p, reply origin st l e k w = (st', k', ev, p) -> p = true ->
  st = DUMP /\ code "250" space l = true.
Proof.
  intros origin st l e k w st' k' ev p H P; subst p; destruct st; unfold reply in H.
  - discriminate.
  - destruct (if code "220" space l then _ else _) as [[x y] z]; discriminate.
  - destruct (list_eqb l _); [discriminate|]; destruct (code "250" dash l); [discriminate|]; destruct (bad k) as [[x y] z]; discriminate.
  - destruct (code "250" space l); [destruct (went _ _) as [[x y] z]; discriminate|].
    destruct (code "250" dash l); [discriminate|]; destruct (bad k) as [[x y] z]; discriminate.
  - destruct (if code "250" space l then _ else _) as [[x y] z]; discriminate.
  - destruct (if code "250" space l then _ else _) as [[x y] z]; discriminate.
  - destruct (if code "354" space l then _ else _) as [[x y] z]; discriminate.
  - destruct (code "250" space l); [auto|]; destruct (bad k) as [[x y] z]; discriminate.
  - discriminate.
  - discriminate.
Qed.

Lemma dump_over : forall origin e t l, said_in DUMP origin e t -> code "250" space l = true -> handed_over origin e (t ++ [Heard l]).
Proof.
  intros origin e t l (h & m & r & d & G & A1 & A2 & A3 & ->) C; exists h, m, r, d, l; repeat (split; [assumption|]); split; [now apply ans_space in C|].
  rewrite <- mail_from_cmd, <- rcpt_to_cmd, <- !app_assoc; cbn [app]; do 7 f_equal; rewrite <- app_assoc; reflexivity.
Qed.

(** While the connection stays, what is said and heard moves on with the
    state. *)
Lemma reply_said : forall origin st l e k w st' k' ev p t, reply origin st l e k w = (st', k', ev, p) -> k' = SOpen ->
  said_in st origin e t -> said_in st' origin e (conv_from (t ++ [Heard l]) ev) /\ (p = false -> st' <> QUIT) /\ st <> QUIT.
Proof.
  intros origin st l e k w st' k' ev p t H K T.
  assert (B : forall x y z, bad k = (x, y, z) -> y = SOpen -> False).
  { intros x y z E Y; injection E as <- <- <-; now apply close_not in Y. }
  destruct st; unfold reply in H; cbn [said_in] in T.
  - contradiction.
  - destruct (code "220" space l) eqn:C; [|destruct (bad k) as [[x y] z] eqn:Q; injection H as <- <- <- <-; exfalso; eauto].
    destruct (went _ _) as [[x y] z] eqn:Q; injection H as <- <- <- <-; apply (went_open _ _ _ _ _ Q) in K as (k0 & w0 & Q2 & -> & ->).
    apply send_ok in Q2 as (-> & -> & ->); split; [|split; discriminate]; cbn; subst t; exists l, []; repeat split; auto; now apply ans_space in C.
  - destruct T as (g & a & -> & A & F); destruct (list_eqb l (lit "250-8BITMIME")) eqn:C.
    + injection H as <- <- <- <-; split; [|split; discriminate]; apply eqb_list in C; subst l; exists g, a, []; cbn -[lit]; rewrite map_app; repeat split; auto.
    + destruct (code "250" dash l) eqn:D; [|destruct (bad k) as [[x y] z] eqn:Q; injection H as <- <- <- <-; exfalso; eauto].
      injection H as <- <- <- <-; split; [|split; discriminate]; exists g, (a ++ [l]); cbn; rewrite map_app; repeat split; auto.
      apply Forall_app; split; [assumption|constructor; [now apply ans_dash in D|constructor]].
  - destruct T as (g & a & b & -> & A & F1 & F2); destruct (code "250" space l) eqn:C.
    + destruct (went _ _) as [[x y] z] eqn:Q; injection H as <- <- <- <-; apply (went_open _ _ _ _ _ Q) in K as (k0 & w0 & Q2 & -> & ->).
      apply send_ok in Q2 as (-> & -> & ->); split; [|split; discriminate]; eexists; split; [|reflexivity].
      exists g, a, b, l; rewrite <- ehlo_cmd; split; [|repeat split; auto; now apply ans_space in C].
      rewrite !map_app; cbn [app map]; rewrite ?map_app; cbn [map app]; rewrite <- ?app_assoc; cbn [app]; rewrite <- ?app_assoc; reflexivity.
    + destruct (code "250" dash l) eqn:D; [|destruct (bad k) as [[x y] z] eqn:Q; injection H as <- <- <- <-; exfalso; eauto].
      injection H as <- <- <- <-; split; [|split; discriminate]; exists g, a, (b ++ [l]); cbn -[lit]; split; [|repeat split; auto].
      * rewrite !map_app; cbn [app map]; rewrite ?map_app; cbn [map app]; rewrite <- ?app_assoc; cbn [app]; rewrite <- ?app_assoc; reflexivity.
      * apply Forall_app; split; [assumption|constructor; [now apply ans_dash in D|constructor]].
  - destruct T as (h & G & ->); destruct (code "250" space l) eqn:C; [|destruct (bad k) as [[x y] z] eqn:Q; injection H as <- <- <- <-; exfalso; eauto].
    destruct (went _ _) as [[x y] z] eqn:Q; injection H as <- <- <- <-; apply (went_open _ _ _ _ _ Q) in K as (k0 & w0 & Q2 & -> & ->).
    apply send_ok in Q2 as (-> & -> & ->); split; [|split; discriminate]; exists h, l; repeat split; auto; [now apply ans_space in C|].
    cbn [conv_from]; rewrite <- !app_assoc; reflexivity.
  - destruct T as (h & m & G & A & ->); destruct (code "250" space l) eqn:C; [|destruct (bad k) as [[x y] z] eqn:Q; injection H as <- <- <- <-; exfalso; eauto].
    destruct (went _ _) as [[x y] z] eqn:Q; injection H as <- <- <- <-; apply (went_open _ _ _ _ _ Q) in K as (k0 & w0 & Q2 & -> & ->).
    apply send_ok in Q2 as (-> & -> & ->); split; [|split; discriminate]; exists h, m, l; repeat split; auto; [now apply ans_space in C|].
    cbn [conv_from]; rewrite <- !app_assoc; reflexivity.
  - destruct T as (h & m & r & G & A1 & A2 & ->); destruct (code "354" space l) eqn:C; [|destruct (bad k) as [[x y] z] eqn:Q; injection H as <- <- <- <-; exfalso; eauto].
    destruct (went _ _) as [[x y] z] eqn:Q; injection H as <- <- <- <-; apply (went_open _ _ _ _ _ Q) in K as (k0 & w0 & Q2 & -> & ->).
    destruct (send_all (m_body e) k w) as [[[[] e1] k1] w1] eqn:R; [|discriminate]; apply send_all_ok in R as [-> ->].
    destruct (send dot_end k w1) as [[[[] e2] k2] w2] eqn:T; [|discriminate]; apply send_ok in T as (-> & -> & ->); injection Q2 as <- <- <-.
    split; [|split; discriminate]; exists h, m, r, l; repeat split; auto; [now apply ans_space in C|].
    rewrite conv_from_app, conv_sent; cbn [conv_from]; rewrite <- !app_assoc; reflexivity.
  - destruct (code "250" space l) eqn:C; [|destruct (bad k) as [[x y] z] eqn:Q; injection H as <- <- <- <-; exfalso; eauto].
    destruct (went _ _) as [[x y] z] eqn:Q; injection H as <- <- <- <-; apply (went_open _ _ _ _ _ Q) in K as (k0 & w0 & Q2 & -> & ->).
    apply send_ok in Q2 as (-> & -> & ->); split; [|split; [discriminate|discriminate]]; exists e, (t ++ [Heard l]); split; [now apply dump_over|reflexivity].
  - injection H as <- <- <- <-; exfalso; now apply close_not in K.
  - contradiction.
Qed.

(** * The invariant *)
Definition ok_at (origin : list N) (l1 : list mlog) (x : mlog) : Prop :=
  match x with
  | LPurged e => handed_over origin e (conv l1)
  | LLine l => ~ bad_junk l1 -> map chomp (fst (split_lf (received l1))) = heard (conv l1) ++ [l]
  | _ => True
  end.
Definition log_ok (origin : list N) (log : list mlog) : Prop := forall l1 x l2, log = l1 ++ x :: l2 -> ok_at origin l1 x.

Lemma log_ok_nil : forall o, log_ok o [].
Proof. intros o [|y l1] x l2 H; discriminate. Qed.
Lemma log_ok_snoc : forall o log x, log_ok o log -> ok_at o log x -> log_ok o (log ++ [x]).
Proof.
  intros o log x L X l1 y l2 H; destruct l2 as [|z l2] using rev_ind.
  - apply app_inj_tail in H as [-> ->]; exact X.
  - clear IHl2; apply (L l1 y l2); change (y :: l2 ++ [z]) with ((y :: l2) ++ [z]) in H; rewrite app_assoc in H; now apply app_inj_tail in H as [H _].
Qed.
Lemma log_ok_plain : forall o ev log, log_ok o log -> Forall (fun x => match x with LPurged _ | LLine _ => False | _ => True end) ev -> log_ok o (log ++ ev).
Proof.
  intros o ev; induction ev as [|x ev IH]; intros log L F; [now rewrite app_nil_r|]; inversion F; subst; cbn beta in *.
  change (x :: ev) with ([x] ++ ev); rewrite app_assoc; apply IH; [|assumption]; apply log_ok_snoc; [assumption|]; destruct x; cbn; auto; contradiction.
Qed.
Lemma sent_plain : forall ev, Forall sent ev -> Forall (fun x => match x with LPurged _ | LLine _ => False | _ => True end) ev.
Proof. intros ev F; induction F as [|x ev X F IH]; constructor; [destruct x; auto|exact IH]. Qed.

Definition cur (s : mst) : list mail := if in_mail (x_email s) then [x_email s] else [].

Record minv (origin : list N) (s : mst) : Prop := mkI {
  i_order : filter addressed (queued (x_log s)) = purged (x_log s) ++ cur s ++ filter addressed (x_queue s);
  i_said : x_sock s = SOpen -> said_in (x_state s) origin (x_email s) (conv (x_log s)) /\ (x_state s <> QUIT -> in_mail (x_email s) = true);
  i_log : log_ok origin (x_log s);
  i_null : x_sock s = SNull -> x_line s = [];
  i_bytes : x_sock s = SOpen -> x_pc s <> MUndef -> ~ bad_junk (x_log s) ->
    exists raw, split_lf (received (x_log s)) = (raw, x_line s) /\ map chomp raw = heard (conv (x_log s));
  i_wait : x_pc s = MWait -> x_state s = ERROR
}.

(** ** Lines *)
Lemma split_app : forall a b, split_lf (a ++ b) = fold_left split_step b (split_lf a).
Proof. intros; apply fold_left_app. Qed.
Lemma split_plain : forall b st, ~ In lf b -> fold_left split_step b st = (fst st, snd st ++ b).
Proof.
  induction b as [|c b IH]; intros [x y] H; cbn [fold_left fst snd]; [now rewrite app_nil_r|].
  unfold split_step at 2; destruct (N.eqb_spec c 10) as [->|E]; [exfalso; apply H; now left|].
  rewrite IH by (intros Z; apply H; now right); cbn; now rewrite <- app_assoc.
Qed.
Lemma no_lf : forall b, existsb (N.eqb lf) b = false -> ~ In lf b.
Proof.
  intros b H I; assert (X : existsb (N.eqb lf) b = true) by (apply existsb_exists; exists lf; split; [exact I|reflexivity]); congruence.
Qed.
Lemma without_plain : forall b, ~ In lf b -> without_lf b = b.
Proof.
  induction b as [|c b IH]; intros H; [reflexivity|]; unfold without_lf in *; cbn [filter]; destruct (N.eqb_spec c lf) as [->|E]; [exfalso; apply H; now left|].
  cbn [negb]; f_equal; apply IH; intros Z; apply H; now right.
Qed.
Lemma reads_cases : forall b j, reads_ok b = true -> b <> [] ->
  (last b j = lf /\ exists b0, b = b0 ++ [lf] /\ without_lf b = b0 /\ ~ In lf b0) \/
  (last b j <> lf /\ without_lf b = b /\ ~ In lf b).
Proof.
  intros b j H N; unfold reads_ok in H; apply negb_true_iff, no_lf in H.
  destruct b as [|c b] using rev_ind; [congruence|]; clear IHb; rewrite removelast_last in H; rewrite last_last.
  destruct (N.eqb_spec c lf) as [->|E]; [left|right]; (split; [auto|]).
  - exists b; split; [reflexivity|]; split; [|exact H]; unfold without_lf; rewrite filter_app; fold (without_lf b); rewrite without_plain by exact H; cbn; apply app_nil_r.
  - assert (X : ~ In lf (b ++ [c])) by (intros Z; apply in_app_iff in Z as [Z|[Z|[]]]; auto); split; [now apply without_plain|exact X].
Qed.
Lemma strip_chomp : forall l l', strip l = Some l' -> l' = chomp l.
Proof.
  intros l l' H; unfold strip, chomp in *; destruct (rev l) as [|c r]; [discriminate|]; injection H as <-.
  destruct (N.eqb_spec c cr) as [->|E]; [reflexivity|]; destruct c as [|p]; [reflexivity|].
  unfold cr in E; repeat (destruct p as [p|p|]; try reflexivity); congruence.
Qed.

Lemma heard_sent : forall ev t, Forall sent ev -> heard (conv_from t ev) = heard t.
Proof.
  intros ev; induction ev as [|x ev IH]; intros t F; [reflexivity|]; inversion F; subst; destruct x; try contradiction; cbn; rewrite IH by assumption.
  rewrite heard_app; cbn; apply app_nil_r.
Qed.
Lemma received_sent : forall ev t, Forall sent ev -> received_from t ev = t.
Proof. intros ev; induction ev as [|x ev IH]; intros t F; [reflexivity|]; inversion F; subst; destruct x; try contradiction; cbn; auto. Qed.
Lemma purged_sent : forall ev, Forall sent ev -> purged ev = [].
Proof. intros ev F; induction F as [|x ev X F IH]; [reflexivity|]; destruct x; try contradiction; exact IH. Qed.
Lemma queued_sent : forall ev, Forall sent ev -> queued ev = [].
Proof. intros ev F; induction F as [|x ev X F IH]; [reflexivity|]; destruct x; try contradiction; exact IH. Qed.

(** ** Acting on a line *)
Lemma act_inv : forall origin s k pre l st k' ev p w,
  minv origin s -> x_sock s = SOpen -> reply origin (x_state s) l (x_email s) k w = (st, k', ev, p) ->
  conv_from (conv (x_log s)) pre = conv (x_log s) -> queued pre = [] -> purged pre = [] ->
  Forall (fun x => match x with LPurged _ | LLine _ => False | _ => True end) pre ->
  (~ bad_junk (x_log s ++ pre) -> exists raw, split_lf (received (x_log s ++ pre)) = (raw, []) /\ map chomp raw = heard (conv (x_log s)) ++ [l]) ->
  minv origin (mkMS MTop st k' [] (if p then no_mail else x_email s) (x_queue s) (x_stop s) (x_term s)
                 (x_log s ++ pre ++ [LLine l] ++ (if p then [LPurged (x_email s)] else []) ++ ev)).
Proof.
  intros origin s k pre l st k' ev p w I K R C Q P F B; destruct (i_said _ _ I K) as [T TM]; assert (S := reply_sent _ _ _ _ _ _ _ _ _ _ R).
  assert (CV : conv (x_log s ++ pre ++ [LLine l] ++ (if p then [LPurged (x_email s)] else []) ++ ev) = conv_from (conv (x_log s) ++ [Heard l]) ev).
  { rewrite conv_app, conv_from_app, C; cbn [conv_from app]; destruct p; reflexivity. }
  assert (CP : conv (x_log s ++ pre) = conv (x_log s)) by (rewrite conv_app; exact C).
  assert (PU : p = true -> x_state s = DUMP /\ code "250" space l = true) by (intros; eapply reply_purge; eauto).
  constructor; cbn [x_pc x_state x_sock x_line x_email x_queue x_log]; try discriminate; auto.
  - rewrite !queued_app, Q, (queued_sent _ S), !purged_app, P, (purged_sent _ S); cbn [queued purged app]; rewrite ?app_nil_r; destruct p; unfold cur; cbn [x_email].
    + cbn [queued purged]; rewrite !app_nil_r, (i_order _ _ I); unfold cur.
      destruct (PU eq_refl) as [E _]; rewrite TM by (rewrite E; discriminate); cbn [in_mail no_mail m_to app]; now rewrite <- app_assoc.
    + cbn [queued purged]; rewrite !app_nil_r; apply (i_order _ _ I).
  - intros KO; destruct (reply_said _ _ _ _ _ _ _ _ _ _ _ R KO T) as (X1 & X2 & X3); rewrite CV; destruct p.
    + destruct (PU eq_refl) as [E1 E2]; rewrite E1 in R; unfold reply in R; rewrite E2 in R.
      destruct (went QUIT _) as [[x y] z] eqn:W; injection R as <- <- <-; apply (went_open _ _ _ _ _ W) in KO as (k0 & w0 & _ & -> & _).
      split; [exact X1|congruence].
    + split; [exact X1|]; intros _; now apply TM.
  - assert (L1 : log_ok origin ((x_log s ++ pre) ++ [LLine l])).
    { apply log_ok_snoc; [now apply log_ok_plain; [apply I|]|]; cbn; intros J; destruct (B J) as (raw & B1 & B2); rewrite B1, CP; exact B2. }
    destruct p.
    + replace (x_log s ++ pre ++ [LLine l] ++ [LPurged (x_email s)] ++ ev) with (((x_log s ++ pre) ++ [LLine l]) ++ [LPurged (x_email s)] ++ ev) by (now rewrite <- !app_assoc).
      rewrite app_assoc; apply log_ok_plain; [|now apply sent_plain]; apply log_ok_snoc; [exact L1|]; cbn.
      rewrite conv_app, CP; cbn [conv_from]; destruct (PU eq_refl) as [E1 E2]; rewrite E1 in T; now apply dump_over.
    + replace (x_log s ++ pre ++ [LLine l] ++ [] ++ ev) with (((x_log s ++ pre) ++ [LLine l]) ++ ev) by (now rewrite <- !app_assoc).
      apply log_ok_plain; [exact L1|now apply sent_plain].
  - intros KO _ J; rewrite CV, heard_sent, heard_app by exact S; cbn [heard]; destruct B as (raw & B1 & B2).
    + intros Z; apply J; unfold bad_junk in *; rewrite app_assoc; apply in_app_iff; now left.
    + exists raw; split; [|exact B2]; rewrite app_assoc, received_app; cbn [app received_from]; destruct p; cbn [app received_from]; rewrite received_sent by exact S; exact B1.
Qed.

Lemma junk_app : forall a b, bad_junk (a ++ b) <-> bad_junk a \/ bad_junk b.
Proof. intros; apply in_app_iff. Qed.

Lemma listen_inv : forall origin v s s', minv origin s -> x_pc s = MRun -> listen origin v s = Some s' -> minv origin s'.
Proof.
  intros origin v s s' I PC H; unfold listen in H; destruct (x_sock s) eqn:K.
  - assert (Z := i_null _ _ I K); rewrite Z in H; cbn [app without_lf filter last strip rev] in H.
    assert (L : log_ok origin (x_log s ++ [LJunk (v_junk v)])) by (apply log_ok_plain; [apply I|repeat constructor]).
    destruct (N.eqb (v_junk v) lf); injection H as <-; constructor; cbn [x_pc x_state x_sock x_line x_email x_queue x_log]; try discriminate; auto;
      rewrite queued_app, purged_app; cbn [queued purged]; rewrite !app_nil_r; apply I.
  - injection H as <-; destruct I; constructor; cbn [x_pc x_state x_sock x_line x_email x_queue x_log]; try discriminate; auto.
  - destruct (v_mine v); [|injection H as <-; rewrite <- K; destruct I; constructor; cbn [x_pc x_state x_sock x_line x_email x_queue x_log]; try discriminate; auto].
    2:{ intros KO _; apply i_bytes0; [exact KO|rewrite PC; discriminate]. }
    destruct (reads_ok (v_read v)) eqn:RO; [|discriminate].
    destruct (i_said _ _ I K) as [T TM].
    destruct (v_read v) as [|c0 b0] eqn:RD.
    + (* nothing was read *)
      cbn [without_lf filter app last] in H; rewrite app_nil_r in H.
      assert (L : log_ok origin (x_log s ++ [LRead []; LJunk (v_junk v)])) by (apply log_ok_plain; [apply I|repeat constructor]).
      destruct (N.eqb_spec (v_junk v) lf) as [J|J].
      * destruct (strip (x_line s)) as [l|] eqn:ST.
        -- destruct (reply _ _ _ _ _ _) as [[[st k'] ev'] p] eqn:R; injection H as <-.
           apply (act_inv origin s _ [LRead []; LJunk (v_junk v)] l st k' ev' p _ I K R); [reflexivity|reflexivity|reflexivity|repeat constructor|].
           intros Z; exfalso; apply Z, junk_app; right; rewrite J; right; now left.
        -- injection H as <-; constructor; cbn [x_pc x_state x_sock x_line x_email x_queue x_log]; try discriminate; auto.
           ++ rewrite queued_app, purged_app; cbn [queued purged]; rewrite !app_nil_r; apply I.
           ++ intros _; rewrite conv_app; cbn [conv_from]; auto.
           ++ match goal with |- (if ?b then _ else _) = _ -> _ => destruct b; discriminate end.
           ++ intros _ Z; congruence.
      * injection H as <-; constructor; cbn [x_pc x_state x_sock x_line x_email x_queue x_log]; try discriminate; auto.
        -- rewrite queued_app, purged_app; cbn [queued purged]; rewrite !app_nil_r; apply I.
        -- intros _; rewrite conv_app; cbn [conv_from]; auto.
        -- match goal with |- (if ?b then _ else _) = _ -> _ => destruct b; discriminate end.
        -- intros _ _ Z; destruct (i_bytes _ _ I K) as (raw & B1 & B2); [rewrite PC; discriminate|intros Y; apply Z, junk_app; now left|].
           exists raw; rewrite received_app, conv_app; cbn [received_from conv_from]; rewrite app_nil_r; auto.
    + rewrite <- RD in *; assert (NE : v_read v <> []) by (rewrite RD; discriminate).
      replace (match v_read v with [] => [LJunk (v_junk v)] | _ :: _ => [] end) with (@nil mlog) in H by (rewrite RD; reflexivity).
      assert (SK : forall d, last (v_read v) d = last (v_read v) (v_junk v)) by (intros d; rewrite RD; clear; revert c0; induction b0 as [|y b0 IH]; intros c0; [reflexivity|]; exact (IH y)).
      rewrite (SK 0%N) in H.
      assert (L : log_ok origin (x_log s ++ [LRead (v_read v)])) by (apply log_ok_plain; [apply I|repeat constructor]).
      destruct (reads_cases (v_read v) (v_junk v) RO NE) as [[E (b & EB & W & NL)]|[E [W NL]]].
      * rewrite E, N.eqb_refl, W in H; cbn [negb andb] in H; rewrite app_nil_r in H.
        assert (BY : ~ bad_junk (x_log s ++ [LRead (v_read v)]) -> exists raw, split_lf (received (x_log s ++ [LRead (v_read v)])) = (raw ++ [x_line s ++ b], []) /\ map chomp raw = heard (conv (x_log s))).
        { intros J; destruct (i_bytes _ _ I K) as (raw & B1 & B2); [rewrite PC; discriminate|intros Y; apply J, junk_app; now left|].
          exists raw; split; [|exact B2]; rewrite received_app; cbn [received_from]; rewrite split_app, B1, EB, fold_left_app, (split_plain b) by exact NL; reflexivity. }
        destruct (strip (x_line s ++ b)) as [l|] eqn:ST.
        -- destruct (reply _ _ _ _ _ _) as [[[st k'] ev'] p] eqn:R; injection H as <-.
           apply (act_inv origin s _ [LRead (v_read v)] l st k' ev' p _ I K R); [reflexivity|reflexivity|reflexivity|repeat constructor|].
           intros J; destruct (BY J) as (raw & B1 & B2); eexists; split; [exact B1|]; rewrite map_app, B2; cbn [map]; now rewrite (strip_chomp _ _ ST).
        -- injection H as <-; constructor; cbn [x_pc x_state x_sock x_line x_email x_queue x_log]; try discriminate; auto.
           ++ rewrite queued_app, purged_app; cbn [queued purged]; rewrite !app_nil_r; apply I.
           ++ intros _; rewrite conv_app; cbn [conv_from]; auto.
           ++ intros _ Z; congruence.
      * assert (E2 := E); apply N.eqb_neq in E2; rewrite E2, W in H; cbn [negb andb] in H; rewrite app_nil_r in H; injection H as <-.
        constructor; cbn [x_pc x_state x_sock x_line x_email x_queue x_log]; try discriminate; auto.
        -- rewrite queued_app, purged_app; cbn [queued purged]; rewrite !app_nil_r; apply I.
        -- intros _; rewrite conv_app; cbn [conv_from]; auto.
        -- destruct (v_lost v); discriminate.
        -- intros _ _ Z; destruct (i_bytes _ _ I K) as (raw & B1 & B2); [rewrite PC; discriminate|intros Y; apply Z, junk_app; now left|].
           exists raw; rewrite received_app, conv_app; cbn [received_from conv_from]; split; [|exact B2].
           rewrite split_app, B1, split_plain by exact NL; reflexivity.
Qed.

Lemma handle_inv : forall origin v s s', minv origin s -> x_pc s = MRun -> handle origin v s = Some s' -> minv origin s'.
Proof.
  intros origin v s s' I PC H; unfold handle in H; destruct (in_mail (x_email s) && _) eqn:C; [|eapply listen_inv; eauto].
  apply andb_prop in C as [C1 C2]; destruct (v_connect v).
  - refine (listen_inv _ _ _ _ _ _ H); [|reflexivity]; constructor; cbn [x_pc x_state x_sock x_line x_email x_queue x_log]; try discriminate; auto.
    + rewrite queued_app, purged_app; cbn [queued purged]; rewrite !app_nil_r; apply I.
    + intros _; rewrite conv_app; split; [reflexivity|auto].
    + apply log_ok_plain; [apply I|repeat constructor].
    + intros _ _ _; exists []; rewrite received_app, conv_app; split; reflexivity.
  - injection H as <-; constructor; cbn [x_pc x_state x_sock x_line x_email x_queue x_log]; try discriminate; auto; apply I.
Qed.

Lemma take_inv : forall origin st s, minv origin s -> x_pc s <> MUndef -> (x_state s = st \/ (x_state s = ERROR)) -> minv origin (take st s).
Proof.
  intros origin st s [O S L N B W] NU ST; unfold take.
  assert (NE : x_sock s = SOpen -> x_state s = st) by (intros K; destruct ST as [ST|ST]; [exact ST|]; destruct (S K) as [X _]; rewrite ST in X; contradiction).
  destruct (in_mail (x_email s)) eqn:IM; [|destruct (x_queue s) as [|e q] eqn:Q]; constructor; cbn [x_pc x_state x_sock x_line x_email x_queue x_log]; try discriminate; auto.
  - intros K; rewrite <- (NE K); rewrite IM; exact (S K).
  - intros K; rewrite <- (NE K); rewrite IM; exact (S K).
  - rewrite O; unfold cur; rewrite IM; cbn [x_email app filter]; rewrite addressed_in; destruct (in_mail e); reflexivity.
  - intros K; rewrite <- (NE K); destruct (S K) as [X Y].
    assert (QT : x_state s = QUIT) by (destruct (x_state s); try reflexivity; assert (Z : false = true) by (apply Y; discriminate); discriminate).
    rewrite QT in *; split; [exact X|congruence].
Qed.

Lemma mstep_inv : forall origin a s s', minv origin s -> mstep origin a s = Some s' -> minv origin s'.
Proof.
  intros origin a s s' I H; destruct a as [|v|e| |]; cbn [mstep] in H.
  - destruct (x_pc s) eqn:PC; try discriminate.
    + destruct (over s).
      * injection H as <-; destruct I as [O S L N B W]; constructor; cbn [at_pc x_pc x_state x_sock x_line x_email x_queue x_log]; try discriminate; auto; intros K _; apply B; [exact K|rewrite PC; discriminate].
      * destruct (x_state s) eqn:ST; try (injection H as <-; apply take_inv; [exact I|rewrite PC; discriminate|auto]).
        injection H as <-; destruct I as [O S L N B W]; constructor; cbn [at_pc x_pc x_state x_sock x_line x_email x_queue x_log]; auto; intros K _; apply B; [exact K|rewrite PC; discriminate].
    + destruct (over s).
      * injection H as <-; assert (ER := i_wait _ _ I PC); destruct I as [O S L N B W]; constructor; cbn [x_pc x_state x_sock x_line x_email x_queue x_log]; try discriminate; auto.
        -- intros K; destruct (S K) as [X _]; rewrite ER in X; contradiction.
        -- intros K _; apply B; [exact K|rewrite PC; discriminate].
      * injection H as <-; apply take_inv; [exact I|rewrite PC; discriminate|right; now apply (i_wait _ _ I)].
  - destruct (x_pc s) eqn:PC; try discriminate; eapply handle_inv; eauto.
  - injection H as <-; destruct I as [O S L N B W]; constructor; cbn [x_pc x_state x_sock x_line x_email x_queue x_log]; auto.
    + rewrite queued_app, purged_app; cbn [queued purged]; rewrite !filter_app, app_nil_r, O; unfold cur; cbn [x_email]; now rewrite <- !app_assoc.
    + intros K; rewrite conv_app; cbn [conv_from]; auto.
    + apply log_ok_plain; [exact L|repeat constructor].
    + intros K P J; rewrite received_app, conv_app; cbn [received_from conv_from]; apply B; auto; intros Z; apply J, junk_app; now left.
  - injection H as <-; destruct I; constructor; auto.
  - injection H as <-; destruct I; constructor; auto.
Qed.
Lemma minv_init : forall origin, minv origin m_init.
Proof. intros o; constructor; cbn; try discriminate; auto; apply log_ok_nil. Qed.
Lemma minv_exec : forall origin l s s', minv origin s -> mexec origin l s = Some s' -> minv origin s'.
Proof.
  intros origin l; induction l as [|a l IH]; intros s s' I H; cbn in H; [now injection H as <-|].
  destruct (mstep origin a s) as [s1|] eqn:E; [|discriminate]; eapply IH; [|exact H]; eapply mstep_inv; eauto.
Qed.
Lemma minv_reach : forall origin s, mreachable origin s -> minv origin s.
Proof. intros o s [l H]; eapply minv_exec; [apply minv_init|exact H]. Qed.

(** * Results *)
Lemma kept_in_order : forall origin s, mreachable origin s ->
  filter addressed (queued (x_log s)) =
  purged (x_log s) ++ (if addressed (x_email s) then [x_email s] else []) ++ filter addressed (x_queue s).
Proof. intros o s R; apply minv_reach in R; rewrite addressed_in; apply R. Qed.
Lemma purge_means : forall origin s e l1 l2, mreachable origin s -> x_log s = l1 ++ LPurged e :: l2 -> handed_over origin e (conv l1).
Proof. intros o s e l1 l2 R E; apply minv_reach in R; exact (i_log _ _ R l1 _ l2 E). Qed.
Lemma lines_true : forall origin s l l1 l2, mreachable origin s -> x_log s = l1 ++ LLine l :: l2 -> ~ bad_junk l1 ->
  heard (conv (l1 ++ [LLine l])) = map chomp (fst (split_lf (received l1))).
Proof.
  intros o s l l1 l2 R E J; apply minv_reach in R; assert (X := i_log _ _ R l1 _ l2 E); cbn in X; rewrite (X J), conv_app; cbn [conv_from]; now rewrite heard_app.
Qed.

Definition yes (p : string) : list N := lit p.
Lemma answers_self : forall p, answers p (lit p).
Proof. intros p; exists []; now rewrite app_nil_r. Qed.

(** What has been said can always be completed. *)
Lemma greeted_more : forall origin h e, greeted origin h -> exists t', handed_over origin e (h ++ t').
Proof.
  intros o h e G; eexists; exists h, (lit "250 "), (lit "250 "), (lit "354 "), (lit "250 "); split; [exact G|]; repeat (split; [apply answers_self|]); reflexivity.
Qed.
Lemma polite : forall origin s, mreachable origin s -> x_sock s = SOpen ->
  exists e t, handed_over origin e t /\ exists r, conv (x_log s) ++ r = t ++ [Said (command (lit "QUIT"))].
Proof.
  intros o s R K; apply minv_reach in R; destruct (i_said _ _ R K) as [T _]; revert T; generalize (conv (x_log s)); intros t T.
  assert (GO : forall h e, greeted o h -> exists t, handed_over o e t /\ exists r, h ++ r = t).
  { intros h e G; destruct (greeted_more o h e G) as [t' H]; eauto. }
  assert (FIN : forall e, (exists t', handed_over o e t' /\ exists r, t ++ r = t') -> exists e t', handed_over o e t' /\ exists r, t ++ r = t' ++ [Said (command (lit "QUIT"))]).
  { intros e (t' & H & r & <-); exists e, (t ++ r); split; [exact H|]; exists (r ++ [Said (command (lit "QUIT"))]); now rewrite app_assoc. }
  destruct (x_state s); cbn [said_in] in T.
  - contradiction.
  - apply (FIN no_mail); subst t.
    destruct (GO (Heard (lit "220 ") :: Said (command (lit "EHLO " ++ o)) :: map Heard ([] ++ [lit "250-8BITMIME"] ++ [] ++ [lit "250 "])) no_mail) as (t' & H & r & E).
    + exists (lit "220 "), [], [], (lit "250 "); repeat split; auto using answers_self.
    + exists t'; split; [exact H|]; exists t'; reflexivity.
  - apply (FIN no_mail); destruct T as (g & a & -> & A & F).
    destruct (GO (Heard g :: Said (command (lit "EHLO " ++ o)) :: map Heard (a ++ [lit "250-8BITMIME"] ++ [] ++ [lit "250 "])) no_mail) as (t' & H & r & E).
    + exists g, a, [], (lit "250 "); repeat split; auto using answers_self.
    + exists t'; split; [exact H|]; exists (map Heard ([lit "250-8BITMIME"] ++ [] ++ [lit "250 "]) ++ r); rewrite <- E, ehlo_cmd; cbn [app]; do 2 f_equal; rewrite !map_app, <- !app_assoc; reflexivity.
  - apply (FIN no_mail); destruct T as (g & a & b & -> & A & F1 & F2).
    destruct (GO (Heard g :: Said (command (lit "EHLO " ++ o)) :: map Heard (a ++ [lit "250-8BITMIME"] ++ b ++ [lit "250 "])) no_mail) as (t' & H & r & E).
    + exists g, a, b, (lit "250 "); repeat split; auto using answers_self.
    + exists t'; split; [exact H|]; exists (map Heard [lit "250 "] ++ r); rewrite <- E, ehlo_cmd; cbn [app]; do 2 f_equal; rewrite !map_app, <- ?app_assoc; cbn [map app]; rewrite ?map_app, <- ?app_assoc; reflexivity.
  - apply (FIN (x_email s)); destruct T as (h & G & ->); eexists; split.
    + exists h, (lit "250 "), (lit "250 "), (lit "354 "), (lit "250 "); split; [exact G|]; repeat (split; [apply answers_self|]); reflexivity.
    + rewrite <- mail_from_cmd; eexists; rewrite <- app_assoc; reflexivity.
  - apply (FIN (x_email s)); destruct T as (h & m & G & A & ->); eexists; split.
    + exists h, m, (lit "250 "), (lit "354 "), (lit "250 "); split; [exact G|]; split; [exact A|]; repeat (split; [apply answers_self|]); reflexivity.
    + rewrite <- mail_from_cmd, <- rcpt_to_cmd; eexists; rewrite <- app_assoc; reflexivity.
  - apply (FIN (x_email s)); destruct T as (h & m & r & G & A & A2 & ->); eexists; split.
    + exists h, m, r, (lit "354 "), (lit "250 "); split; [exact G|]; split; [exact A|]; split; [exact A2|]; repeat (split; [apply answers_self|]); reflexivity.
    + rewrite <- mail_from_cmd, <- rcpt_to_cmd; eexists; rewrite <- app_assoc; reflexivity.
  - apply (FIN (x_email s)); destruct T as (h & m & r & d & G & A & A2 & A3 & ->); eexists; split.
    + exists h, m, r, d, (lit "250 "); split; [exact G|]; split; [exact A|]; split; [exact A2|]; split; [exact A3|]; split; [apply answers_self|]; reflexivity.
    + rewrite <- mail_from_cmd, <- rcpt_to_cmd; exists [Heard (lit "250 ")]; rewrite <- !app_assoc; cbn [app]; do 7 f_equal; rewrite <- app_assoc; reflexivity.
  - destruct T as (e & t' & H & ->); exists e, t'; split; [exact H|]; exists []; now rewrite app_nil_r.
  - contradiction.
Qed.

Lemma over_spec : forall s, over s = true -> x_term s = true \/ (x_stop s = true /\ x_queue s = [] /\ m_to (x_email s) = []).
Proof.
  intros s H; unfold over in H; destruct (x_term s); [now left|right]; cbn in H; apply andb_prop in H as [H H3]; apply andb_prop in H as [H1 H2].
  split; [exact H1|]; split; [destruct (x_queue s); [reflexivity|discriminate]|]; unfold in_mail in H3; destruct (m_to (x_email s)); [reflexivity|discriminate].
Qed.
Lemma listen_pc : forall origin v s s', listen origin v s = Some s' -> x_pc s' = MTop \/ x_pc s' = MUndef.
Proof.
  intros origin v s s' H; unfold listen in H; destruct (x_sock s).
  - destruct (N.eqb _ lf); [|injection H as <-; now left]; destruct (strip _); [|injection H as <-; now right].
    destruct (reply _ _ _ _ _ _) as [[[a b] c] d]; injection H as <-; now left.
  - injection H as <-; now left.
  - destruct (v_mine v); [|injection H as <-; now left]; destruct (reads_ok _); [|discriminate].
    destruct (N.eqb (last (v_read v) (v_junk v)) lf); [|injection H as <-; now left]; destruct (strip _); [|injection H as <-; now right].
    destruct (reply _ _ _ _ _ _) as [[[a b] c] d]; injection H as <-; now left.
Qed.
Lemma ends_when : forall origin a s s', mstep origin a s = Some s' -> x_pc s <> MEnd -> x_pc s' = MEnd ->
  x_term s' = true \/ (x_stop s' = true /\ x_queue s' = [] /\ m_to (x_email s') = []).
Proof.
  intros origin a s s' H N E; destruct a as [|v|e| |]; cbn [mstep] in H.
  - destruct (x_pc s) eqn:PC; try discriminate.
    + destruct (over s) eqn:O; [injection H as <-; now apply over_spec in O|].
      assert (X : x_pc s' = MWait \/ x_pc s' = MRun).
      { assert (TK : forall st, x_pc (take st s) = MRun) by (intros st; unfold take; destruct (in_mail (x_email s)), (x_queue s); reflexivity).
        destruct (x_state s); injection H as <-; rewrite ?TK; auto. }
      destruct X; congruence.
    + destruct (over s) eqn:O; [injection H as <-; now apply over_spec in O|]; injection H as <-.
      unfold take in E; destruct (in_mail (x_email s)), (x_queue s); discriminate.
  - destruct (x_pc s); try discriminate; unfold handle in H; destruct (in_mail _ && _); [destruct (v_connect v)|].
    + apply listen_pc in H as [H|H]; congruence.
    + injection H as <-; discriminate.
    + apply listen_pc in H as [H|H]; congruence.
  - injection H as <-; contradiction.
  - injection H as <-; contradiction.
  - injection H as <-; contradiction.
Qed.
Lemma all_sent : forall origin a s s', mreachable origin s -> mstep origin a s = Some s' -> x_pc s <> MEnd -> x_pc s' = MEnd -> x_term s' = false ->
  purged (x_log s') = filter addressed (queued (x_log s')).
Proof.
  intros o a s s' R H N E T; destruct (ends_when _ _ _ _ H N E) as [X|(X1 & X2 & X3)]; [congruence|].
  apply minv_reach in R; assert (I := mstep_inv _ _ _ _ R H); rewrite (i_order _ _ I), X2; unfold cur, in_mail; rewrite X3; cbn; now rewrite app_nil_r.
Qed.

(** * A server that plays its part *)
Record talks (st : mstate) (e : mail) (q : list mail) (P : list mail) (s : mst) : Prop := mkT {
  t_pc : x_pc s = MTop; t_state : x_state s = st; t_sock : x_sock s = SOpen; t_line : x_line s = []; t_email : x_email s = e;
  t_queue : x_queue s = q; t_term : x_term s = false; t_purged : purged (x_log s) = P
}.
Lemma mexec_app : forall o a b s s1, mexec o a s = Some s1 -> mexec o (a ++ b) s = mexec o b s1.
Proof. intros o a; induction a as [|x a IH]; intros b s s1 H; cbn in *; [now injection H as <-|]; destruct (mstep o x s); [auto|discriminate]. Qed.
Lemma turns_app : forall a b, turns (a ++ b) = turns a ++ turns b.
Proof. intros; apply flat_map_app. Qed.
Lemma purged_plain : forall segs, purged (map LRead segs) = [].
Proof. induction segs; cbn; auto. Qed.
Lemma not_in_lf : forall b, ~ In lf b -> existsb (N.eqb lf) b = false.
Proof. intros b H; apply not_true_iff_false; intros X; apply existsb_exists in X as (x & X & E); apply N.eqb_eq in E; congruence. Qed.

Lemma one_turn : forall o s seg rest, x_pc s = MTop -> x_sock s = SOpen -> in_mail (x_email s) = true -> x_term s = false -> x_state s <> ERROR ->
  mexec o (turns (seg :: rest)) s =
  match listen o (arrives seg) (at_pc MRun s) with Some s' => mexec o (turns rest) s' | None => None end.
Proof.
  intros o s seg rest PC K IM T NE; cbn [turns flat_map app mexec mstep]; rewrite PC.
  assert (OV : over s = false) by (unfold over; rewrite T, IM; cbn; apply andb_false_r).
  rewrite OV; assert (TK : take (x_state s) s = at_pc MRun s) by (unfold take, at_pc; rewrite IM; reflexivity).
  assert (G : mexec o (ANet (arrives seg) :: turns rest) (at_pc MRun s) = match listen o (arrives seg) (at_pc MRun s) with Some s' => mexec o (turns rest) s' | None => None end).
  { cbn [mexec mstep at_pc x_pc]; unfold handle; cbn [at_pc x_email x_sock]; rewrite IM, K; reflexivity. }
  destruct (x_state s); try congruence; rewrite TK; exact G.
Qed.

Lemma listen_part : forall o s seg, x_sock s = SOpen -> seg <> [] -> ~ In lf seg ->
  listen o (arrives seg) s = Some (mkMS MTop (x_state s) SOpen (x_line s ++ seg) (x_email s) (x_queue s) (x_stop s) (x_term s) (x_log s ++ [LRead seg])).
Proof.
  intros o s seg K NE NL; unfold listen; rewrite K; cbn [arrives v_mine v_read v_lost v_junk].
  assert (RO : reads_ok seg = true).
  { unfold reads_ok; rewrite not_in_lf; [reflexivity|]; intros X; apply NL; clear - X; induction seg as [|c seg IH]; [contradiction|]; cbn in X; destruct seg; [contradiction|]; destruct X as [->|X]; [now left|right; auto]. }
  rewrite RO; destruct (reads_cases seg 0%N RO NE) as [[E (b & EB & _)]|[E [W _]]]; [exfalso; apply NL; rewrite EB; apply in_app_iff; right; now left|].
  apply N.eqb_neq in E; rewrite E, W; rewrite andb_false_r; destruct seg; [congruence|]; rewrite app_nil_r; reflexivity.
Qed.
Lemma listen_full : forall o s b l st k ev p, x_sock s = SOpen -> ~ In lf b -> x_line s ++ b <> [] -> l = chomp (x_line s ++ b) ->
  reply o (x_state s) l (x_email s) SOpen [] = (st, k, ev, p) ->
  listen o (arrives (b ++ [lf])) s = Some (mkMS MTop st k [] (if p then no_mail else x_email s) (x_queue s) (x_stop s) (x_term s)
    (x_log s ++ [LRead (b ++ [lf])] ++ [LLine l] ++ (if p then [LPurged (x_email s)] else []) ++ ev)).
Proof.
  intros o s b l st k ev p K NL NE -> R; unfold listen; rewrite K; cbn [arrives v_mine v_read v_lost v_junk v_writes].
  assert (RO : reads_ok (b ++ [lf]) = true) by (unfold reads_ok; rewrite removelast_last, not_in_lf; auto).
  rewrite RO, last_last, N.eqb_refl; cbn [negb andb].
  assert (W : without_lf (b ++ [lf]) = b) by (unfold without_lf; rewrite filter_app; fold (without_lf b); rewrite without_plain by exact NL; apply app_nil_r).
  rewrite W; destruct (strip (x_line s ++ b)) as [l|] eqn:S.
  - rewrite <- (strip_chomp _ _ S) in R; rewrite R; rewrite (strip_chomp _ _ S); destruct b; reflexivity.
  - exfalso; unfold strip in S; destruct (rev (x_line s ++ b)) eqn:Z; [|discriminate]; apply (f_equal (@rev N)) in Z; rewrite rev_involutive in Z; auto.
Qed.
Lemma parts : forall o segs rest s, x_pc s = MTop -> x_sock s = SOpen -> in_mail (x_email s) = true -> x_term s = false -> x_state s <> ERROR ->
  Forall (fun x => x <> []) segs -> ~ In lf (concat segs) ->
  mexec o (turns (segs ++ rest)) s = mexec o (turns rest) (mkMS MTop (x_state s) SOpen (x_line s ++ concat segs) (x_email s) (x_queue s) (x_stop s) (x_term s) (x_log s ++ map LRead segs)).
Proof.
  intros o segs; induction segs as [|x segs IH]; intros rest s PC K IM T NE F NL; cbn [concat map app].
  - rewrite !app_nil_r, <- PC, <- K at 1; destruct s; reflexivity.
  - inversion F; subst; rewrite one_turn by assumption; rewrite listen_part; [|exact K|assumption|intros X; apply NL; cbn; apply in_app_iff; now left].
    rewrite IH; cbn [at_pc x_pc x_sock x_email x_term x_state x_line x_queue x_stop x_log]; auto; [|intros X; apply NL; cbn; apply in_app_iff; now right].
    rewrite <- !app_assoc; reflexivity.
Qed.
Lemma pieces_last : forall raw segs, pieces raw segs -> exists init b, segs = init ++ [b ++ [lf]] /\ raw = concat init ++ b /\ ~ In lf raw /\ raw <> [] /\ Forall (fun x => x <> []) init.
Proof.
  intros raw segs (C & NL & NE & F); destruct segs as [|x segs] using rev_ind; [cbn in C; destruct raw; discriminate|]; clear IHsegs.
  apply Forall_app in F as [F1 F2]; inversion F2; subst; rewrite concat_app in C; cbn in C; rewrite app_nil_r in C.
  destruct x as [|c x] using rev_ind; [congruence|]; clear IHx; rewrite app_assoc in C; apply app_inj_tail in C as [C ->].
  exists segs, x; auto.
Qed.
Lemma hears : forall o st e q P s l segs st' ev, talks st e q P s -> in_mail e = true -> st <> ERROR -> sends l segs ->
  reply o st l e SOpen [] = (st', SOpen, ev, false) -> exists s', mexec o (turns segs) s = Some s' /\ talks st' e q P s'.
Proof.
  intros o st e q P s l segs st' ev [A1 A2 A3 A4 A5 A6 A7 A8] IM NE (raw & PI & CH) R; apply pieces_last in PI as (init & b & -> & -> & NL & NR & F).
  rewrite in_app_iff in NL; rewrite parts; try assumption; try congruence; [|tauto]; rewrite one_turn; cbn [x_pc x_sock x_email x_term x_state]; try reflexivity; try congruence.
  rewrite (listen_full o _ b l st' SOpen ev false); cbn [at_pc x_sock x_line x_state x_email x_queue x_stop x_term x_log]; try reflexivity; rewrite ?A4; cbn [app]; auto.
  - cbn [turns flat_map mexec]; eexists; split; [reflexivity|]; constructor; cbn; auto.
    rewrite !purged_app, purged_plain, app_nil_r; cbn [purged]; rewrite (purged_sent ev), app_nil_r; [exact A8|eapply reply_sent; eauto].
  - rewrite A2, A5; exact R.
Qed.
Lemma hears_last : forall o e q P s l segs st' k ev, talks DUMP e q P s -> in_mail e = true -> sends l segs ->
  reply o DUMP l e SOpen [] = (st', k, ev, true) -> exists s', mexec o (turns segs) s = Some s' /\ x_state s' = st' /\ x_queue s' = q /\ purged (x_log s') = P ++ [e].
Proof.
  intros o e q P s l segs st' k ev [A1 A2 A3 A4 A5 A6 A7 A8] IM (raw & PI & CH) R; apply pieces_last in PI as (init & b & -> & -> & NL & NR & F).
  rewrite in_app_iff in NL; rewrite parts; try assumption; try congruence; [|tauto]; rewrite one_turn; cbn [x_pc x_sock x_email x_term x_state]; try reflexivity; try congruence.
  rewrite (listen_full o _ b l st' k ev true); cbn [at_pc x_sock x_line x_state x_email x_queue x_stop x_term x_log]; try reflexivity; rewrite ?A4; cbn [app]; auto.
  - cbn [turns flat_map mexec]; eexists; split; [reflexivity|]; repeat split; cbn; auto.
    rewrite !purged_app, purged_plain, app_nil_r; cbn [purged]; rewrite (purged_sent ev); [now rewrite A8, A5|eapply reply_sent; eauto].
  - rewrite A2, A5; exact R.
Qed.

Lemma answers_starts : forall p l, answers p l -> starts (lit p) l = true.
Proof. intros p l [r ->]; unfold starts; apply eqb_list; rewrite firstn_app, firstn_all, Nat.sub_diag; cbn; now rewrite app_nil_r. Qed.
Lemma answers_space : forall p l, answers (p ++ " ") l -> code p space l = true.
Proof. intros p l H; apply answers_starts in H; rewrite lit_app in H; exact H. Qed.
Lemma answers_dash : forall p l, answers (p ++ "-") l -> code p dash l = true.
Proof. intros p l H; apply answers_starts in H; rewrite lit_app in H; exact H. Qed.

Lemma hears_many : forall o st e q P, in_mail e = true -> st <> ERROR -> forall ls segs s, talks st e q P s -> Forall2 sends ls segs ->
  (forall l, In l ls -> reply o st l e SOpen [] = (st, SOpen, [], false)) -> exists s', mexec o (turns (concat segs)) s = Some s' /\ talks st e q P s'.
Proof.
  intros o st e q P IM NE ls segs s T F; revert s T; induction F as [|l sg ls segs L F IH]; intros s T R; cbn [concat]; [exists s; auto|].
  destruct (hears o st e q P s l sg st [] T IM NE L) as (s1 & E1 & T1); [apply R; now left|].
  destruct (IH s1 T1) as (s2 & E2 & T2); [intros; apply R; now right|]; exists s2; split; [|exact T2].
  rewrite turns_app, (mexec_app _ _ _ _ _ E1); exact E2.
Qed.
Lemma chain : forall o a b s s1 (Q : mst -> Prop), mexec o (turns a) s = Some s1 -> (exists s2, mexec o (turns b) s1 = Some s2 /\ Q s2) ->
  exists s2, mexec o (turns (a ++ b)) s = Some s2 /\ Q s2.
Proof. intros o a b s s1 Q E (s2 & E2 & H); exists s2; split; [|exact H]; rewrite turns_app, (mexec_app _ _ _ _ _ E); exact E2. Qed.
Lemma send_all_free : forall l, send_all l SOpen [] = (true, map LSent l, SOpen, []).
Proof. induction l as [|b l IH]; cbn; [reflexivity|]; now rewrite IH. Qed.

Lemma connects : forall o s e q seg rest, ready e q s ->
  mexec o (turns (seg :: rest)) s =
  mexec o (turns (seg :: rest)) (mkMS MTop CONNECTED SOpen [] e q (x_stop s) (x_term s) (x_log s ++ [LConnect])).
Proof.
  intros o s e q seg rest (PC & ST & K & M & Q & NE & T); cbn [turns flat_map app mexec mstep x_pc]; rewrite PC.
  assert (IM : in_mail (x_email s) = false) by (unfold in_mail; now rewrite M).
  assert (IE : in_mail e = true) by (unfold in_mail; destruct (m_to e); [congruence|reflexivity]).
  assert (OV : over s = false) by (unfold over; rewrite T, Q; cbn; now rewrite andb_false_r).
  assert (OV2 : over (mkMS MTop CONNECTED SOpen [] e q (x_stop s) (x_term s) (x_log s ++ [LConnect])) = false) by (unfold over; cbn; rewrite T, IE; cbn; apply andb_false_r).
  rewrite OV, OV2, ST; cbn [x_state]; unfold take; cbn [x_email x_queue]; rewrite IM, IE, Q; cbn [mexec mstep x_pc]; unfold handle; cbn [x_email x_sock].
  rewrite IE; cbn [andb]; destruct (x_sock s); [| |congruence]; reflexivity.
Qed.

Lemma delivers : forall o s e q g a b z m r d f sg sa s8 sb sz sm sr sd sf,
  ready e q s -> sends g sg -> Forall2 sends a sa -> sends (lit "250-8BITMIME") s8 -> Forall2 sends b sb -> sends z sz -> sends m sm -> sends r sr -> sends d sd -> sends f sf ->
  answers "220 " g -> Forall (answers "250-") a -> ~ In (lit "250-8BITMIME") a -> Forall (answers "250-") b -> answers "250 " z -> answers "250 " m ->
  answers "250 " r -> answers "354 " d -> answers "250 " f ->
  exists s', mexec o (turns (sg ++ concat sa ++ s8 ++ concat sb ++ sz ++ sm ++ sr ++ sd ++ sf)) s = Some s' /\
    purged (x_log s') = purged (x_log s) ++ [e] /\ x_queue s' = q.
Proof.
  intros o s e q g a b z m r d f sg sa s8 sb sz sm sr sd sf RD Sg Sa S8 Sb Sz Sm Sr Sd Sf Ag Aa N8 Ab Az Am Ar Ad Af.
  assert (IM : in_mail e = true) by (destruct RD as (_ & _ & _ & _ & _ & NE & _); unfold in_mail; destruct (m_to e); [congruence|reflexivity]).
  assert (TT : x_term s = false) by apply RD.
  set (s0 := mkMS MTop CONNECTED SOpen [] e q (x_stop s) (x_term s) (x_log s ++ [LConnect])).
  assert (T0 : talks CONNECTED e q (purged (x_log s)) s0) by (constructor; cbn; auto; rewrite purged_app; cbn; apply app_nil_r).
  assert (E0 : forall rest, mexec o (turns (sg ++ rest)) s = mexec o (turns (sg ++ rest)) s0).
  { destruct Sg as (raw & (C & _) & _); destruct sg as [|x sg]; [destruct raw; discriminate|]; intros rest; cbn [app]; unfold s0; now rewrite <- connects. }
  rewrite E0; clear E0; clearbody s0; clear TT.
  apply (answers_space "220") in Ag; apply (answers_space "354") in Ad; apply (answers_space "250") in Az, Am, Ar, Af.
  destruct (hears o CONNECTED e q _ s0 g sg EHLO [LSent (ehlo o)] T0 IM ltac:(discriminate) Sg) as (s1 & E1 & T1); [cbn [reply]; rewrite Ag; reflexivity|].
  apply (chain o _ _ _ _ _ E1).
  destruct (hears_many o EHLO e q _ IM ltac:(discriminate) a sa s1 T1 Sa) as (s2 & E2 & T2).
  { intros l L; unfold reply; destruct (list_eqb l (lit "250-8BITMIME")) eqn:X; [apply eqb_list in X; congruence|].
    rewrite Forall_forall in Aa; rewrite (answers_dash "250" l (Aa l L)); reflexivity. }
  apply (chain o _ _ _ _ _ E2).
  destruct (hears o EHLO e q _ s2 _ s8 EIGHTBIT [] T2 IM ltac:(discriminate) S8) as (s3 & E3 & T3); [reflexivity|].
  apply (chain o _ _ _ _ _ E3).
  destruct (hears_many o EIGHTBIT e q _ IM ltac:(discriminate) b sb s3 T3 Sb) as (s4 & E4 & T4).
  { intros l L; unfold reply; rewrite Forall_forall in Ab; assert (AB := Ab l L); rewrite (answers_dash "250" l AB).
    destruct AB as [x ->]; reflexivity. }
  apply (chain o _ _ _ _ _ E4).
  destruct (hears o EIGHTBIT e q _ s4 z sz MAIL [LSent (mail_from e)] T4 IM ltac:(discriminate) Sz) as (s5 & E5 & T5); [unfold reply; rewrite Az; reflexivity|].
  apply (chain o _ _ _ _ _ E5).
  destruct (hears o MAIL e q _ s5 m sm RCPT [LSent (rcpt_to e)] T5 IM ltac:(discriminate) Sm) as (s6 & E6 & T6); [unfold reply; rewrite Am; reflexivity|].
  apply (chain o _ _ _ _ _ E6).
  destruct (hears o RCPT e q _ s6 r sr DATA [LSent data_cmd] T6 IM ltac:(discriminate) Sr) as (s7 & E7 & T7); [unfold reply; rewrite Ar; reflexivity|].
  apply (chain o _ _ _ _ _ E7).
  destruct (hears o DATA e q _ s7 d sd DUMP (map LSent (m_body e) ++ [LSent dot_end]) T7 IM ltac:(discriminate) Sd) as (s9 & E8 & T8).
  { unfold reply; rewrite Ad, send_all_free; reflexivity. }
  apply (chain o _ _ _ _ _ E8).
  destruct (hears_last o e q _ s9 f sf QUIT SOpen [LSent quit_cmd] T8 IM Sf) as (s10 & E9 & _ & T9 & T10); [unfold reply; rewrite Af; reflexivity|].
  exists s10; auto.
Qed.
