(** The whole server: what the application sees of a request. *)
From Coq Require Import String List NArith ZArith Bool Arith Lia.
From Verif Require Import Model.Base Model.Endian Model.Protocol Model.Transceiver Model.RequestMap Model.Streams Model.Environment Model.Multipart
  Model.Management Model.Manager Model.Request Model.System
  Spec.EndianSpec Spec.WireSpec Spec.AddressSpec Spec.EnvironmentSpec Spec.RequestSpec Spec.TransceiverSpec Spec.ManagerSpec Spec.SystemSpec
  Proofs.EndianProofs Proofs.RequestMapProofs Proofs.ManagerProofs Proofs.ManagerStep Proofs.ManagerFacts Proofs.ManagerHist Proofs.ManagerUse
  Proofs.RequestProofs Proofs.RequestBodyProofs Proofs.SystemProofs Proofs.SystemFlow Proofs.SystemWork Proofs.SystemEnd.
From Verif Require Proofs.TransceiverProofs.
Import ListNotations.

Lemma app_both : forall {T} (a b c d : list T), a ++ b = c ++ d ->
  (exists l, a = c ++ l /\ d = l ++ b) \/ (exists l, c = a ++ l /\ b = l ++ d).
Proof.
  intros T a; induction a as [|x a IH]; intros b [|y c] d E; cbn in E.
  - right. exists []. auto.
  - right. exists (y :: c). auto.
  - left. exists (x :: a). auto.
  - injection E as -> E. destruct (IH b c d E) as [(l & -> & ->)|(l & -> & ->)]; [left|right]; exists l; auto.
Qed.

Section Seen.
Variable vts : list N -> list N -> list N.
Variable junk : nat -> list N.
Variable http_time : list N -> Z.
Variable k : chars.
Context {U : Type}.
Variable A : application U.
Variable maxPost : N.
Variable u : U.
Notation sys := (System.sys (U := U)).
Notation sreach := (SystemSpec.sreach vts junk http_time k A maxPost u).
Notation rstep := (Request.step vts junk http_time k A).
Notation handler := (Request.handler vts junk http_time k A).
Notation rid_of x o := (o_rid (ob (y_man x) o)).
Notation next x := (s_next (y_man x)).

Lemma handler_more : forall cfg ms a d r b, handler cfg ms a = Done (d, r, b) -> more a b.
Proof.
  intros cfg ms; induction ms as [|m ms IH]; intros a d r b H; cbn [Request.handler] in H.
  - injection H as _ _ <-. apply more_refl; reflexivity.
  - apply run_bind_done in H as ([x s1] & H1 & H2). cbn [fst snd] in H2.
    apply (step_more vts junk http_time k A) in H1. destruct x; [injection H2 as _ _ <-; exact H1|].
    eapply more_trans; eauto.
Qed.

(** A prefix of what runs to an end. *)
Lemma handler_prefix : forall cfg a l d0 s0 d s, handler cfg (a ++ l) (rq_init u) = Done (d0, [], s0) -> handler cfg a (rq_init u) = Done (d, [], s) ->
  (d = true -> l = [] /\ d0 = true /\ s0 = s) /\ exists tl, q_calls s0 = q_calls s ++ tl.
Proof.
  intros cfg a l d0 s0 d s H E. rewrite handler_app, E in H. cbn [run_bind] in H. destruct d.
  - cbn in H. injection H as -> -> ->. split; [auto|]. exists []. now rewrite app_nil_r.
  - split; [discriminate|]. apply handler_more in H. apply H.
Qed.

Lemma last_eq : forall {T} (a b : list T) x y, a ++ [x] = b ++ [y] -> a = b /\ x = y.
Proof. intros. now apply app_inj_tail. Qed.

Lemma all_records : forall l, Forall (fun m => m_type m = 0%Z) l -> records_only l = l.
Proof. intros l H; induction H as [|m l E H IH]; [reflexivity|]. unfold records_only in *. cbn. rewrite E. cbn. now rewrite IH. Qed.

(** What was handled, against what was sent. *)
Lemma handled_sent : forall x, sreach x -> Forall ev_ok (y_tr x) -> forall s recs i o earlier mb ms,
  on_wire x s recs -> is_request x o (mkRid s i) -> records_for i recs = earlier ++ mb :: ms -> before x o = earlier ++ [mb] ->
  Forall (fun m => m_type m = 0%Z) (given x o) ->
  begin_config maxPost (mkRid s i) mb = Some (y_cfg x o) /\ exists b rest, ms = handled x o ++ rest /\
    handler (y_cfg x o) (handled x o) (rq_init u) = Done (b, [], y_rq x o).
Proof.
  intros x R EV s recs i o earlier mb ms W Q E B G.
  destruct (handled_is vts junk http_time k A maxPost u x R EV s recs i o W Q) as (e1 & m1 & later & b & H1 & H2 & H3 & H4 & (w & H5) & H6).
  rewrite B in H2. apply last_eq in H2 as [<- <-]. rewrite E, (all_records _ G) in H1. apply app_inv_head in H1. injection H1 as H1.
  split; [exact H4|]. exists b, (w ++ later). split; [|exact H6]. rewrite H1, H5, <- app_assoc. reflexivity.
Qed.

Lemma begun : forall id mb role flags c, web_begin role flags mb -> begin_config maxPost id mb = Some c ->
  begins mb = true /\ c = mkCfg (r_id id) role (negb (N.odd flags)) maxPost.
Proof.
  intros id mb role flags c (RO & rest & T & L & v & i & pl & z & pad & E) C.
  pose proof (be_digits_length 2 i) as L1. pose proof (be_digits_length 2 (len ([0%N; role; flags] ++ rest))) as L2.
  destruct (be_digits 2 i) as [|a [|b [|]]]; try discriminate.
  destruct (be_digits 2 (len ([0%N; role; flags] ++ rest))) as [|c0 [|d [|]]]; try discriminate.
  unfold begins, begin_config in *. rewrite T. rewrite E in C |- *. cbn [app] in *. split; [reflexivity|].
  assert (R : from16 (skipn 8 (v :: 1%N :: a :: b :: c0 :: d :: pl :: z :: 0%N :: role :: flags :: rest ++ pad)) = Some role)
    by (destruct RO as [-> | ->]; reflexivity).
  rewrite R in C. cbn in C. congruence.
Qed.
Lemma begun' : forall id mb role flags, web_begin role flags mb -> begins mb = true /\ exists c, begin_config maxPost id mb = Some c.
Proof.
  intros id mb role flags W. assert (X : exists c, begin_config maxPost id mb = Some c).
  { destruct W as (RO & rest & T & L & v & i & pl & z & pad & E).
    pose proof (be_digits_length 2 i) as L1. pose proof (be_digits_length 2 (len ([0%N; role; flags] ++ rest))) as L2.
    destruct (be_digits 2 i) as [|a [|b [|]]]; try discriminate.
    destruct (be_digits 2 (len ([0%N; role; flags] ++ rest))) as [|c0 [|d [|]]]; try discriminate.
    unfold begin_config. rewrite E. cbn [app].
    assert (R : from16 (skipn 8 (v :: 1%N :: a :: b :: c0 :: d :: pl :: z :: 0%N :: role :: flags :: rest ++ pad)) = Some role)
      by (destruct RO as [-> | ->]; reflexivity).
    rewrite R. cbn. eauto. }
  destruct X as (c & X). split; [apply (begun id mb role flags c W X)|eauto].
Qed.

Section Web.
Variable address_of : list N -> list N.
Hypothesis J : forall n, length (junk n) = n.
Hypothesis AD : forall t a, address_text t a -> ~ compat_text t -> address_of t = a.
Hypothesis WR : app_writes (any_char k) A.
Hypothesis PL : app_plain A.
Notation web_request := (web_request vts junk http_time address_of maxPost).

Lemma alone : forall ms bodies m5 e0 e2 cfg, web_request ms bodies m5 e0 e2 -> (c_id cfg < 65536)%N -> c_role cfg = 1%N \/ c_role cfg = 2%N ->
  c_maxPost cfg = maxPost ->
  exists b st l, handler cfg ms (rq_init u) = Done (b, [], st) /\ q_calls st = l /\ web_calls bodies m5 e0 e2 l.
Proof.
  intros ms bodies m5 e0 e2 cfg (rs & ms4 & m4 & ms5 & -> & H1 & H2 & H3 & H4 & H5 & -> & H6 & H7 & H8) C R M.
  rewrite <- M in H6.
  destruct (whole_seen vts junk http_time k A cfg address_of J AD u rs ms4 m4 bodies ms5 m5 e2 C WR PL R H1 H2 H3 H4 H5 H6 H7 H8) as (st & calls & X1 & X2 & X3).
  eexists _, st, _. split; [exact X1|]. split; [exact X2|]. exists calls. split; [exact X3|reflexivity].
Qed.

Lemma records_id : forall i recs m l, Forall (fun '(id, r) => whole_record id r) recs -> In m (records_for i recs) -> l = i -> (l < 65536)%N.
Proof.
  intros i recs m l W H ->. unfold records_for in H. apply in_map_iff in H as ([i' r] & _ & H). apply filter_In in H as [H E].
  cbn in E. apply N.eqb_eq in E as ->. rewrite Forall_forall in W. destruct (W _ H) as (? & ? & ? & ? & ? & X & _). exact X.
Qed.

Lemma seen : forall x, sreach x -> Forall ev_ok (y_tr x) -> forall s recs i o earlier mb ms later role flags bodies m5 e0 e2,
  on_wire x s recs -> is_request x o (mkRid s i) -> records_for i recs = earlier ++ mb :: ms ++ later -> before x o = earlier ++ [mb] ->
  web_begin role flags mb -> web_request ms bodies m5 e0 e2 -> Forall (fun m => m_type m = 0%Z) (given x o) ->
  exists l, web_calls bodies m5 e0 e2 l /\ agree (q_calls (y_rq x o)) l.
Proof.
  intros x R EV s recs i o earlier mb ms later role flags bodies m5 e0 e2 W Q E B WB WQ G.
  destruct (handled_sent x R EV s recs i o earlier mb (ms ++ later) W Q E B G) as (C & b & rest & H1 & H2).
  destruct (begun _ _ _ _ _ WB C) as [_ CC].
  assert (I : (i < 65536)%N) by (eapply (records_id i recs mb); [apply W|rewrite E; apply in_or_app; right; left; reflexivity|reflexivity]).
  destruct (alone ms bodies m5 e0 e2 (y_cfg x o) WQ) as (b0 & st & l & K1 & K2 & K3); [rewrite CC; exact I|rewrite CC; apply WB|rewrite CC; reflexivity|].
  exists l. split; [exact K3|]. rewrite <- K2.
  destruct (app_both _ _ _ _ H1) as [(p & -> & _)|(p & HH & _)].
  - left. destruct (handler_prefix _ _ _ _ _ _ _ K1 H2) as [_ X]. exact X.
  - right. rewrite HH in H2. destruct (handler_prefix _ _ _ _ _ _ _ H2 K1) as [_ X]. exact X.
Qed.

(** The next message makes no undefined behaviour and does not throw. *)
Lemma defined : forall x, sreach x -> Forall ev_ok (y_tr x) -> forall s recs i o earlier mb ms later role flags bodies m5 e0 e2 m wait,
  on_wire x s recs -> is_request x o (mkRid s i) -> records_for i recs = earlier ++ mb :: ms ++ later -> before x o = earlier ++ [mb] ->
  web_begin role flags mb -> web_request ms bodies m5 e0 e2 ->
  given x o = handled x o ++ m :: wait -> Forall (fun m => m_type m = 0%Z) (given x o) -> (length (handled x o) < length ms)%nat ->
  exists r, rstep (y_cfg x o) m (y_rq x o) = Done r.
Proof.
  intros x R EV s recs i o earlier mb ms later role flags bodies m5 e0 e2 m wait W Q E B WB WQ GI G LT.
  destruct (handled_is vts junk http_time k A maxPost u x R EV s recs i o W Q) as (e1 & m1 & lat & b & H1 & H2 & H3 & H4 & _ & H6).
  rewrite B in H2. apply last_eq in H2 as [<- <-]. rewrite E, (all_records _ G) in H1. apply app_inv_head in H1. injection H1 as H1.
  destruct (begun _ _ _ _ _ WB H4) as [_ CC].
  assert (I : (i < 65536)%N) by (eapply (records_id i recs mb); [apply W|rewrite E; apply in_or_app; right; left; reflexivity|reflexivity]).
  destruct (alone ms bodies m5 e0 e2 (y_cfg x o) WQ) as (b0 & st & l & K1 & K2 & K3); [rewrite CC; exact I|rewrite CC; apply WB|rewrite CC; reflexivity|].
  rewrite GI, <- app_assoc in H1. cbn [app] in H1. destruct (app_both _ _ _ _ H1) as [(p & -> & H8)|(p & HH & _)].
  2:{ exfalso. rewrite HH, app_length in LT. lia. }
  destruct p as [|m' p]; [rewrite app_nil_r in LT; lia|]. cbn in H8. injection H8 as <- _.
  destruct (handler_prefix _ _ _ _ _ _ _ K1 H6) as [X _]. destruct b; [destruct (X eq_refl) as [N _]; discriminate|].
  rewrite handler_app, H6 in K1. cbn [run_bind Request.handler] in K1. apply run_bind_done in K1 as (r & K1 & _). eauto.
Qed.

(** At rest everything was dealt with. *)
Lemma at_rest : forall x s, sreach x -> SystemSpec.quiet x s -> settled x = inbox x /\ busy x = 0.
Proof.
  intros x s R (I & IO & _ & _). pose proof (parts_reach _ _ _ _ _ _ _ x R) as PA. destruct PA as (_ & _ & _ & FE).
  unfold io_free, push_at in IO. destruct (I 0) as (_ & P & _).
  assert (B : busy x = 0) by (unfold busy; rewrite P; reflexivity).
  split; [|exact B]. rewrite P in IO. apply Nat.eqb_eq in IO. unfold settled. rewrite B, IO, Nat.sub_0_r. apply firstn_all2. unfold inbox. now rewrite map_length.
Qed.

Lemma rest_inbox : forall x s recs, sreach x -> Forall ev_ok (y_tr x) -> SystemSpec.quiet x s -> all_sent x s recs ->
  s_valid (t_socks (y_net x) s) = true ->
  filter (is_rec_of s) (t_msgs (y_net x)) = map (fun '(id, r) => MRecord id s (known r)) recs.
Proof.
  intros x s recs R EV (_ & _ & _ & I) [W E] V. pose proof (parts_reach _ _ _ _ _ _ _ x R) as (T & _).
  exact (TransceiverProofs.reassembly_all _ _ s recs T EV W (eq_sym E) V I).
Qed.

Lemma not_told : forall x s recs, sreach x -> Forall ev_ok (y_tr x) -> s_valid (t_socks (y_net x) s) = true ->
  filter (is_rec_of s) (t_msgs (y_net x)) = map (fun '(id, r) => MRecord id s (known r)) recs ->
  Forall (fun r => fst r <> 65535%N) recs -> ~ told x s.
Proof.
  intros x s recs R EV V F N (p & IN & P1 & P2). pose proof (parts_reach _ _ _ _ _ _ _ x R) as (T & _).
  unfold inbox in IN. apply in_map_iff in IN as (m & <- & IN).
  destruct (TransceiverProofs.closed_once _ _ s T EV) as (rs & tl & C1 & C2 & C3).
  assert (tl = []) as -> by (destruct C3 as [X|(_ & X & _)]; [exact X|congruence]).
  rewrite app_nil_r in C1.
  assert (IM : In m (msgs_of s (t_msgs (y_net x)))).
  { apply filter_In. split; [exact IN|]. destruct m; cbn in *; now apply N.eqb_eq. }
  rewrite C1 in IM. apply C2 in IM. assert (IF : In m (filter (is_rec_of s) (t_msgs (y_net x)))) by (apply filter_In; auto).
  rewrite F in IF. apply in_map_iff in IF as ([id r] & <- & IR). cbn in P2. rewrite Forall_forall in N. exact (N _ IR P2).
Qed.

Lemma sent_to : forall x, sreach x -> Forall ev_ok (y_tr x) -> forall s recs i,
  SystemSpec.quiet x s -> all_sent x s recs -> s_valid (t_socks (y_net x) s) = true -> i <> 65535%N ->
  for_rid (mkRid s i) (settled x) = records_for i recs.
Proof.
  intros x R EV s recs i Q AS V I1. destruct (at_rest x s R Q) as [SE _]. rewrite SE.
  exact (inbox_records s i _ recs I1 (rest_inbox x s recs R EV Q AS V)).
Qed.

Lemma begin_fate : forall x, sreach x -> Forall ev_ok (y_tr x) -> forall s recs i pre m tl role flags,
  SystemSpec.quiet x s -> all_sent x s recs -> s_valid (t_socks (y_net x) s) = true -> i <> 0%N -> i <> 65535%N ->
  records_for i recs = pre ++ m :: tl -> web_begin role flags m ->
  exists o g g', is_request x o (mkRid s i) /\ before x o ++ g = pre ++ [m] /\ records_only (given x o) = g ++ g'.
Proof.
  intros x R EV s recs i pre m tl role flags Q AS V N0 I1 E WB.
  pose proof (parts_reach _ _ _ _ _ _ _ x R) as (T & RM & B & FE). pose proof (flow_reach _ _ _ _ _ _ _ x R) as F.
  pose proof (sent_to x R EV s recs i Q AS V I1) as IR. rewrite E in IR.
  destruct (begun' (mkRid s i) m role flags WB) as [BG _].
  destruct (f_begin _ x F (mkRid s i) pre m tl N0 I1 IR BG) as (o & g & g' & IQ & FO & GV). pose proof IQ as [ON RI].
  exists o, g, g'. rewrite (before_at vts junk http_time maxPost x o FE F ON), RI. auto.
Qed.

Lemma completes : forall x, sreach x -> Forall ev_ok (y_tr x) -> forall s recs i o earlier mb ms later role flags bodies m5 e0 e2,
  SystemSpec.quiet x s -> s_waiters (y_man x) <> [] -> s_stop (y_man x) = false -> s_terminate (y_man x) = false ->
  all_sent x s recs -> s_valid (t_socks (y_net x) s) = true -> Forall (fun r => fst r <> 65535%N) recs ->
  is_request x o (mkRid s i) -> records_for i recs = earlier ++ mb :: ms ++ later -> before x o = earlier ++ [mb] ->
  web_begin role flags mb -> web_request ms bodies m5 e0 e2 ->
  Forall (fun m => m_type m = 0%Z) (given x o) ->
  exists l tl, web_calls bodies m5 e0 e2 l /\
    q_calls (y_rq x o) = l ++ tl /\ (later = [] -> tl = []) /\ sent_for x o = q_sent (y_rq x o).
Proof.
  intros x R EV s recs i o earlier mb ms later role flags bodies m5 e0 e2 Q WT ST TE AS V N65 IQ E BE WB WQ GO.
  pose proof (parts_reach _ _ _ _ _ _ _ x R) as PA. pose proof (flow_reach _ _ _ _ _ _ _ x R) as F. pose proof (work_reach _ _ _ _ _ _ _ x R) as WK.
  pose proof (loss_reach _ _ _ _ _ _ _ x R) as LO. pose proof PA as (T & RM & B & FE).
  destruct (at_rest x s R Q) as [SE BZ]. pose proof (rest_inbox x s recs R EV Q AS V) as F1.
  pose proof (not_told x s recs R EV V F1 N65) as NT.
  assert (INM : In mb (records_for i recs)) by (rewrite E; apply in_or_app; right; left; reflexivity).
  assert (I1 : i <> 65535%N).
  { intros ->. pose proof INM as IN.
    unfold records_for in IN. apply in_map_iff in IN as (r & _ & IN). apply filter_In in IN as [IN X]. apply N.eqb_eq in X.
    rewrite Forall_forall in N65. exact (N65 _ IN X). }
  pose proof (sent_to x R EV s recs i Q AS V I1) as IR. rewrite E in IR.
  pose proof IQ as [ON RI].
  assert (FO : for_rid (mkRid s i) (firstn (y_at x o) (settled x)) = earlier ++ [mb]).
  { rewrite <- BE, (before_at vts junk http_time maxPost x o FE F ON), RI. reflexivity. }
  assert (OW : on_wire x s recs) by (destruct AS as [A1 A2]; split; [exact A1|exists []; now rewrite app_nil_r]).
  destruct (handled_sent x R EV s recs i o earlier mb (ms ++ later) OW IQ E BE GO) as (C & b & rest & H1 & H2).
  destruct (begun _ _ _ _ _ WB C) as [_ CC].
  assert (I : (i < 65536)%N) by (eapply (records_id i recs mb); [apply OW|exact INM|reflexivity]).
  destruct (alone ms bodies m5 e0 e2 (y_cfg x o) WQ) as (b0 & st & l & K1 & K2 & K3); [rewrite CC; exact I|rewrite CC; apply WB|rewrite CC; reflexivity|].
  exists l.
  assert (NW : forall t, wk (tb (y_man x) t) <> Some o).
  { intros t X. destruct Q as (ID & _). destruct (ID t) as (_ & _ & Y). destruct (tb (y_man x) t); discriminate || contradiction. }
  assert (SF : sent_for x o = q_sent (y_rq x o)) by (apply (w_sent _ _ _ _ _ _ x WK o ON); exact NW).
  enough (X : exists tl, q_calls (y_rq x o) = l ++ tl /\ (later = [] -> tl = [])).
  { destruct X as (tl & X1 & X2). exists tl. auto 10. }
  assert (AT : agree (handled x o) ms -> b = true -> exists p, handled x o = ms ++ p).
  { intros [(p & X)|X] BT; [|exact X]. subst ms. destruct (handler_prefix _ _ _ _ _ _ _ K1 H2) as [Y _].
    destruct (Y BT) as [-> _]. exists []. now rewrite !app_nil_r. }
  assert (AG : agree (handled x o) ms).
  { destruct (app_both _ _ _ _ H1) as [(p & X & _)|(p & X & _)]; [left|right]; eauto. }
  assert (HP : exists p, handled x o = ms ++ p).
  { destruct (o_alive (ob (y_man x) o)) eqn:AL.
    - (* everything was handled *)
      destruct (ManagerUse.quiet begins _ RM TE ST (proj1 Q) WT) as [_ QE]. specialize (QE o AL).
      pose proof (in_order begins _ RM o) as IO. rewrite QE, app_nil_r in IO.
      destruct (f_got _ x F o ON) as (rest' & G1 & G2). rewrite (G2 AL), app_nil_r, RI in G1. rewrite (all_records _ GO) in G1.
      assert (SK : for_rid (mkRid s i) (settled x) = (earlier ++ [mb]) ++ for_rid (mkRid s i) (skipn (y_at x o) (settled x))).
      { rewrite <- (firstn_skipn (y_at x o) (settled x)), for_rid_app at 1. now rewrite FO. }
      rewrite IR, G1, <- app_assoc in SK. apply app_inv_head in SK. injection SK as SK.
      exists later. unfold handled. unfold given in SK. rewrite <- IO. auto.
    - (* it ended *)
      apply AT; [exact AG|].
      destruct (destroyed_why begins _ RM o ON AL) as [(sk & X)|X].
      + exfalso. pose proof (proj2 (only_its_own begins _ RM o sk X)) as Y. rewrite RI in Y. cbn in Y. subst sk.
        apply NT. exact (l_lost x LO o s X).
      + destruct (ends_reachable _ RM) as (_ & _ & EN). destruct (EN o X) as [Y|Y].
        * destruct (w_run _ _ _ _ _ _ x WK o ON) as (b1 & E1 & _ & _ & E4). rewrite H2 in E1. injection E1 as ->. auto.
        * exfalso. rewrite RI in Y. cbn in Y. pose proof (l_gone x LO s Y) as [_ GN]. congruence. }
  destruct HP as (p & HP). rewrite HP in H2.
  destruct (handler_prefix _ _ _ _ _ _ _ H2 K1) as [_ (tl & X)]. rewrite K2 in X. exists tl. split; [exact X|].
  intros ->. rewrite app_nil_r, HP in H1. assert (p = []) as ->.
  { apply (f_equal (@length message)) in H1. rewrite !app_length in H1. destruct p; [reflexivity|cbn in H1; lia]. }
  rewrite app_nil_r, K1 in H2. injection H2 as _ H2. rewrite <- H2, K2 in X. rewrite <- (app_nil_r l) in X at 1. now apply app_inv_head in X.
Qed.

Lemma before_some : forall x o i, sreach x -> is_request x o i -> before x o <> [].
Proof.
  intros x o i R [ON RI]. pose proof (parts_reach _ _ _ _ _ _ _ x R) as (T & RM & B & FE). pose proof (flow_reach _ _ _ _ _ _ _ x R) as F.
  rewrite (before_at vts junk http_time maxPost x o FE F ON). destruct (f_pre _ x F o ON) as (pre & mb & -> & _). destruct pre; discriminate.
Qed.

Lemma arrives : forall x, sreach x -> Forall ev_ok (y_tr x) -> forall s recs i mb ms later role flags bodies m5 e0 e2,
  SystemSpec.quiet x s -> s_waiters (y_man x) <> [] -> s_stop (y_man x) = false -> s_terminate (y_man x) = false ->
  all_sent x s recs -> s_valid (t_socks (y_net x) s) = true -> Forall (fun r => fst r <> 65535%N) recs -> i <> 0%N ->
  records_for i recs = mb :: ms ++ later ->
  web_begin role flags mb -> web_request ms bodies m5 e0 e2 ->
  (forall o, is_request x o (mkRid s i) -> Forall (fun m => m_type m = 0%Z) (given x o)) ->
  exists o l tl, is_request x o (mkRid s i) /\ before x o = [mb] /\ web_calls bodies m5 e0 e2 l /\
    q_calls (y_rq x o) = l ++ tl /\ (later = [] -> tl = []) /\ sent_for x o = q_sent (y_rq x o).
Proof.
  intros x R EV s recs i mb ms later role flags bodies m5 e0 e2 Q WT ST TE AS V N65 N0 E WB WQ G.
  assert (I1 : i <> 65535%N).
  { intros ->. assert (IN : In mb (records_for 65535 recs)) by (rewrite E; left; reflexivity).
    unfold records_for in IN. apply in_map_iff in IN as (r & _ & IN). apply filter_In in IN as [IN X]. apply N.eqb_eq in X.
    rewrite Forall_forall in N65. exact (N65 _ IN X). }
  destruct (begin_fate x R EV s recs i [] mb (ms ++ later) role flags Q AS V N0 I1 E WB) as (o & g & g' & IQ & BE & _).
  assert (B1 : before x o = [mb]).
  { pose proof (before_some x o _ R IQ) as NE. destruct (before x o) as [|a [|c l]]; [contradiction| |discriminate BE].
    injection BE as ->. reflexivity. }
  destruct (completes x R EV s recs i o [] mb ms later role flags bodies m5 e0 e2 Q WT ST TE AS V N65 IQ E B1 WB WQ (G o IQ))
    as (l & tl & C1 & C2 & C3 & C4). exists o, l, tl. auto 10.
Qed.
End Web.
End Seen.
