(** The whole server: what the requests do with their messages. *)
From Coq Require Import String List NArith ZArith Bool Arith Lia.
From Verif Require Import Model.Base Model.Endian Model.Protocol Model.Transceiver Model.RequestMap Model.Streams Model.Environment
  Model.Management Model.Manager Model.Request Model.System
  Spec.EndianSpec Spec.WireSpec Spec.EnvironmentSpec Spec.RequestSpec Spec.TransceiverSpec Spec.ManagerSpec Spec.SystemSpec
  Proofs.RequestMapProofs Proofs.ManagerProofs Proofs.ManagerStep Proofs.ManagerFacts Proofs.ManagerHist Proofs.ManagerUse
  Proofs.RequestProofs Proofs.SystemProofs Proofs.SystemFlow.
Import ListNotations.

(** * The request only ever adds to what it sends *)
Section Sent.
Variable vts : list N -> list N -> list N.
Variable junk : nat -> list N.
Variable http_time : list N -> Z.
Variable k : chars.
Context {U : Type}.
Variable A : application U.
Variable cfg : config.
Definition more (a b : rq U) : Prop := (exists l, q_sent b = q_sent a ++ l) /\ (exists l, q_calls b = q_calls a ++ l).
Lemma more_refl : forall a b, q_sent b = q_sent a -> q_calls b = q_calls a -> more a b.
Proof. intros a b E E'; split; exists []; now rewrite app_nil_r. Qed.
Lemma more_trans : forall a b c, more a b -> more b c -> more a c.
Proof.
  intros a b c [(l & E) (m & F)] [(l' & E') (m' & F')]; split; [exists (l ++ l')|exists (m ++ m')]; now rewrite ?E', ?E, ?F', ?F, app_assoc.
Qed.
Lemma do_more : forall o a b, stream_do k cfg o a = Done b -> more a b.
Proof.
  intros o a b H; unfold stream_do in H. destruct (stream_op _ _ _ _ _ _); try discriminate. injection H as <-.
  destruct (fst o); (split; [eexists; reflexivity|exists []; now rewrite app_nil_r]).
Qed.
Lemma all_more : forall l a b, stream_all k cfg l a = Done b -> more a b.
Proof.
  induction l as [|o l IH]; intros a b H; cbn in H; [injection H as <-; now apply more_refl|].
  apply run_bind_done in H as (c & H1 & H2). eapply more_trans; [eapply do_more; eauto|eauto].
Qed.
Lemma invoke_more : forall c a r b, invoke k A cfg c a = Done (r, b) -> more a b.
Proof.
  intros c a r b H; unfold invoke in H. destruct (a_call A c (q_user a)) as [[[? ?] ?] ?].
  apply run_bind_done in H as (d & H1 & H2). injection H2 as <- <-. apply all_more in H1. destruct H1 as [H1 (l1 & E)].
  split; [exact H1|]. eexists. rewrite E. cbn. rewrite <- app_assoc. reflexivity.
Qed.
Lemma complete_more : forall a b, complete k A cfg a = Done b -> more a b.
Proof.
  intros a b H; unfold complete in H. destruct (a_good A (q_user a)).
  apply run_bind_done in H as (d & H1 & H2). injection H2 as <-. apply all_more in H1. destruct H1 as [(l & E) H1].
  split; [|exact H1]. eexists. cbn. rewrite E, <- app_assoc. reflexivity.
Qed.
Lemma fail_more : forall c a r b, fail_with k A cfg c a = Done (r, b) -> more a b.
Proof.
  intros c a r b H; unfold fail_with in H. apply run_bind_done in H as ([r1 a1] & H1 & H). apply run_bind_done in H as (a2 & H2 & H).
  injection H as <- <-. eapply more_trans; [eapply invoke_more; eauto|eapply complete_more; eauto].
Qed.
Lemma respond_more : forall m a r b, respond k A cfg m a = Done (r, b) -> more a b.
Proof.
  intros m a r b H; unfold respond in H. apply run_bind_done in H as ([r1 a1] & H1 & H). apply invoke_more in H1. cbn in H.
  destruct r1; [|injection H as _ <-; exact H1].
  apply run_bind_done in H as (a2 & H2 & H). injection H as _ <-. eapply more_trans; [exact H1|eapply complete_more; eauto].
Qed.
Lemma step_more : forall m a r b, Request.step vts junk http_time k A cfg m a = Done (r, b) -> more a b.
Proof.
  intros m a r b H; unfold Request.step in H.
  assert (SAME : forall s, more s b -> q_sent s = q_sent a -> q_calls s = q_calls a -> more a b) by (intros s [(l & E) (l' & F)] E' F'; split; [exists l|exists l']; congruence).
  destruct (m_type m =? 0)%Z; [|eapply respond_more; eauto].
  cbv zeta in H. destruct (rd (m_data m) 1); [|discriminate]. destruct (from16 _); [|discriminate]. destruct (rd (m_data m) 7); [|discriminate].
  destruct (_ =? T_ABORT_REQUEST)%N.
  { apply run_bind_done in H as (d & H1 & H2). injection H2 as _ <-. eapply complete_more; eauto. }
  destruct (negb _); [eapply fail_more; eauto|]. destruct (q_state a =? T_PARAMS)%N.
  - destruct (negb _); [apply fail_more in H; eapply SAME; [exact H|reflexivity|reflexivity]|]. destruct (_ =? 0)%N.
    + destruct (_ <? _)%N; [eapply fail_more; eauto|]. injection H as _ <-. now apply more_refl.
    + apply run_bind_done in H as (d & H1 & H2). injection H2 as _ <-. now apply more_refl.
  - destruct (q_state a =? T_IN)%N; [|eapply fail_more; eauto]. destruct (_ =? 0)%N.
    + apply run_bind_done in H as ([r1 a1] & H1 & H). apply invoke_more in H1. eapply more_trans; [exact H1|]. cbn in H. destruct r1.
      * apply respond_more in H. exact H.
      * apply run_bind_done in H as ([r2 e] & H2 & H). cbn in H. destruct r2; [apply respond_more in H|apply fail_more in H]; exact H.
    + destruct (_ <? _)%N; [eapply fail_more; eauto|]. destruct (_ <? _)%N; [discriminate|].
      apply run_bind_done in H as ([r1 a1] & H1 & H). apply invoke_more in H1. cbn in H. injection H as _ <-. exact H1.
Qed.
End Sent.

(** * Where threads work on requests *)
Definition wk (b : bpc) : option nat := match b with RGot _ o | RProc _ o => Some o | _ => None end.

Inductive wmove (s s' : Manager.state message) (t : nat) (a : action message) : Prop :=
| WmTake : forall w id o m q, a = ARun w -> ts s t = None -> tp s t = None -> tb s t = RCheck id o -> o_queue (ob s o) = m :: q ->
    o_alive (ob s o) = true -> tb s' t = RGot id o -> s_log s' = s_log s ++ [ETaken o m] -> s_hist s' = s_hist s -> s_next s' = s_next s -> wmove s s' t a
| WmRet : forall c id o, a = AReturn c -> tb s t = RProc id o -> wk (tb s' t) = None -> tb s' t <> HRelock -> s_log s' = s_log s ->
    s_hist s' = s_hist s ++ (if c then [NComplete o] else []) -> s_next s' = s_next s -> wmove s s' t a
| WmPass : wk (tb s' t) = wk (tb s t) -> (forall o, taken o (s_log s') = taken o (s_log s)) -> (exists l, s_hist s' = s_hist s ++ l) -> (forall o, In (NComplete o) (s_hist s') -> In (NComplete o) (s_hist s)) ->
    (tb s t = HRelock -> tb s' t = HRelock \/ (exists w, a = ARun w) /\ ts s t = None /\ tp s t = None) ->
    (forall id o, tb s t = RCheck id o -> tb s' t = RCheck id o \/ o_queue (ob s o) = []) ->
    wmove s s' t a.

Lemma taken_none : forall o l (l0 : list (event message)), (forall o' m, ~ In (ETaken o' m) l) -> taken o (l0 ++ l) = taken o l0.
Proof.
  intros o l l0 L. rewrite taken_app, <- app_nil_r. f_equal. induction l as [|e l IH]; [reflexivity|].
  assert (IH' : taken o l = []) by (apply IH; intros o' m X; apply (L o' m); now right).
  destruct e; cbn; auto. exfalso; eapply L; left; reflexivity.
Qed.

Lemma step_wmove : forall s t a s', inv s -> Manager.step begins t a s = Some s' -> wmove s s' t a.
Proof.
  intros s t a s' I H.
  assert (NT : forall s1 : Manager.state message, s_waiters s1 = s_waiters s -> tb s1 t = tb s t ->
     wk (tb (notify_all message s1) t) = wk (tb s t) /\ (tb s t = HRelock -> tb (notify_all message s1) t = HRelock) /\
     (forall id o, tb s t = RCheck id o -> tb (notify_all message s1) t = RCheck id o)).
  { intros s1 W1 E1. destruct (all_threads (s_waiters s1) s1 t) as (_ & _ & Q). fold (notify_all message s1) in Q. rewrite Q.
    destruct (existsb (Nat.eqb t) (s_waiters s1)) eqn:X; [|rewrite E1; auto].
    apply existsb_exists in X. destruct X as (y & Y1 & Y2). apply Nat.eqb_eq in Y2. subst y. rewrite W1 in Y1.
    apply (i_wait s I) in Y1. rewrite Y1. split; [reflexivity|]. split; discriminate. }
  cases H S0 P0 B0.
  all: try (apply WmPass; cbn -[notify_all taken]; rewrite ?fupd_same; cbn -[notify_all taken];
    [rewrite ?B0; reflexivity
    |first [intro; reflexivity|intro; apply taken_none; intros ? ? [X|[]]; discriminate X]
    |first [exists []; rewrite app_nil_r; reflexivity|eexists; reflexivity]
    |intros oo XX; first [exact XX|apply in_app_or in XX; destruct XX as [XX|[XX|[]]]; [exact XX|discriminate XX]]
    |try (rewrite B0; discriminate); auto; try solve [right; eauto]
    |try (rewrite B0; discriminate); auto]; fail).
  - assert (NL : s_log (notify_all message (set_flag message b s)) = s_log s) by (etransitivity; [apply (all_fields (s_waiters (set_flag message b s)))|destruct b; reflexivity]).
    assert (NH : s_hist (notify_all message (set_flag message b s)) = s_hist s) by (etransitivity; [apply (all_hist (s_waiters (set_flag message b s)))|destruct b; reflexivity]).
    destruct (NT (set_flag message b s)) as (N1 & N2 & N3); [destruct b; reflexivity..|].
    apply WmPass; cbn -[notify_all taken]; rewrite ?fupd_same; cbn -[notify_all taken]; rewrite ?NL, ?NH; auto.
    exists []; now rewrite app_nil_r.
  - assert (W : t <> w).
    { intros <-. assert (X : tp s t <> None) by congruence. apply (i_push s I) in X.
      assert (Y : tb s t = HWaiting).
      { apply (i_wait s I). cbn in E0. rewrite E0. apply orb_true_iff in E1; destruct E1 as [E1|E1].
        - apply Nat.eqb_eq in E1. now left.
        - apply existsb_exists in E1. destruct E1 as (y & Y1 & Y2). apply Nat.eqb_eq in Y2. subst. now right. }
      destruct X as [X|(? & ? & X)]; congruence. }
    assert (T : tb (goto_push message t None (wakeup message w (set_tasks message (s_tasks s ++ [id]) s))) t = tb s t).
    { cbn. rewrite fupd_same. cbn. rewrite fupd_other by exact W. reflexivity. }
    apply WmPass; rewrite ?T; auto. exists []; now rewrite app_nil_r.
  - assert (NL : s_log (notify_all message s) = s_log s) by (apply (all_fields (s_waiters s))).
    assert (NH : s_hist (notify_all message s) = s_hist s) by (apply (all_hist (s_waiters s))).
    apply WmPass; cbn -[notify_all taken]; rewrite ?fupd_same; cbn -[notify_all taken]; rewrite ?NL, ?NH, ?B0; try discriminate; auto.
    exists []; now rewrite app_nil_r.
  - apply WmPass; cbn; rewrite ?fupd_same; cbn; rewrite ?B0; try discriminate; auto.
    + exists []; now rewrite app_nil_r.
    + intros i o' X. injection X as <- <-. auto.
  - eapply (WmTake _ _ _ _ w id o m l); cbn; rewrite ?fupd_same; auto.
  - eapply (WmRet _ _ _ _ true id o); cbn; rewrite ?fupd_same; cbn; auto; discriminate.
  - eapply (WmRet _ _ _ _ false id o); cbn; rewrite ?fupd_same, ?app_nil_r; cbn; auto; discriminate.
Qed.

Lemma wk_req : forall b o, wk b = Some o -> base_req b = Some o.
Proof. intros b o H; destruct b; try discriminate; exact H. Qed.
Lemma wk_alive : forall (s : Manager.state message) t o, inv s -> wk (tb s t) = Some o -> o_alive (ob s o) = true /\ o < s_next s.
Proof. intros s t o I H. apply wk_req in H. destruct (i_req s I t o H). split; [assumption|]. now apply (i_next s I). Qed.
Lemma wk_one : forall (s : Manager.state message) t t' o, inv s -> base_req (tb s t) = Some o -> base_req (tb s t') = Some o -> t = t'.
Proof. intros s t t' o I H H'. destruct (i_req s I t o H), (i_req s I t' o H'). congruence. Qed.

Section Work.
Variable vts : list N -> list N -> list N.
Variable junk : nat -> list N.
Variable http_time : list N -> Z.
Variable k : chars.
Context {U : Type}.
Variable A : application U.
Variable maxPost : N.
Variable u : U.
Notation sys := (System.sys (U := U)).
Notation sreach := (SystemSpec.sreach vts junk http_time k A maxPost u).
Notation sshape := (SystemProofs.sshape vts junk http_time k A maxPost u).
Notation wshape := (SystemProofs.wshape vts junk http_time k A maxPost u).
Notation rstep := (Request.step vts junk http_time k A).
Notation handler := (Request.handler vts junk http_time k A).
Notation mstep := (Manager.step begins).
Notation flowI := (SystemFlow.flowI maxPost).
Notation rid_of x o := (o_rid (ob (y_man x) o)).
Notation next x := (s_next (y_man x)).
Notation pd := (fun p : parcel => (p_data p, p_kill p)).
Notation at_work x t o := (wk (tb (y_man x) t) = Some o).

Definition ran (x : sys) (o : nat) : Prop :=
  exists b, handler (y_cfg x o) (handled x o) (rq_init u) = Done (b, [], y_rq x o) /\
    (b = true -> In (NComplete o) (s_hist (y_man x)) \/ exists t, at_work x t o /\ y_ret x t = true) /\
    (forall t, at_work x t o -> y_ret x t = b) /\ (In (NComplete o) (s_hist (y_man x)) -> b = true).
Definition sent_all (x : sys) (o : nat) : Prop :=
  (forall t, at_work x t o -> sent_for x o ++ map pd (y_out x t) = q_sent (y_rq x o)) /\
  ((forall t, ~ at_work x t o) -> sent_for x o = q_sent (y_rq x o)).
Definition outs (x : sys) (t : nat) : Prop :=
  y_out x t = [] \/
  (exists o, at_work x t o /\ Forall (fun p => p_req p = Some o /\ p_sock p = r_socket (rid_of x o)) (y_out x t)) \/
  (tb (y_man x) t = HRelock /\ Forall (fun p => p_req p = None) (y_out x t)).

Record workI (x : sys) : Prop := mkWork {
  w_run : forall o, o < next x -> ran x o;
  w_sent : forall o, o < next x -> sent_all x o;
  w_out : forall t, outs x t;
  w_new : forall o, next x <= o -> sent_for x o = [];
  w_sock : Forall (fun p => forall o, p_req p = Some o -> o < next x /\ p_sock p = r_socket (rid_of x o)) (y_sent x);
  w_tr : forall s, sends s (y_tr x) = map pd (filter (fun p => N.eqb (p_sock p) s) (y_sent x))
}.

Lemma sends_one : forall s a e, sends s (a ++ [e]) = sends s a ++ sends s [e].
Proof. intros s a e; induction a as [|[] a IH]; cbn in *; rewrite ?IH; auto. now rewrite app_assoc. Qed.

Lemma is_for_spec : forall o p, is_for o p = true <-> p_req p = Some o.
Proof.
  intros o p; unfold is_for; destruct (p_req p) as [o'|]; [|split; discriminate]. rewrite Nat.eqb_eq. split; congruence.
Qed.

Lemma sent_for_add : forall (x x' : sys) p o, y_sent x' = y_sent x ++ [p] ->
  sent_for x' o = sent_for x o ++ (if is_for o p then [pd p] else []).
Proof. intros x x' p o E; unfold sent_for. rewrite E, filter_app, map_app. cbn. destruct (is_for o p); reflexivity. Qed.

(** Nothing that matters here changes. *)
Lemma ran_same : forall x x' o, ran x o -> y_cfg x' o = y_cfg x o -> handled x' o = handled x o -> y_rq x' o = y_rq x o ->
  (exists l, s_hist (y_man x') = s_hist (y_man x) ++ l) ->
  (In (NComplete o) (s_hist (y_man x')) -> In (NComplete o) (s_hist (y_man x)) \/ exists t, at_work x t o /\ y_ret x t = true) ->
  (forall t, at_work x' t o -> at_work x t o /\ y_ret x' t = y_ret x t) ->
  (forall t, at_work x t o -> (at_work x' t o /\ y_ret x' t = y_ret x t) \/ (y_ret x t = true -> In (NComplete o) (s_hist (y_man x')))) -> ran x' o.
Proof.
  intros x x' o (b & E1 & E2 & E3 & E4) C H R (l & HI) HB W1 W2. exists b. rewrite C, H, R. split; [exact E1|]. split; [|split].
  - intro X. destruct (E2 X) as [Y|(t & Y & Z)]; [left; rewrite HI; apply in_or_app; auto|].
    destruct (W2 t Y) as [[P Q]|P]; [right; exists t; split; [exact P|congruence]|left; auto].
  - intros t Y. apply W1 in Y as [Y Z]. rewrite Z. auto.
  - intro Y. destruct (HB Y) as [Z|(t & Z1 & Z2)]; [auto|]. rewrite <- (E3 t Z1). exact Z2.
Qed.

Lemma work_net : forall x x', workI x -> y_man x' = y_man x -> y_cfg x' = y_cfg x -> y_rq x' = y_rq x -> y_out x' = y_out x ->
  y_ret x' = y_ret x -> y_sent x' = y_sent x -> (forall s, sends s (y_tr x') = sends s (y_tr x)) -> workI x'.
Proof.
  intros x x' [W1 W2 W3 W4 W5 W6] E1 E2 E3 E4 E5 E6 E7. constructor.
  - intros o L; rewrite E1 in L. generalize (W1 o L). unfold ran, handled. now rewrite E1, E2, E3, E5.
  - intros o L; rewrite E1 in L. generalize (W2 o L). unfold sent_all, sent_for. now rewrite E1, E3, E4, E6.
  - intro t. generalize (W3 t). unfold outs. now rewrite E1, E4.
  - intros o L; rewrite E1 in L. unfold sent_for; rewrite E6. now apply W4.
  - now rewrite E6, E1.
  - intro s0; rewrite E7, E6. apply W6.
Qed.

Lemma ret_done : forall (s : Manager.state message), inv s -> ending s -> forall t o id, tb s t = RCheck id o -> In (NComplete o) (s_hist s) -> False.
Proof.
  intros s I EN t o id B H. assert (Q : base_req (tb s t) = Some o) by (rewrite B; reflexivity).
  destruct (i_req s I t o Q) as [AL MU]. destruct (EN o H) as [_ [D|(t' & _ & i & RM)]]; [congruence|].
  destruct RM as [RM|[RM|[RM|RM]]].
  1,2,3: assert (Q' : base_req (tb s t') = Some o) by (rewrite RM; reflexivity); assert (t = t') as <- by (eapply wk_one; eauto); congruence.
  apply (i_er2 s I) in RM. congruence.
Qed.

Lemma take_goes : forall (s : Manager.state message) t w id o m q s', ts s t = None -> tp s t = None -> tb s t = RCheck id o ->
  o_queue (ob s o) = m :: q -> mstep t (ARun w) s = Some s' -> tb s' t = RGot id o.
Proof.
  intros s t w id o m q s' S P B Q H. cbn in H. rewrite S, P, B in H. cbn in H. unfold touch in H. destruct (o_alive _); [|discriminate].
  rewrite Q in H. injection H as <-. cbn. now rewrite fupd_same.
Qed.
Lemma local_goes : forall (s : Manager.state message) t w s', ts s t = None -> tp s t = None -> tb s t = HLocal ->
  mstep t (ARun w) s = Some s' -> tb s' t = HRelock.
Proof.
  intros s t w s' S P B H. cbn in H. rewrite S, P, B in H. cbn in H. destruct (s_local s) as [|[? ?] ?]; [discriminate|].
  injection H as <-. cbn. now rewrite fupd_same.
Qed.

Lemma work_step : forall x x', parts x -> flowI x -> workI x -> sshape x x' -> workI x'.
Proof.
  intros x x' (T & R & B & FE) F W S. pose proof (inv_reachable begins _ R) as I. pose proof (ending_reachable begins _ R) as EN.
  destruct S.
  - apply (work_net x); auto. intro s; cbn. rewrite sends_one. destruct e; cbn; rewrite ?app_nil_r; auto. exfalso; eapply H; eauto.
  - destruct (push_call _ _ _ _ _ H0) as [P ->].
    set (x' := mkSys _ _ _ _ _ _ _ _ _ _).
    assert (TB : forall t, tb (y_man x') t = tb (y_man x) t).
    { intro t. cbn. unfold fupd. destruct (Nat.eqb_spec t 0); [subst|]; reflexivity. }
    constructor.
    + intros o L. generalize (w_run x W o L). unfold ran, handled. intros (b & X1 & X2 & X3 & X4). exists b.
      split; [exact X1|]. split; [|split; [|exact X4]].
      * intro Y; destruct (X2 Y) as [Z|(t & Z)]; [now left|right; exists t; now rewrite TB].
      * intros t; rewrite TB; apply X3.
    + intros o L. destruct (w_sent x W o L) as [X1 X2]. split.
      * intros t; rewrite TB; apply X1.
      * intro Y; apply X2. intro t; rewrite <- TB; apply Y.
    + intro t. generalize (w_out x W t). unfold outs. rewrite TB. auto.
    + exact (w_new x W).
    + exact (w_sock x W).
    + exact (w_tr x W).
  - pose proof (step_wmove _ _ _ _ I H0) as WM.
    assert (I' : inv m) by (eapply inv_step; eauto).
    assert (OW : forall t', t' <> t -> wk (tb m t') = wk (tb (y_man x) t')).
    { intros t' N. apply (step_other_base begins _ wk _ _ _ _ eq_refl I H0 t' N). }
    assert (OR : forall t', t' <> t -> tb (y_man x) t' = HRelock -> tb m t' = HRelock).
    { intros t' N E. destruct (step_others begins _ _ _ _ I H0 t' N) as [X|[X _]]; [now rewrite X|congruence]. }
    assert (RID : forall o, o < next x -> o_rid (ob m o) = rid_of x o) by (intros o L; eapply step_rid; eauto).
    destruct WM as [w id o mm q PA PS P PB PQ AL PB' PL PH PX|c id o PA PB PW PR PL PH PX|PW PT PH PN PR PC].
    + assert (ON : o < next x) by (apply (i_next _ I); auto).
      assert (ID : rid_of x o = id) by (apply (i_obj _ I t); now rewrite PB).
      destruct H1 as [W1 _|w0 id0 m0 c Q1 Q2 Q3|w0 id0 o0 m0 q0 b st Q1 Q2 Q3 Q4 Q5 Q6|w0 m0 sk l r Q1 Q2 Q3 Q4]; try congruence.
      { specialize (W1 w id o PA PS P PB). congruence. }
      rewrite PB in Q4. injection Q4 as <- <-. rewrite PQ in Q5. injection Q5 as <- <-.
      assert (NOW : forall t', ~ at_work x t' o).
      { intros t' X. assert (t = t') as <- by (eapply wk_one; [exact I|rewrite PB; reflexivity|now apply wk_req]). rewrite PB in X. discriminate. }
      assert (NEW : forall t' o', wk (tb m t') = Some o' -> (t' = t /\ o' = o) \/ (t' <> t /\ o' <> o /\ at_work x t' o')).
      { intros t' o' X. destruct (Nat.eq_dec t' t) as [->|N]; [left; rewrite PB' in X; injection X as <-; auto|right].
        rewrite OW in X by exact N. split; [exact N|]. split; [intros ->; eapply NOW; eauto|exact X]. }
      destruct (step_more _ _ _ _ _ _ _ _ _ _ Q6) as [(l & ML) _].
      constructor.
      * intros o' L. cbn in L. rewrite PX in L. destruct (Nat.eq_dec o' o) as [->|NO].
        -- destruct (w_run x W o ON) as (b0 & E1 & E2 & E3 & E4).
           assert (b0 = false) as ->.
           { destruct b0; [exfalso|reflexivity]. destruct (E2 eq_refl) as [X|(t' & X & _)]; [|eapply NOW; eauto].
             exact (ret_done _ I EN t o id PB X). }
           exists b. unfold handled. cbn. rewrite fupd_same, PL, taken_app. cbn. rewrite Nat.eqb_refl, handler_app.
           fold (handled x o). rewrite E1. cbn. rewrite Q6. cbn. split; [destruct b; reflexivity|]. split; [|split].
           ++ intros ->. right. exists t. rewrite PB', fupd_same. auto.
           ++ intros t' X. destruct (NEW _ _ X) as [[-> _]|(_ & N & _)]; [now rewrite fupd_same|contradiction].
           ++ rewrite PH. intro X. exfalso. exact (ret_done _ I EN t o id PB X).
        -- apply (ran_same x); try reflexivity.
           ++ apply w_run; auto.
           ++ unfold handled. cbn. rewrite PL, taken_app. cbn. destruct (Nat.eqb_spec o' o); [contradiction|]. apply app_nil_r.
           ++ cbn. now rewrite fupd_other.
           ++ exists []. cbn. now rewrite PH, app_nil_r.
           ++ cbn. rewrite PH. auto.
           ++ intros t' X. cbn in *. destruct (NEW _ _ X) as [[_ ->]|(N & _ & Y)]; [contradiction|]. split; [exact Y|]. now rewrite fupd_other.
           ++ intros t' X. left. cbn. assert (N : t' <> t) by (intros ->; rewrite PB in X; discriminate). rewrite OW, fupd_other by exact N. auto.
      * intros o' L. cbn in L. rewrite PX in L. destruct (w_sent x W o' L) as [S1 S2]. unfold sent_all, sent_for in *. cbn.
        destruct (Nat.eq_dec o' o) as [->|NO].
        -- rewrite fupd_same. specialize (S2 NOW). split.
           ++ intros t' X. destruct (NEW _ _ X) as [[-> _]|(_ & N & _)]; [|contradiction].
              rewrite fupd_same, S2, map_map. cbn. rewrite ML. rewrite skipn_app, skipn_all, Nat.sub_diag. cbn. f_equal.
              rewrite <- (map_id l) at 2. apply map_ext. intros [? ?]; reflexivity.
           ++ intro X. exfalso. apply (X t). rewrite PB'. reflexivity.
        -- rewrite fupd_other by exact NO. split.
           ++ intros t' X. destruct (NEW _ _ X) as [[_ ->]|(N & _ & Y)]; [contradiction|]. rewrite fupd_other by exact N. auto.
           ++ intro X. apply S2. intros t' Y. apply (X t'). rewrite OW; [exact Y|]. intros ->. rewrite PB in Y. discriminate.
      * intro t'. unfold outs. cbn. destruct (Nat.eq_dec t' t) as [->|N].
        -- rewrite fupd_same. right; left. exists o. rewrite PB'. split; [reflexivity|]. rewrite RID, ID by exact ON.
           apply Forall_forall. intros p X. apply in_map_iff in X. destruct X as (r & <- & _). auto.
        -- rewrite fupd_other by exact N. destruct (w_out x W t') as [X|[(o' & X & Y)|[X Y]]]; auto.
           right; left. exists o'. rewrite OW by exact N. split; [exact X|]. rewrite RID; [exact Y|]. eapply wk_alive; eauto.
      * intros o' L. cbn in L. apply (w_new x W). lia.
      * cbn. rewrite PX. eapply Forall_impl; [|exact (w_sock x W)]. intros p X o' Y. destruct (X o' Y) as [Z1 Z2]. rewrite RID by exact Z1. auto.
      * exact (w_tr x W).
    + subst a. assert (x1 = x) as -> by (destruct H1; [reflexivity|discriminate..]).
      unfold allowed in H. destruct (y_out x t) as [|? ?] eqn:OUT; [|discriminate]. apply eqb_prop in H. subst c.
      assert (ATW : at_work x t o) by (rewrite PB; reflexivity).
      assert (ON : o < next x) by (eapply wk_alive; eauto).
      assert (NEW : forall t' o', wk (tb m t') = Some o' -> t' <> t /\ o' <> o /\ at_work x t' o').
      { intros t' o' X. assert (N : t' <> t) by (intros ->; congruence). split; [exact N|]. rewrite OW in X by exact N. split; [|exact X].
        intros ->. apply N. eapply wk_one; [exact I|apply wk_req; exact X|apply wk_req; exact ATW]. }
      constructor.
      * intros o' L. cbn in L. rewrite PX in L. apply (ran_same x); try reflexivity.
        -- now apply w_run.
        -- unfold handled. cbn. now rewrite PL.
        -- eexists. cbn. exact PH.
        -- cbn. rewrite PH. intro X. apply in_app_or in X. destruct X as [X|X]; [auto|].
           destruct (y_ret x t) eqn:Y; [|destruct X]. destruct X as [X|[]]. injection X as ->. right. exists t. auto.
        -- intros t' X. cbn in *. destruct (NEW _ _ X) as (_ & _ & Y). auto.
        -- intros t' X. cbn. destruct (Nat.eq_dec t' t) as [->|N].
           ++ right. intro Y. rewrite PH, Y. apply in_or_app. right. left. rewrite ATW in X. congruence.
           ++ left. rewrite OW by exact N. auto.
      * intros o' L. cbn in L. rewrite PX in L. destruct (w_sent x W o' L) as [S1 S2]. unfold sent_all, sent_for in *. cbn. split.
        -- intros t' X. destruct (NEW _ _ X) as (_ & _ & Y). auto.
        -- intro X. destruct (Nat.eq_dec o' o) as [->|NO].
           ++ specialize (S1 t ATW). rewrite OUT in S1. cbn in S1. now rewrite app_nil_r in S1.
           ++ apply S2. intros t' Y. apply (X t'). rewrite OW; [exact Y|]. intros ->. rewrite ATW in Y. congruence.
      * intro t'. unfold outs. cbn. destruct (Nat.eq_dec t' t) as [->|N]; [auto|].
        destruct (w_out x W t') as [X|[(o' & X & Y)|[X Y]]]; auto.
        right; left. exists o'. rewrite OW by exact N. split; [exact X|]. rewrite RID; [exact Y|]. eapply wk_alive; eauto.
      * intros o' L. cbn in L. apply (w_new x W). lia.
      * cbn. rewrite PX. eapply Forall_impl; [|exact (w_sock x W)]. intros p X o' Y. destruct (X o' Y) as [Z1 Z2]. rewrite RID by exact Z1. auto.
      * exact (w_tr x W).
    + assert (AW : forall t', wk (tb m t') = wk (tb (y_man x) t')) by (intro t'; destruct (Nat.eq_dec t' t) as [->|N]; [exact PW|now apply OW]).
      assert (NX : next x <= s_next m).
      { destruct (step_effect begins _ _ _ _ H0); lia. }
      assert (SB : forall o, next x <= o -> sent_for (with_man m x1) o = []).
      { intros o L. assert (E : y_sent x1 = y_sent x) by (destruct H1; reflexivity). unfold sent_for. cbn. rewrite E. exact (w_new x W o L). }
      assert (OLDO : forall o, o < next x -> y_cfg x1 o = y_cfg x o /\ y_rq x1 o = y_rq x o).
      { intros o L. destruct H1 as [W1 _|w0 id0 m0 c Q1 Q2 Q3|w0 id0 o0 m0 q0 b st Q1 Q2 Q3 Q4 Q5 Q6|w0 m0 sk l r Q1 Q2 Q3 Q4]; cbn; auto.
        - rewrite !fupd_other by lia. auto.
        - exfalso. subst a. pose proof (take_goes _ _ _ _ _ _ _ _ Q2 Q3 Q4 Q5 H0) as X. rewrite X, Q4 in PW. discriminate. }
      assert (RETS : y_ret x1 = y_ret x).
      { destruct H1 as [W1 _|w0 id0 m0 c Q1 Q2 Q3|w0 id0 o0 m0 q0 b st Q1 Q2 Q3 Q4 Q5 Q6|w0 m0 sk l r Q1 Q2 Q3 Q4]; cbn; auto. exfalso. subst a. pose proof (take_goes _ _ _ _ _ _ _ _ Q2 Q3 Q4 Q5 H0) as X. rewrite X, Q4 in PW. discriminate. }
      assert (OUTS : forall t', y_out x1 t' = y_out x t' \/ (t' = t /\ wk (tb (y_man x) t) = None /\ tb m t = HRelock /\ Forall (fun p => p_req p = None) (y_out x1 t))).
      { intro t'. destruct H1 as [W1 _|w0 id0 m0 c Q1 Q2 Q3|w0 id0 o0 m0 q0 b st Q1 Q2 Q3 Q4 Q5 Q6|w0 m0 sk l r Q1 Q2 Q3 Q4]; cbn; auto.
        - exfalso. subst a. pose proof (take_goes _ _ _ _ _ _ _ _ Q2 Q3 Q4 Q5 H0) as X. rewrite X, Q4 in PW. discriminate.
        - destruct (Nat.eq_dec t' t) as [->|N]; [|left; now apply fupd_other]. right. subst a. rewrite fupd_same, Q4.
          split; [reflexivity|]. split; [reflexivity|]. split; [eapply local_goes; eauto|].
          apply Forall_forall. intros p X. apply in_map_iff in X. destruct X as (? & <- & _). reflexivity. }
      assert (ET : y_sent x1 = y_sent x /\ y_tr x1 = y_tr x) by (destruct H1; auto). destruct ET as [ES ET].
      constructor.
      * intros o L. cbn in L. destruct (Nat.lt_ge_cases o (next x)) as [LO|GE].
        -- destruct (OLDO o LO) as [C1 C2]. apply (ran_same x); try (cbn; congruence).
           ++ now apply w_run.
           ++ apply PT.
           ++ cbn. intro X. left. exact (PN _ X).
           ++ intros t'. cbn. rewrite AW, RETS. auto.
           ++ intros t'. cbn. rewrite AW, RETS. auto.
        -- assert (NEWX : exists w id mm c, wshape t (ARun w) x x1 /\ a = ARun w /\ o = next x /\ y_rq x1 o = rq_init u /\ tp (y_man x) t = Some (PFind id mm) /\ y_cfg x1 o = c).
           { pose proof (step_pmove _ _ _ _ R H0) as PM. destruct PM as [id mm PA P P' PL PX|P' PL PX|id mm P P' C PL PX|w id mm PA PS P P' C BG PL PX PO|id oo mm P P' AL PL PX]; try lia.
             subst a. assert (o = next x) as -> by lia. exists w, id, mm, (y_cfg x1 (next x)). split; [exact H1|]. split; [reflexivity|]. split; [reflexivity|].
             destruct H1 as [_ W2|w0 id0 m0 c0 Q1 Q2 Q3|w0 id0 o0 m0 q0 b st Q1 Q2 Q3 Q4 Q5 Q6|w0 m0 sk l r Q1 Q2 Q3 Q4]; try congruence.
             - specialize (W2 w id mm eq_refl PS P C). congruence.
             - cbn. rewrite fupd_same. auto. }
           destruct NEWX as (w & id & mm & c & _ & _ & -> & RI & _ & _).
           exists false. assert (HN : handled (with_man m x1) (next x) = []).
           { unfold handled. cbn. rewrite PT. pose proof (f_new _ x F (next x) (Nat.le_refl _)) as X. unfold given in X.
             rewrite (in_order begins _ R) in X. now apply app_eq_nil in X. }
           rewrite HN. cbn. rewrite RI. split; [reflexivity|]. split; [discriminate|]. split.
           ++ intros t' X. rewrite AW in X. apply (wk_alive _ _ _ I) in X. lia.
           ++ intro X. apply PN in X. apply EN in X. lia.
      * intros o L. cbn in L. destruct (Nat.lt_ge_cases o (next x)) as [LO|GE].
        -- destruct (OLDO o LO) as [C1 C2]. destruct (w_sent x W o LO) as [S1 S2].
           unfold sent_all, sent_for in *. cbn. rewrite C2, ES. split.
           ++ intros t' X. rewrite AW in X. destruct (OUTS t') as [->|(-> & Y & _)]; [auto|congruence].
           ++ intro X. apply S2. intro t'. rewrite <- AW. apply X.
        -- assert (RI : y_rq x1 o = rq_init u).
           { pose proof (step_pmove _ _ _ _ R H0) as PM. destruct PM as [id mm PA P P' PL PX|P' PL PX|id mm P P' C PL PX|w id mm PA PS P P' C BG PL PX PO|id oo mm P P' AL PL PX]; try lia.
             subst a. assert (o = next x) as -> by lia.
             destruct H1 as [_ W2|w0 id0 m0 c0 Q1 Q2 Q3|w0 id0 o0 m0 q0 b st Q1 Q2 Q3 Q4 Q5 Q6|w0 m0 sk l r Q1 Q2 Q3 Q4]; try congruence.
             - specialize (W2 w id mm eq_refl PS P C). congruence.
             - cbn. rewrite fupd_same. auto. }
           split; [intros t' X; cbn in X; rewrite AW in X; apply (wk_alive _ _ _ I) in X; lia|].
           intros _. rewrite SB by exact GE. cbn. now rewrite RI.
      * intro t'. unfold outs. cbn. destruct (OUTS t') as [->|(-> & Y1 & Y2 & Y3)]; [|auto].
        destruct (w_out x W t') as [X|[(o' & X & Y)|[X Y]]]; auto.
        -- right; left. exists o'. rewrite AW. split; [exact X|]. rewrite RID; [exact Y|]. eapply wk_alive; eauto.
        -- destruct (Nat.eq_dec t' t) as [->|N]; [|auto]. destruct (PR X) as [Z|((w & ->) & Z1 & Z2)]; [auto|]. left.
           unfold allowed, sig_at, push_at, base_of in H. rewrite Z1, Z2, X in H. destruct (y_out x t); [reflexivity|discriminate].
      * intros o' L. cbn in L. apply SB. lia.
      * cbn. rewrite ES. eapply Forall_impl; [|exact (w_sock x W)]. intros p X o' Y. destruct (X o' Y) as [Z1 Z2]. rewrite RID by exact Z1. split; [lia|auto].
      * cbn. rewrite ES, ET. exact (w_tr x W).
  - set (x' := mkSys _ _ _ _ _ _ _ _ _ _).
    assert (OUT : (exists o, at_work x t o /\ p_req p = Some o /\ p_sock p = r_socket (rid_of x o) /\
                     Forall (fun p => p_req p = Some o /\ p_sock p = r_socket (rid_of x o)) r) \/
                  (tb (y_man x) t = HRelock /\ p_req p = None /\ Forall (fun p => p_req p = None) r)).
    { destruct (w_out x W t) as [X|[(o & X & Y)|[X Y]]]; rewrite H2 in *; [discriminate| |]; inversion Y; subst; [left; exists o; intuition|right; auto]. }
    constructor.
    + intros o L. exact (w_run x W o L).
    + intros o L. destruct (w_sent x W o L) as [S1 S2]. unfold sent_all. rewrite (sent_for_add x x' p o eq_refl). cbn. split.
      * intros t' X. destruct (Nat.eq_dec t' t) as [->|N].
        -- rewrite fupd_same. destruct OUT as [(o' & O1 & O2 & _)|(O1 & _)]; [|rewrite O1 in X; discriminate].
           assert (o' = o) as -> by congruence. rewrite (proj2 (is_for_spec o p) O2), <- app_assoc.
           rewrite <- (S1 t X), H2. reflexivity.
        -- rewrite fupd_other by exact N. destruct (is_for o p) eqn:IF; [|rewrite app_nil_r; auto]. exfalso.
           apply is_for_spec in IF. destruct OUT as [(o' & O1 & O2 & _)|(O1 & O2 & _)]; [|congruence].
           assert (o' = o) as -> by congruence. apply N. eapply wk_one; [exact I|apply wk_req; exact X|apply wk_req; exact O1].
      * intro X. destruct (is_for o p) eqn:IF; [|rewrite app_nil_r; auto]. exfalso.
        apply is_for_spec in IF. destruct OUT as [(o' & O1 & O2 & _)|(O1 & O2 & _)]; [|congruence].
        assert (o' = o) as -> by congruence. exact (X t O1).
    + intro t'. unfold outs. cbn. destruct (Nat.eq_dec t' t) as [->|N].
      * rewrite fupd_same. destruct OUT as [(o' & O1 & _ & _ & O2)|(O1 & _ & O2)]; [right; left; eauto|auto].
      * rewrite fupd_other by exact N. exact (w_out x W t').
    + intros o L. cbn in L. rewrite (sent_for_add x x' p o eq_refl), (w_new x W o L). cbn. destruct (is_for o p) eqn:IF; [|reflexivity].
      exfalso. apply is_for_spec in IF. destruct OUT as [(o' & O1 & O2 & _)|(O1 & O2 & _)]; [|congruence].
      apply (wk_alive _ _ _ I) in O1. assert (o' = o) by congruence. subst; lia.
    + cbn. apply Forall_app. split; [exact (w_sock x W)|]. constructor; [|constructor]. intros o IF.
      destruct OUT as [(o' & O1 & O2 & O3 & _)|(O1 & O2 & _)]; [|congruence]. assert (o' = o) as -> by congruence.
      split; [eapply wk_alive; eauto|exact O3].
    + intro s. cbn. rewrite sends_one, (w_tr x W). cbn. rewrite filter_app, map_app. cbn. rewrite N.eqb_sym.
      destruct (s =? p_sock p)%N; reflexivity.
Qed.

Lemma work_reach : forall x, sreach x -> workI x.
Proof.
  intros x R. enough (flowI x /\ workI x) by tauto. revert x R.
  apply sreach_ind'.
  - split; [apply (flow_reach vts junk http_time k A maxPost u); exists []; reflexivity|].
    constructor; try (cbn; intros; lia); cbn; auto. intro t; left; reflexivity.
  - intros x x' PA [F W] S; split; [eapply flow_step; eauto|eapply work_step; eauto].
Qed.
End Work.
