(** Starting, stopping, joining, destroying: one thread. *)
From Coq Require Import List Bool Arith Lia.
From Verif Require Import Model.Lifecycle Model.Workers Spec.WorkersSpec.
Import ListNotations.

Lemma k_wake_same : forall k s s', k_wake k s = KOn s' ->
  k_stop s' = k_stop s /\ k_term s' = k_term s /\ k_work s' = k_work s /\ k_thread s' = k_thread s.
Proof. intros k s s' H. unfold k_wake in H. destruct k; [destruct (k_waking s)|..]; try discriminate; injection H as <-; auto. Qed.

Section Kind.
Variable k : kind.

Lemma k_run_app : forall l1 l2 s, k_run k (l1 ++ l2) s = match k_run k l1 s with KOn s' => k_run k l2 s' | r => r end.
Proof. induction l1 as [|a l1 IH]; intros; cbn; auto. destruct (k_step k a s); auto. Qed.

(** One step: which thread states it leads to. *)
Lemma k_thread_step : forall a s s', k_step k a s = KOn s' ->
  k_thread s' = match a with
                | KStart => launch (k_thread s)
                | KJoin => Vacant
                | KLeave => Ended
                | _ => k_thread s
                end.
Proof.
  intros a s s' H. destruct a; cbn in H; unfold k_wake in H.
  - destruct (k_thread s) eqn:E; cbn in H; injection H as <-; cbn; auto.
  - destruct k; [destruct (k_waking _)|..]; try discriminate; injection H as <-; auto.
  - destruct k; [destruct (k_waking _)|..]; try discriminate; injection H as <-; auto.
  - destruct (is_alive _); [discriminate|]. injection H as <-; auto.
  - destruct (joinable _); discriminate.
  - destruct k; [destruct (k_waking _)|destruct (k_stop s) as [p|]; [destruct (negb p && connected)|]|]; try discriminate;
      injection H as <-; auto.
  - destruct (is_alive _); [|discriminate]. destruct k; injection H as <-; auto.
  - destruct (is_alive _); [|discriminate]. injection H as <-; auto.
  - destruct (_ && _); [|discriminate]. injection H as <-; auto.
Qed.

Lemma snoc_split : forall (A : Type) (l : list A) x l1 y l2, l ++ [x] = l1 ++ y :: l2 ->
  (l2 = [] /\ l = l1 /\ x = y) \/ exists l2', l2 = l2' ++ [x] /\ l = l1 ++ y :: l2'.
Proof.
  intros A l x l1 y l2 H. destruct (exists_last (l := y :: l2)) as (m & z & E); [discriminate|].
  rewrite E, app_assoc in H. apply app_inj_tail in H as (-> & ->).
  destruct l2 as [|b l2].
  - left. destruct m; [|destruct m; discriminate]. injection E as ->. rewrite app_nil_r. auto.
  - right. destruct m as [|c m]; [discriminate|]. injection E as <- E. exists m. split; [auto|reflexivity].
Qed.

Lemma k_vacant_iff : forall l b s, k_run k l (k_init b) = KOn s ->
  (k_joined l -> k_thread s = Vacant) /\ (k_thread s = Vacant -> k_joined l).
Proof.
  induction l as [|a l IH] using rev_ind; intros b s H.
  - injection H as <-. split; [reflexivity|]. intros _ l1 l2 E. destruct l1; discriminate.
  - rewrite k_run_app in H. destruct (k_run k l (k_init b)) as [s1| | | |] eqn:E1; try discriminate.
    cbn in H. destruct (k_step k a s1) as [s2| | | |] eqn:E2; try discriminate. injection H as <-.
    destruct (IH b s1 E1) as (I1 & I2). pose proof (k_thread_step _ _ _ E2) as T.
    split.
    + intros J. destruct (match a with KStart => true | KJoin => true | _ => false end) eqn:KA.
      * destruct a; try discriminate; [|exact T].
        exfalso. specialize (J l [] eq_refl). destruct J.
      * assert (JL : k_joined l).
        { intros l1 l2 E. specialize (J l1 (l2 ++ [a])). rewrite E in J. rewrite <- app_assoc in J. specialize (J eq_refl).
          apply in_app_or in J as [J|[J|[]]]; [exact J|]. subst a. discriminate. }
        specialize (I1 JL). destruct a; try discriminate; rewrite T; try exact I1.
        exfalso. cbn in E2. rewrite I1 in E2. cbn in E2. rewrite andb_false_r in E2. discriminate.
    + intros V l1 l2 E. apply snoc_split in E as [(-> & -> & ->)|(l2' & -> & ->)].
      * exfalso. rewrite V in T. destruct (k_thread s1); discriminate.
      * apply in_or_app. destruct (match a with KJoin => true | _ => false end) eqn:KA.
        -- right. destruct a; try discriminate. now left.
        -- left.
           assert (V1 : k_thread s1 = Vacant).
           { rewrite V in T. destruct a; try discriminate; auto. destruct (k_thread s1); discriminate. }
           exact (I2 V1 l1 l2' eq_refl).
Qed.

Lemma k_destroy_exact : forall l b s, k_run k l (k_init b) = KOn s ->
  (k_joined l -> k_step k KDestroy s = KGone) /\ (~ k_joined l -> k_step k KDestroy s = KAbort).
Proof.
  intros l b s H. destruct (k_vacant_iff l b s H) as (I1 & I2). cbn. split.
  - intros J. rewrite (I1 J). reflexivity.
  - intros NJ. destruct (k_thread s) eqn:T; auto. exfalso. auto.
Qed.

(** Not ended unless left. *)
Lemma k_not_ended : forall l b s, k_run k l (k_init b) = KOn s -> k_not_left l -> k_thread s <> Ended.
Proof.
  induction l as [|a l IH] using rev_ind; intros b s H NL.
  - injection H as <-. discriminate.
  - rewrite k_run_app in H. destruct (k_run k l (k_init b)) as [s1| | | |] eqn:E1; try discriminate.
    cbn in H. destruct (k_step k a s1) as [s2| | | |] eqn:E2; try discriminate. injection H as <-.
    pose proof (k_thread_step _ _ _ E2) as T.
    destruct (match a with KLeave => true | KJoin => true | _ => false end) eqn:KA.
    + destruct a; try discriminate; [rewrite T; discriminate|]. specialize (NL l [] eq_refl). destruct NL.
    + assert (N1 : k_thread s1 <> Ended).
      { apply (IH b s1 E1). intros l1 l2 E. specialize (NL l1 (l2 ++ [a])). rewrite E, <- app_assoc in NL.
        specialize (NL eq_refl). apply in_app_or in NL as [NL|[NL|[]]]; [exact NL|]. subst a. discriminate. }
      rewrite T. destruct a; try discriminate; auto. destruct (k_thread s1); cbn; congruence.
Qed.

Lemma k_start_runs : forall l b s, k_run k l (k_init b) = KOn s -> k_not_left l ->
  exists s', k_step k KStart s = KOn s' /\ k_running s' /\ (k_running s -> s' = s).
Proof.
  intros l b s H NL. pose proof (k_not_ended l b s H NL) as NE. unfold k_running. cbn.
  destruct (k_thread s) eqn:T; cbn.
  - eexists. split; [reflexivity|]. split; [reflexivity|]. discriminate.
  - exists s. auto.
  - congruence.
Qed.

(** Flags of a running thread. *)

Lemma k_flags_step : forall a s s', k_step k a s = KOn s' -> k_running s -> k_running s' ->
  k_stop s' = (match a with KStop => Some true | _ => k_stop s end) /\
  k_term s' = (match a with KTerminate => Some true | _ => k_term s end).
Proof.
  intros a s s' H R R'. unfold k_running in *. destruct a; cbn in H.
  - rewrite R in H. injection H as <-. auto.
  - apply k_wake_same in H as (-> & -> & _). auto.
  - apply k_wake_same in H as (-> & -> & _). auto.
  - rewrite R in H. discriminate.
  - rewrite R in H. discriminate.
  - destruct k; [apply k_wake_same in H as (-> & -> & _); auto| |apply k_wake_same in H as (-> & -> & _); auto].
    destruct (k_stop s) as [p|] eqn:P; [destruct (negb p && connected)|]; try discriminate; injection H as <-; auto.
  - rewrite R in H. cbn in H. destruct k; injection H as <-; auto.
  - rewrite R in H. cbn in H. injection H as <-. auto.
  - destruct (_ && _); [|discriminate]. injection H as <-. discriminate.
Qed.

(** From a start on: while the thread runs, the flags tell what was called. *)
Definition kflag (b : bool) (o : option bool) : Prop := o = Some true \/ (b = false /\ o = Some false).
Lemma k_since : forall l s s', k_run k l s = KOn s' -> k_running s -> k_stop s = Some false -> k_term s = Some false ->
  ~ In KLeave l -> k_running s' /\
  (k_stop s' = Some true <-> In KStop l) /\ (k_term s' = Some true <-> In KTerminate l) /\
  (k_stop s' = Some true \/ k_stop s' = Some false) /\ (k_term s' = Some true \/ k_term s' = Some false).
Proof.
  induction l as [|a l IH] using rev_ind; intros s s' H R P T NL.
  - injection H as <-. rewrite P, T. split; [exact R|]. split; [split; [discriminate|intros []]|].
    split; [split; [discriminate|intros []]|]. auto.
  - rewrite k_run_app in H. destruct (k_run k l s) as [s1| | | |] eqn:E1; try discriminate.
    cbn in H. destruct (k_step k a s1) as [s2| | | |] eqn:E2; try discriminate. injection H as <-.
    destruct (IH s s1 E1 R P T) as (R1 & S1 & T1 & S2 & T2); [intros I; apply NL, in_or_app; now left|].
    assert (R2 : k_running s2).
    { unfold k_running. rewrite (k_thread_step _ _ _ E2). unfold k_running in R1.
      destruct a; try exact R1; [rewrite R1; reflexivity| |].
      - exfalso. cbn in E2. rewrite R1 in E2. discriminate.
      - exfalso. apply NL, in_or_app. right. now left. }
    destruct (k_flags_step _ _ _ E2 R1 R2) as (F1 & F2). rewrite F1, F2.
    split; [exact R2|]. rewrite !in_app_iff.
    destruct a; cbn [In]; (split; [|split; [|split]]); auto;
      try (rewrite S1; split; [auto|intros [X|[X|[]]]; [exact X|discriminate X]]);
      try (rewrite T1; split; [auto|intros [X|[X|[]]]; [exact X|discriminate X]]);
      try (split; [auto|reflexivity]).
Qed.

(** The thread leaves only when told, and after [stop] alone only when the
    work is done. *)
Lemma k_leaves : forall l b s s' l2 s2, k_run k l (k_init b) = KOn s -> k_thread s = Vacant ->
  k_run k (KStart :: l2) s = KOn s' -> ~ In KLeave l2 -> k_step k KLeave s' = KOn s2 ->
  In KTerminate l2 \/ (In KStop l2 /\ k_work s' = false).
Proof.
  intros l b s s' l2 s2 H V H2 NL L. cbn in H2. rewrite V in H2. cbn [joinable] in H2.
  destruct (k_since l2 _ s' H2) as (R & SI & TI & SO & TO); [reflexivity|reflexivity|reflexivity|exact NL|].
  cbn in L. destruct (k_due s' && _) eqn:D; [|discriminate]. apply andb_true_iff in D as (D & _).
  unfold k_due in D. destruct TO as [TO|TO]; rewrite TO in D.
  - left. now apply TI.
  - destruct SO as [SO|SO]; rewrite SO in D; cbn in D; [|discriminate].
    right. split; [now apply SI|]. destruct (k_work s'); [discriminate|reflexivity].
Qed.

Lemma k_join_waits : forall l b s l2 s', k_run k l (k_init b) = KOn s -> k_thread s = Vacant ->
  k_run k (KStart :: l2 ++ [KJoin]) s = KOn s' -> ~ In KJoin l2 -> In KTerminate l2 \/ In KStop l2.
Proof.
  intros l b s l2 s' H V H2 NJ.
  destruct (in_dec (fun x y : kact => ltac:(decide equality; apply bool_dec)) KLeave l2) as [IL|NL].
  - (* the first leave *)
    assert (exists a c, l2 = a ++ KLeave :: c /\ ~ In KLeave a) as (a & c & -> & NA).
    { clear - IL. induction l2 as [|x l2 IH]; [destruct IL|].
      destruct x; try (destruct IL as [IL|IL]; [discriminate|]; destruct (IH IL) as (a & c & -> & NA);
        eexists (_ :: a), c; split; [reflexivity|]; intros [X|X]; [discriminate|auto]).
      exists [], l2. split; [reflexivity|intros []]. }
    rewrite <- app_assoc in H2. rewrite app_comm_cons in H2. rewrite k_run_app in H2.
    destruct (k_run k (KStart :: a) s) as [s1| | | |] eqn:E1; try discriminate.
    cbn [app k_run] in H2. destruct (k_step k KLeave s1) as [s2| | | |] eqn:E2; try discriminate.
    destruct (k_leaves l b s s1 a s2 H V E1 NA E2) as [X|(X & _)]; [left|right]; apply in_or_app; now left.
  - exfalso. rewrite app_comm_cons, k_run_app in H2.
    destruct (k_run k (KStart :: l2) s) as [s1| | | |] eqn:E1; try discriminate.
    cbn [k_run] in E1. cbn [k_step] in E1. rewrite V in E1. cbn [joinable] in E1.
    destruct (k_since l2 _ s1 E1) as (R & _); [reflexivity|reflexivity|reflexivity|exact NL|].
    cbn in H2. rewrite R in H2. discriminate.
Qed.

(** [stop] does not get lost on a running thread, whatever is called. *)
Lemma k_stop_kept : forall l b s l2 s', k_run k l (k_init b) = KOn s -> k_thread s = Vacant ->
  k_run k (KStart :: l2) s = KOn s' -> ~ In KLeave l2 -> In KStop l2 -> k_work s' = false ->
  exists s2, k_step k KLeave s' = KOn s2.
Proof.
  intros l b s l2 s' H V H2 NL IS W. cbn in H2. rewrite V in H2. cbn [joinable] in H2.
  destruct (k_since l2 _ s' H2) as (R & SI & TI & SO & TO); [reflexivity|reflexivity|reflexivity|exact NL|].
  cbn. unfold k_due. rewrite (proj2 SI IS), R, W. destruct TO as [-> | ->]; cbn; eauto.
Qed.

(** Nor does [terminate], and it waits for no work. *)
Lemma k_terminate_kept : forall l b s l2 s', k_run k l (k_init b) = KOn s -> k_thread s = Vacant ->
  k_run k (KStart :: l2) s = KOn s' -> ~ In KLeave l2 -> In KTerminate l2 ->
  exists s2, k_step k KLeave s' = KOn s2.
Proof.
  intros l b s l2 s' H V H2 NL IS. cbn in H2. rewrite V in H2. cbn [joinable] in H2.
  destruct (k_since l2 _ s' H2) as (R & SI & TI & SO & TO); [reflexivity|reflexivity|reflexivity|exact NL|].
  cbn. unfold k_due. rewrite (proj2 TI IS), R. destruct SO as [-> | ->]; cbn; eauto.
Qed.

(** Before the first start. *)
Lemma k_early : forall l a b s, k_run k l (k_init b) = KOn s -> ~ In KStart l -> early_ok k b a = true ->
  k_step k a s <> KUndef /\ k_step k a s <> KBlocked.
Proof.
  intros l a b s H NS EO.
  assert (I : k_thread s = Vacant /\ (b = true -> k_stop s <> None /\ k_term s <> None /\ k_waking s <> None)).
  { clear a EO. revert s H. induction l as [|x l IH] using rev_ind; intros s H.
    - injection H as <-. split; [reflexivity|]. intros ->. repeat split; discriminate.
    - rewrite k_run_app in H. destruct (k_run k l (k_init b)) as [s1| | | |] eqn:E1; try discriminate.
      cbn in H. destruct (k_step k x s1) as [s2| | | |] eqn:E2; try discriminate. injection H as <-.
      destruct (IH (fun i => NS (in_or_app _ _ _ (or_introl i))) s1 eq_refl) as (V & F).
      pose proof (k_thread_step _ _ _ E2) as T. 
      assert (NX : x <> KStart) by (intros ->; apply NS, in_or_app; right; now left).
      split; [rewrite T; destruct x; auto; [congruence|]|].
      + cbn in E2. rewrite V in E2. cbn in E2. rewrite andb_false_r in E2. discriminate.
      + intros B. destruct (F B) as (F1 & F2 & F3). destruct x; cbn in E2; unfold k_wake in E2.
        * congruence.
        * destruct k; [destruct (k_waking _) eqn:W|..]; try discriminate; injection E2 as <-; cbn in *; repeat split; congruence.
        * destruct k; [destruct (k_waking _) eqn:W|..]; try discriminate; injection E2 as <-; cbn in *; repeat split; congruence.
        * rewrite V in E2. injection E2 as <-. auto.
        * rewrite V in E2. discriminate.
        * destruct k; [destruct (k_waking _) eqn:W|destruct (k_stop s1) as [p|] eqn:P; [destruct (negb p && connected)|]|]; try discriminate;
            injection E2 as <-; cbn in *; repeat split; congruence.
        * rewrite V in E2. discriminate.
        * rewrite V in E2. discriminate.
        * rewrite V in E2. cbn in E2. rewrite andb_false_r in E2. discriminate. }
  destruct I as (V & F).
  destruct a; cbn in *; unfold k_wake; rewrite ?V; cbn; try (split; discriminate); try discriminate.
  - destruct b; cbn in EO.
    + destruct (F eq_refl) as (F1 & F2 & F3). destruct k; [destruct (k_waking s); [|congruence]|..]; split; discriminate.
    + destruct k; [discriminate|..]; split; discriminate.
  - destruct b; cbn in EO.
    + destruct (F eq_refl) as (F1 & F2 & F3). destruct k; [destruct (k_waking s); [|congruence]|..]; split; discriminate.
    + destruct k; [discriminate|..]; split; discriminate.
  - destruct b; cbn in EO.
    + destruct (F eq_refl) as (F1 & F2 & F3). cbn. destruct k; [destruct (k_waking s); [|congruence]|destruct (k_stop s) as [p|]; [destruct (negb p && connected)|congruence]|]; split; discriminate.
    + destruct k; [discriminate|discriminate|]; split; discriminate.
Qed.

(** ** Where it goes wrong *)
Lemma k_forgotten : forall l s', k_run k ([KStop; KStart] ++ l) (k_init true) = KOn s' ->
  ~ In KStop l -> ~ In KTerminate l -> k_running s'.
Proof.
  intros l s' H NS NT.
  assert (exists s0, k_run k [KStop; KStart] (k_init true) = KOn s0 /\ k_running s0 /\ k_stop s0 = Some false /\ k_term s0 = Some false)
    as (s0 & E0 & R & P & T) by (destruct k; eexists; repeat split).
  rewrite k_run_app, E0 in H. clear E0.
  revert s0 R P T H. induction l as [|a l IH]; intros s0 R P T H; [injection H as <-; exact R|].
  cbn in H. destruct (k_step k a s0) as [s1| | | |] eqn:E; try discriminate.
  assert (R1 : k_running s1).
  { unfold k_running in *. rewrite (k_thread_step _ _ _ E). destruct a; try exact R; [rewrite R; reflexivity| |].
    - cbn in E. rewrite R in E. discriminate.
    - cbn in E. unfold k_due in E. rewrite P, T in E. discriminate. }
  destruct (k_flags_step _ _ _ E R R1) as (F1 & F2).
  apply (IH (fun i => NS (or_intror i)) (fun i => NT (or_intror i)) s1 R1); auto.
  - rewrite F1. destruct a; auto. exfalso. apply NS. now left.
  - rewrite F2. destruct a; auto. exfalso. apply NT. now left.
Qed.

(** Started again without a join: no thread, whatever is called besides. *)
Lemma k_unjoined : forall b, exists s, k_run k [KStart; KStop; KLeave; KStart] (k_init b) = KOn s /\
  forall l s', k_run k l s = KOn s' -> ~ In KJoin l -> k_thread s' = Ended.
Proof.
  intros b.
  assert (exists s, k_run k [KStart; KStop; KLeave; KStart] (k_init b) = KOn s /\ k_thread s = Ended) as (s & E & T)
    by (destruct k, b; eexists; split; reflexivity).
  exists s. split; [exact E|]. clear E. intros l. revert s T. induction l as [|a l IH]; intros s T s' H NJ.
  - injection H as <-. exact T.
  - cbn in H. destruct (k_step k a s) as [s1| | | |] eqn:ES; try discriminate.
    apply (IH s1) with (s' := s'); [|exact H|intros I; apply NJ; now right].
    rewrite (k_thread_step _ _ _ ES). destruct a; auto; [rewrite T; reflexivity|]. exfalso. apply NJ. now left.
Qed.

(** Something queued when the thread has left (not with SQL connections, that
    refuse it): taken, and never done. *)
Lemma k_late : k <> KConnection -> forall b, exists s,
  k_run k [KStart; KStop; KLeave; KQueue true] (k_init b) = KOn s /\ k_work s = true /\
  forall l s', k_run k l s = KOn s' -> ~ In KJoin l -> k_work s' = true /\ k_thread s' = Ended.
Proof.
  intros NK b.
  assert (exists s, k_run k [KStart; KStop; KLeave; KQueue true] (k_init b) = KOn s /\ k_work s = true /\ k_thread s = Ended)
    as (s & E & W & T) by (destruct k, b; try congruence; eexists; repeat split).
  exists s. split; [exact E|]. split; [exact W|]. clear E. intros l. revert s W T.
  induction l as [|a l IH]; intros s W T s' H NJ.
  - injection H as <-. auto.
  - cbn in H. destruct (k_step k a s) as [s1| | | |] eqn:ES; try discriminate.
    assert (T1 : k_thread s1 = Ended).
    { rewrite (k_thread_step _ _ _ ES). destruct a; auto; [rewrite T; reflexivity|]. exfalso. apply NJ. now left. }
    assert (W1 : k_work s1 = true).
    { destruct a; cbn in ES; rewrite ?T in ES; cbn in ES; try discriminate.
      - injection ES as <-. exact W.
      - apply k_wake_same in ES as (_ & _ & -> & _). exact W.
      - apply k_wake_same in ES as (_ & _ & -> & _). exact W.
      - exfalso. apply NJ. now left.
      - destruct k; [apply k_wake_same in ES as (_ & _ & -> & _); reflexivity|congruence|
          apply k_wake_same in ES as (_ & _ & -> & _); reflexivity].
      - rewrite andb_false_r in ES. discriminate. }
    apply (IH s1) with (s' := s'); auto. intros I; apply NJ; now right.
Qed.
End Kind.

(** Terminated: what was queued is gone with the object. *)
Lemma k_terminated_work : forall k, exists s,
  k_run k [KStart; KQueue true; KTerminate; KLeave; KJoin] (k_init true) = KOn s /\ k_work s = true /\
  k_step k KDestroy s = KGone.
Proof. intros []; eexists; repeat split. Qed.
