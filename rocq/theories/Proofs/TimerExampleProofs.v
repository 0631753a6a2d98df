(** The stopwatch of the timer example. *)
From Coq Require Import String List NArith ZArith Bool Lia ZifyBool Permutation Sorted.
From Verif Require Import Model.Base Model.TimerExample Spec.TimerExampleSpec.
Import ListNotations.
Local Open Scope Z_scope.

Section Watch.
Context {A : Type}.
Implicit Types (s : watch A) (q : list (Z * A)) (i j : Z * A) (l : list (wevent A)).

Lemma pushed_app : forall l l', pushed (l ++ l') = pushed l ++ pushed l'.
Proof. intros. apply flat_map_app. Qed.
Lemma called_app : forall l l', called (l ++ l') = called l ++ called l'.
Proof. intros. apply flat_map_app. Qed.

Definition sorted q : Prop := StronglySorted (fun i j => fst i < fst j) q.

Lemma insert_in : forall i q j, In j (insert i q) -> j = i \/ In j q.
Proof.
  induction q as [|h q IH]; cbn [insert]; intros j; [cbn; intuition|].
  destruct (fst i <? fst h); [cbn; intuition|]. destruct (fst i =? fst h); [auto|].
  intros [<-|X]; [cbn; auto|]. apply IH in X. cbn. intuition.
Qed.
Lemma insert_old : forall i q j, In j q -> In j (insert i q).
Proof.
  induction q as [|h q IH]; cbn [insert]; intros j I; [destruct I|].
  destruct (fst i <? fst h); [now right|]. destruct (fst i =? fst h); [auto|].
  destruct I as [<-|I]; [now left|]. right. auto.
Qed.
Lemma insert_time : forall i q, exists j, In j (insert i q) /\ fst j = fst i.
Proof.
  induction q as [|h q IH]; cbn [insert]; [exists i; cbn; auto|].
  destruct (fst i <? fst h); [exists i; cbn; auto|]. destruct (Z.eqb_spec (fst i) (fst h)); [exists h; cbn; auto|].
  destruct IH as (j & I & E). exists j. split; auto. now right.
Qed.
Lemma insert_sorted : forall i q, sorted q -> sorted (insert i q).
Proof.
  unfold sorted. induction q as [|h q IH]; cbn [insert]; intros H; [repeat constructor|].
  inversion H as [|? ? H1 H2]; subst. rewrite Forall_forall in H2.
  destruct (Z.ltb_spec (fst i) (fst h)).
  - constructor; [exact H|]. constructor; [auto|]. apply Forall_forall. intros j J. specialize (H2 j J). lia.
  - destruct (Z.eqb_spec (fst i) (fst h)); [exact H|]. constructor; [auto|].
    apply Forall_forall. intros j J. apply insert_in in J as [->|J]; [lia|auto].
Qed.
Lemma insert_perm : forall i q, ~ In (fst i) (map fst q) -> Permutation (i :: q) (insert i q).
Proof.
  induction q as [|h q IH]; cbn [insert map In]; intros H; [auto|].
  destruct (Z.ltb_spec (fst i) (fst h)); [auto|]. destruct (Z.eqb_spec (fst i) (fst h)); [intuition congruence|].
  rewrite perm_swap. constructor. apply IH. tauto.
Qed.

Ltac wcbn := cbn [w_queue w_kill w_pc w_stop w_now w_log goes].

(** ** What holds of every run *)
Definition inv s : Prop :=
  sorted (w_queue s) /\ (forall i, In i (w_queue s) -> In i (pushed (w_log s))) /\
  (w_pc s = WWait -> w_queue s = []) /\
  (forall t, w_pc s = WUntil t -> exists i q, w_queue s = i :: q /\ fst i = t) /\
  (w_kill s = true -> w_pc s <> WWait /\ forall t, w_pc s <> WUntil t) /\
  (forall la i lb, w_log s = la ++ Pushed i :: lb -> ~ In (fst i) (map fst (called lb)) ->
     exists j, In j (w_queue s) /\ fst j = fst i) /\
  (NoDup (map fst (pushed (w_log s))) -> Permutation (pushed (w_log s)) (called (w_log s) ++ w_queue s)) /\
  (forall l1 t i l2, w_log s = l1 ++ Called t i :: l2 ->
     fst i <= t <= w_now s /\ In i (pushed l1) /\
     forall la j lb, l1 = la ++ Pushed j :: lb -> ~ In (fst j) (map fst (called lb)) -> fst i <= fst j).

Lemma last_split : forall {X} (l1 l2 l : list X) x y, l1 ++ x :: l2 = l ++ [y] ->
  (l1 = l /\ x = y /\ l2 = []) \/ exists (l3 : list X), l2 = l3 ++ [y] /\ l = l1 ++ x :: l3.
Proof.
  intros X l1 l2 l x y E. destruct l2 as [|z l2] using rev_ind.
  - apply app_inj_tail in E as (-> & ->). auto.
  - rewrite app_comm_cons, app_assoc in E. apply app_inj_tail in E as (<- & ->). right. eauto.
Qed.

Lemma NoDup_left : forall {X} (a b : list X), NoDup (a ++ b) -> NoDup a.
Proof. induction a; cbn; intros b H; [constructor|]. inversion H; subst. rewrite in_app_iff in *. constructor; eauto. Qed.
Lemma NoDup_last : forall {X} (a : list X) x, NoDup (a ++ [x]) -> ~ In x a.
Proof.
  induction a as [|y a IH]; cbn; intros x H; [tauto|]. inversion H; subst. rewrite in_app_iff in *. cbn in *.
  intros [->|I]; [tauto|]. now apply (IH x).
Qed.

Lemma turn_inv : forall s, inv s -> inv (turn s).
Proof.
  intros s (I1 & I2 & I3 & I4 & I5 & I6 & I7 & I8). unfold turn.
  assert (TOP : forall pc, (pc = WTop \/ pc = WEnd) -> inv (goes pc s)).
  { intros pc PC. unfold inv, goes. wcbn. repeat (split; [assumption|]).
    split; [destruct PC; subst; discriminate|]. split; [destruct PC; subst; discriminate|].
    split; [destruct PC; subst; split; discriminate|]. auto. }
  destruct (w_pc s) eqn:PC; auto.
  - (* WNone *) unfold inv. rewrite PC. repeat (split; [assumption|]). assumption.
  - destruct (w_kill s) eqn:K; auto. destruct (w_queue s) as [|i q] eqn:Q.
    + unfold inv, goes. wcbn. rewrite Q. split; [assumption|]. split; [assumption|]. split; [auto|].
      split; [discriminate|]. rewrite K. split; [discriminate|]. auto.
    + destruct (Z.leb_spec (fst i) (w_now s)) as [L|L].
      2:{ unfold inv, goes. wcbn. rewrite Q. split; [assumption|]. split; [assumption|]. split; [discriminate|].
          split; [intros t [= <-]; eauto|]. rewrite K. split; [discriminate|]. auto. }
      unfold inv. wcbn. rewrite pushed_app, called_app. cbn [pushed called flat_map app]. rewrite app_nil_r.
      inversion I1 as [|? ? S1 S2]; subst. rewrite Forall_forall in S2.
      split; [exact S1|]. split; [intros j J; apply I2; now right|]. split; [discriminate|]. split; [discriminate|].
      split; [split; discriminate|].
      split.
      { intros la j lb E N. symmetry in E. apply last_split in E as [(_ & E & _)|(lb' & -> & E)]; [discriminate|].
        rewrite called_app, map_app, in_app_iff in N. cbn in N.
        destruct (I6 la j lb' E) as (x & X & X'); [tauto|]. destruct X as [<-|X]; [exfalso; apply N; auto|]. eauto. }
      split.
      { intros ND. rewrite <- app_assoc. auto. }
      intros l1 t j l2 E. symmetry in E. apply last_split in E as [(-> & E & ->)|(l2' & -> & E)].
      * injection E as -> ->. split; [lia|]. split; [apply I2; now left|].
        intros la x lb EL N. destruct (I6 la x lb EL N) as (y & Y & Y'). destruct Y as [<-|Y]; [lia|].
        specialize (S2 y Y). lia.
      * eauto.
  - (* WEnd *) unfold inv. rewrite PC. repeat (split; [assumption|]). assumption.
Qed.

Lemma wact_inv : forall a s, inv s -> inv (wact a s).
Proof.
  intros a s I. pose proof I as (I1 & I2 & I3 & I4 & I5 & I6 & I7 & I8). destruct a as [d|i| | | |]; cbn [wact].
  - unfold inv. wcbn. repeat (split; [assumption|]). intros l1 t i l2 E. destruct (I8 l1 t i l2 E) as (? & ? & ?).
    split; [lia|auto].
  - unfold inv. wcbn. rewrite pushed_app, called_app. cbn [pushed called flat_map app]. rewrite app_nil_r.
    assert (N1 : notify (w_pc s) <> WWait) by (destruct (w_pc s); discriminate).
    assert (N2 : forall t, notify (w_pc s) <> WUntil t) by (destruct (w_pc s); discriminate).
    split; [now apply insert_sorted|].
    split; [intros j J; apply in_app_iff; apply insert_in in J as [->|J]; cbn; auto|].
    split; [intros X; contradiction|]. split; [intros t X; destruct (N2 t X)|]. split; [auto|].
    split.
    { intros la j lb E N. symmetry in E. apply last_split in E as [(_ & E & _)|(lb' & -> & E)].
      - injection E as ->. apply insert_time.
      - rewrite called_app, map_app, in_app_iff in N. cbn in N. destruct (I6 la j lb' E) as (x & X & X'); [tauto|].
        exists x. split; auto. now apply insert_old. }
    split.
    { intros ND. rewrite map_app in ND. specialize (I7 (NoDup_left _ _ ND)).
      rewrite <- insert_perm.
      - etransitivity; [apply Permutation_sym, Permutation_cons_append|]. rewrite I7. apply Permutation_middle.
      - intros X. apply (NoDup_last _ _ ND). apply in_map_iff in X as (j & EJ & J). rewrite <- EJ. apply in_map. auto. }
    intros l1 t j l2 E. symmetry in E. apply last_split in E as [(_ & E & _)|(l2' & -> & E)]; [discriminate|]. eauto.
  - destruct (w_pc s) eqn:PC; try exact I. unfold inv. wcbn. repeat (split; [solve [assumption|discriminate]|]). assumption.
  - destruct (w_pc s) eqn:PC; try exact I; unfold inv; wcbn.
    all: split; [assumption|]; split; [assumption|]; split; [discriminate|]; split; [discriminate|].
    all: split; [split; discriminate|]; auto.
  - destruct (w_pc s) eqn:PC; try exact I. destruct (w_stop s); try exact I. unfold inv. wcbn.
    split; [assumption|]; split; [assumption|]; split; [discriminate|]; split; [discriminate|].
    split; [split; discriminate|]; auto.
  - now apply turn_inv.
Qed.

Lemma wrun_app : forall a b s, wrun (a ++ b) s = wrun b (wrun a s).
Proof. intros. apply fold_left_app. Qed.
Lemma wrun_inv : forall (acts : list (waction A)) s, inv s -> inv (wrun acts s).
Proof. induction acts as [|a acts IH]; cbn; intros s H; [exact H|]. apply IH, wact_inv, H. Qed.
Lemma init_inv : forall t, inv (watch_init t).
Proof.
  intros t. unfold inv, watch_init. cbn. split; [constructor|]. split; [tauto|]. split; [auto|]. split; [discriminate|].
  split; [discriminate|]. split; [intros [] ? ? E; discriminate|]. split; [auto|]. intros [] ? ? ? E; discriminate.
Qed.
Lemma reached : forall t (acts : list (waction A)), inv (wrun acts (watch_init t)).
Proof. intros. apply wrun_inv, init_inv. Qed.

Lemma once : forall t (acts : list (waction A)), let s := wrun acts (watch_init t) in NoDup (map fst (pushed (w_log s))) ->
  Permutation (pushed (w_log s)) (called (w_log s) ++ w_queue s).
Proof. intros t acts s. apply (reached t acts). Qed.

Lemma due : forall t (acts : list (waction A)) l1 n i l2, w_log (wrun acts (watch_init t)) = l1 ++ Called n i :: l2 ->
  fst i <= n /\ In i (pushed l1) /\
  forall la j lb, l1 = la ++ Pushed j :: lb -> ~ In (fst j) (map fst (called lb)) -> fst i <= fst j.
Proof.
  intros t acts l1 n i l2 E. destruct (reached t acts) as (_ & _ & _ & _ & _ & _ & _ & I).
  destruct (I _ _ _ _ E) as (? & ? & ?). split; [lia|auto].
Qed.

Lemma awake : forall t (acts : list (waction A)), let s := wrun acts (watch_init t) in
  (w_pc s = WWait -> w_queue s = [] /\ w_kill s = false) /\
  (forall w, w_pc s = WUntil w -> (exists i q, w_queue s = i :: q /\ fst i = w) /\ w_kill s = false).
Proof.
  intros t acts s. destruct (reached t acts) as (_ & _ & I3 & I4 & I5 & _). fold s in I3, I4, I5.
  split; [intros E|intros w E]; (split; [auto|]); destruct (w_kill s); auto; destruct (I5 eq_refl) as (X & Y); exfalso; eauto.
  eapply Y; eauto.
Qed.

(** ** Progress *)
Lemma log_grows : forall a s i, In i (called (w_log s)) -> In i (called (w_log (wact a s))).
Proof.
  intros a s i H. destruct a; cbn [wact]; try exact H.
  - wcbn. rewrite called_app. apply in_app_iff. auto.
  - destruct (w_pc s); exact H.
  - destruct (w_pc s); exact H.
  - destruct (w_pc s); try exact H. destruct (w_stop s); exact H.
  - unfold turn. destruct (w_pc s); try exact H. destruct (w_kill s); [exact H|].
    destruct (w_queue s); [exact H|]. destruct (_ <=? _); [|exact H]. wcbn. rewrite called_app. apply in_app_iff. auto.
Qed.
Lemma logs_grow : forall acts s i, In i (called (w_log s)) -> In i (called (w_log (wrun acts s))).
Proof. induction acts; cbn; intros; auto. apply IHacts, log_grows, H. Qed.

Definition late s : nat := match w_pc s with WTop => 0 | _ => 1 end.

Lemma before_insert : forall i q w, (before w (insert i q) <= before w q + (if (fst i <? w)%Z then 1 else 0))%nat.
Proof.
  unfold before. induction q as [|h q IH]; cbn [insert filter]; intros w.
  - destruct (fst i <? w); cbn; lia.
  - specialize (IH w). destruct (fst i <? fst h); [cbn [filter]; destruct (fst i <? w), (fst h <? w); cbn [length]; lia|].
    destruct (fst i =? fst h); cbn [filter]; destruct (fst h <? w); cbn [length]; lia.
Qed.

Lemma progress : forall acts s i, inv s -> running s -> w_kill s = false -> ~ In AStop acts ->
  In i (w_queue s) -> fst i <= w_now s ->
  (late s + before (fst i) (w_queue s) + before (fst i) (pushes acts) + 1 <= turns acts)%nat ->
  In i (called (w_log (wrun acts s))).
Proof.
  induction acts as [|a acts IH]; intros s i I R K NS Q L T.
  { unfold turns in T. cbn in T. lia. }
  pose proof (wact_inv a s I) as I'. cbn [wrun fold_left]. fold (wrun acts (wact a s)).
  assert (NS' : ~ In AStop acts) by (intros X; apply NS; now right).
  destruct a as [d|j| | | |]; cbn [wact] in *.
  - apply IH; auto. cbn. lia.
  - apply IH; auto.
    + destruct R. split; cbn; destruct (w_pc s); try discriminate; contradiction.
    + cbn. now apply insert_old.
    + cbn [pushes flat_map app turns filter length] in T. unfold turns in *. cbn [filter] in T.
      fold (@pushes A acts) in T. unfold before at 2 in T. cbn [filter] in T.
      pose proof (before_insert j (w_queue s) (fst i)).
      assert (LL : (late (mkWatch (insert j (w_queue s)) (w_kill s) (notify (w_pc s)) (w_stop s) (w_now s) (w_log s ++ [Pushed j])) <= late s)%nat)
        by (unfold late; cbn; destruct (w_pc s); cbn; lia).
      cbn [w_queue]. fold (before (fst i) (pushes acts)) in T. destruct (fst j <? fst i); cbn [length] in T;
      fold (before (fst i) (pushes acts)) in T; lia.
  - destruct R as (R1 & R2). destruct (w_pc s) eqn:PC; try contradiction; apply IH; auto; split; rewrite PC; auto.
  - exfalso. apply NS. now left.
  - destruct R as (R1 & R2). destruct (w_pc s) eqn:PC; try contradiction; apply IH; auto; split; rewrite PC; auto.
  - destruct R as (R1 & R2). unfold turns in T. cbn [filter pushes flat_map app length] in T. fold (@pushes A acts) in T.
    fold (turns acts) in T. unfold turn in *. unfold late in T.
    destruct (w_pc s) eqn:PC; try contradiction.
    + rewrite K in *. destruct (w_queue s) as [|h q] eqn:EQ; [destruct Q|].
      pose proof I as (S & _). rewrite EQ in S. inversion S as [|? ? S1 S2]; subst. rewrite Forall_forall in S2.
      assert (HL : fst h <= fst i) by (destruct Q as [<-|Q]; [lia|specialize (S2 i Q); lia]).
      destruct (Z.leb_spec (fst h) (w_now s)); [|lia].
      destruct Q as [<-|Q].
      { apply logs_grow. wcbn. rewrite called_app. apply in_app_iff. cbn. auto. }
      specialize (S2 i Q). apply IH; auto; try (split; discriminate).
      cbn [w_queue late w_pc]. unfold before at 1 in T. cbn [filter] in T.
      destruct (Z.ltb_spec (fst h) (fst i)); [|lia]. cbn [length] in T. fold (before (fst i) q) in T. lia.
    + apply IH; auto; [split; discriminate|]. cbn [late goes w_pc w_queue]. lia.
    + apply IH; auto; [split; discriminate|]. cbn [late goes w_pc w_queue]. lia.
Qed.

Lemma live : forall t (acts0 acts : list (waction A)) i, let s := wrun acts0 (watch_init t) in
  running s -> w_kill s = false -> ~ In AStop acts -> In i (w_queue s) -> fst i <= w_now s ->
  (2 + before (fst i) (w_queue s) + before (fst i) (pushes acts) <= turns acts)%nat ->
  In i (called (w_log (wrun acts s))).
Proof.
  intros t acts0 acts i s R K NS Q L T. apply progress; auto; [apply reached|].
  assert (late s <= 1)%nat by (unfold late; destruct (w_pc s); lia). lia.
Qed.

(** ** Stopping *)
Lemma stopped_run : forall (acts : list (waction A)) s, ~ In AStart acts -> w_pc s = WNone \/ w_kill s = true ->
  (w_kill s = true -> w_pc s <> WWait /\ forall t, w_pc s <> WUntil t) ->
  called (w_log (wrun acts s)) = called (w_log s) /\
  (forall i, In i (w_queue s) -> In i (w_queue (wrun acts s))) /\
  (w_pc s = WNone \/ w_pc s = WEnd \/ In ATurn acts -> ~ running (wrun acts s)).
Proof.
  induction acts as [|a acts IH]; intros s NS D W.
  { cbn. split; [auto|]. split; [auto|]. intros X (R1 & R2). intuition. }
  cbn [wrun fold_left]. fold (wrun acts (wact a s)).
  assert (NS' : ~ In AStart acts) by (intros X; apply NS; now right).
  assert (GO : forall s', wact a s = s' -> called (w_log s') = called (w_log s) ->
    (forall i, In i (w_queue s) -> In i (w_queue s')) -> w_pc s' = WNone \/ w_kill s' = true ->
    (w_kill s' = true -> w_pc s' <> WWait /\ forall t, w_pc s' <> WUntil t) ->
    (w_pc s = WNone \/ w_pc s = WEnd \/ a = ATurn -> w_pc s' = WNone \/ w_pc s' = WEnd) ->
    called (w_log (wrun acts (wact a s))) = called (w_log s) /\
    (forall i, In i (w_queue s) -> In i (w_queue (wrun acts (wact a s)))) /\
    (w_pc s = WNone \/ w_pc s = WEnd \/ In ATurn (a :: acts) -> ~ running (wrun acts (wact a s)))).
  { intros s' -> H1 H2 H3 H4 H5. destruct (IH s' NS' H3 H4) as (G1 & G2 & G3).
    split; [congruence|]. split; [auto|]. intros X. apply G3. cbn in X. intuition. }
  destruct a as [d|j| | | |].
  - eapply GO; [reflexivity|..]; cbn; auto. intuition discriminate.
  - eapply GO; [reflexivity|..]; cbn [wact]; wcbn.
    + rewrite called_app. cbn. now rewrite app_nil_r.
    + intros. now apply insert_old.
    + destruct D as [->|D]; auto.
    + intros _. destruct (w_pc s); split; discriminate.
    + intros [->|[->|X]]; [left|right|discriminate]; reflexivity.
  - exfalso. apply NS. now left.
  - destruct (w_pc s) eqn:PC.
    all: apply (GO _ eq_refl); cbn [wact]; rewrite ?PC; wcbn; rewrite ?PC; auto.
    all: try (intros; split; discriminate).
    all: try (intros [X|[X|X]]; discriminate).
    all: cbn [notify]; auto.
  - destruct (w_pc s) eqn:PC.
    all: apply (GO _ eq_refl); cbn [wact]; rewrite ?PC; try destruct (w_stop s); wcbn; rewrite ?PC; auto.
    all: try (intros; split; discriminate).
    all: try (intros [X|[X|X]]; discriminate).
  - assert (PP : w_pc s = WNone \/ w_pc s = WEnd \/ (w_pc s = WTop /\ w_kill s = true)).
    { destruct D as [->|D]; [auto|]. destruct (W D) as (W1 & W2). destruct (w_pc s) eqn:PC; auto; [contradiction|].
      exfalso. eapply W2; reflexivity. }
    eapply GO; [reflexivity|..]; cbn; unfold turn; destruct PP as [P|[P|(P & P')]]; rewrite ?P, ?P' in *; cbn; rewrite ?P; auto.
    all: try (intros; split; discriminate); try (intuition discriminate).
Qed.

Lemma stops : forall (acts : list (waction A)) s, running s -> ~ In AStart acts -> let s' := wrun acts (wact AStop s) in
  called (w_log s') = called (w_log s) /\ (forall i, In i (w_queue s) -> In i (w_queue s')) /\
  (In ATurn acts -> ~ running s').
Proof.
  intros acts s (R1 & R2) NS s'. subst s'. cbn [wact].
  assert (E : wact AStop s = mkWatch (w_queue s) true (notify (w_pc s)) true (w_now s) (w_log s))
    by (cbn; destruct (w_pc s); auto; contradiction).
  cbn [wact] in E. rewrite E.
  destruct (stopped_run acts (mkWatch (w_queue s) true (notify (w_pc s)) true (w_now s) (w_log s))) as (G1 & G2 & G3); auto.
  { cbn. intros _. destruct (w_pc s); split; discriminate. }
  split; [exact G1|]. split; [exact G2|]. intros X. apply G3. auto.
Qed.

(** ** Items that are dropped *)
Lemma missing : forall acts s i, ~ In i (w_queue s) -> ~ In (APush i) acts -> ~ In i (called (w_log s)) ->
  ~ In i (called (w_log (wrun acts s))).
Proof.
  induction acts as [|a acts IH]; intros s i Q P C; [exact C|].
  cbn [wrun fold_left]. fold (wrun acts (wact a s)). 
  assert (P' : ~ In (APush i) acts) by (intros X; apply P; now right).
  destruct a as [d|j| | | |]; cbn [wact]; try (apply IH; [exact Q|exact P'|exact C]).
  - apply IH; auto; wcbn.
    + intros X. apply insert_in in X as [->|X]; auto. apply P. now left.
    + rewrite called_app. cbn. now rewrite app_nil_r.
  - destruct (w_pc s); apply IH; auto.
  - destruct (w_pc s); apply IH; auto.
  - destruct (w_pc s); try (apply IH; assumption). destruct (w_stop s); apply IH; auto.
  - unfold turn. destruct (w_pc s); try (apply IH; assumption). destruct (w_kill s); [apply IH; assumption|].
    destruct (w_queue s) as [|h q] eqn:EQ; [apply IH; cbn; rewrite ?EQ; assumption|].
    destruct (_ <=? _); [|apply IH; cbn; rewrite ?EQ; assumption].
    apply IH; auto; wcbn; [cbn in Q; tauto|]. rewrite called_app, in_app_iff. cbn in *. tauto.
Qed.

Lemma dropped : forall t w (a b : A) acts, a <> b -> ~ In (APush (w, b)) acts ->
  ~ In (w, b) (called (w_log (wrun (AStart :: APush (w, a) :: APush (w, b) :: acts) (watch_init t)))).
Proof.
  intros t w a b acts NE NP. change (AStart :: APush (w, a) :: APush (w, b) :: acts) with ([AStart; APush (w, a); APush (w, b)] ++ acts).
  rewrite wrun_app. apply missing; auto.
  cbn [wrun fold_left wact watch_init w_pc w_queue insert]. cbn [fst]. rewrite Z.ltb_irrefl, Z.eqb_refl.
  intros [E|[]]. congruence.
Qed.
End Watch.
