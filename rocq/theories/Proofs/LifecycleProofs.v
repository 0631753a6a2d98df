(** Proofs about starting and stopping. *)
From Coq Require Import List Bool Arith Lia.
From Verif Require Import Model.Lifecycle Spec.LifecycleSpec.
Import ListNotations.

Lemma g_run_app : forall l1 l2 s,
  g_run (l1 ++ l2) s = match g_run l1 s with GOn s' => g_run l2 s' | r => r end.
Proof.
  induction l1 as [|a l1 IH]; intros l2 s; [reflexivity|]. cbn. destruct (g_step a s); auto.
Qed.

Lemma g_run_snoc : forall l a s s', g_run (l ++ [a]) s = GOn s' ->
  exists m, g_run l s = GOn m /\ g_step a m = GOn s'.
Proof.
  intros l a s s' E. rewrite g_run_app in E. destruct (g_run l s) as [m| | |]; try discriminate E.
  exists m. split; auto. cbn in E. destruct (g_step a m); congruence.
Qed.

(** The last element of a list. *)
Lemma split_snoc : forall (A : Type) (l l1 l2 : list A) a b, l ++ [a] = l1 ++ b :: l2 ->
  l2 = [] /\ l = l1 /\ a = b \/ exists l3, l2 = l3 ++ [a] /\ l = l1 ++ b :: l3.
Proof.
  intros A l l1 l2 a b E. destruct l2 as [|x l2 _] using rev_ind.
  - apply app_inj_tail in E as [-> ->]. left. auto.
  - right. exists l2. rewrite app_comm_cons, app_assoc in E. apply app_inj_tail in E as [-> ->]. auto.
Qed.

Lemma joined_snoc : forall l a, a <> GStart -> all_joined l -> all_joined (l ++ [a]).
Proof.
  intros l a N J l1 l2 E. apply split_snoc in E as [(-> & -> & E)|(l3 & -> & ->)]; [now destruct N|].
  apply in_or_app. left. exact (J l1 l3 eq_refl).
Qed.

Lemma joined_now : forall l, all_joined (l ++ [GJoin]).
Proof.
  intros l l1 l2 E. apply split_snoc in E as [(-> & -> & E)|(l3 & -> & ->)]; [discriminate E|].
  apply in_or_app. right. now left.
Qed.

Lemma joined_back : forall l a, a <> GJoin -> all_joined (l ++ [a]) -> all_joined l.
Proof.
  intros l a N J l1 l2 ->. specialize (J l1 (l2 ++ [a])). rewrite <- app_assoc in J. specialize (J eq_refl).
  apply in_app_or in J as [J|[J|[]]]; [exact J|now destruct N].
Qed.

Lemma not_joined : forall l, ~ all_joined (l ++ [GStart]).
Proof. intros l J. exact (J l [] eq_refl). Qed.

Definition vac (t : slot) : Prop := t = Vacant.

Lemma launch_joinable : forall t, joinable (launch t) = true.
Proof. intros []; reflexivity. Qed.

Lemma forall_set : forall (P : slot -> Prop) l i t, Forall P l -> P t -> Forall P (set_nth i t l).
Proof.
  intros P. induction l as [|x l IH]; intros i t F H; [destruct i; constructor|]. inversion F; subst.
  destruct i; cbn; constructor; auto.
Qed.

Lemma forall_firstn : forall (P : slot -> Prop) n l, Forall P l -> Forall P (firstn n l).
Proof. intros P. induction n; intros l F; [constructor|]. destruct F; cbn; constructor; auto. Qed.

Lemma forall_repeat : forall (P : slot -> Prop) t n, P t -> Forall P (repeat t n).
Proof. intros P t n H. induction n; cbn; constructor; auto. Qed.

(** Whether the transceiver's thread is joinable tells whether a [start] was
    not followed by a [join]; if it is not, no thread is. *)
Lemma io_tells : forall n j1 j2 l s, g_run l (g_init n j1 j2) = GOn s ->
  (joinable (g_io s) = false <-> all_joined l) /\
  (joinable (g_io s) = false -> Forall vac (g_threads s)).
Proof.
  intros n j1 j2 l. induction l as [|a l IH] using rev_ind; intros s E.
  - injection E as <-. cbn. split; [split; [|reflexivity]|].
    + intros _ l1 l2 X. now destruct l1.
    + intros _. apply forall_repeat. reflexivity.
  - apply g_run_snoc in E as (m & E & S). apply IH in E as (A & B). clear IH.
    assert (K : a <> GStart -> a <> GJoin -> g_io s = g_io m -> (joinable (g_io s) = false <-> all_joined (l ++ [a]))).
    { intros N1 N2 ->. rewrite A. split; [now apply joined_snoc|now apply joined_back]. }
    destruct a as [| | | |k| |i| |b|b]; cbn [g_step] in S.
    + injection S as <-. cbn. rewrite launch_joinable. split; [|discriminate]. split; [discriminate|].
      intro J. destruct (not_joined _ J).
    + injection S as <-. split; [apply K; (discriminate || reflexivity)|exact B].
    + injection S as <-. split; [apply K; (discriminate || reflexivity)|exact B].
    + unfold g_join in S. destruct (existsb is_alive (g_threads m) || is_alive (g_io m)); [discriminate|].
      injection S as <-. cbn. split; [split; [|reflexivity]|].
      * intros _. apply joined_now.
      * intros _. clear. induction (g_threads m); cbn; constructor; auto; reflexivity.
    + unfold g_resize in S. destruct (g_stop m).
      * destruct (existsb joinable (skipn k (g_threads m))); [discriminate|]. injection S as <-.
        split; [apply K; (discriminate || reflexivity)|]. cbn. intro J. apply Forall_app. split.
        -- apply forall_firstn, B, J.
        -- apply forall_repeat. reflexivity.
      * injection S as <-. split; [apply K; (discriminate || reflexivity)|exact B].
    + unfold g_destroy in S. destruct (existsb joinable (g_threads m) || joinable (g_io m)); discriminate S.
    + destruct (due m && is_alive (nth i (g_threads m) Vacant)) eqn:D; [|discriminate S]. injection S as <-.
      split; [apply K; (discriminate || reflexivity)|]. cbn. intro J. specialize (B J).
      apply andb_true_iff in D as [_ D]. exfalso.
      assert (X : nth i (g_threads m) Vacant = Vacant).
      { destruct (nth_in_or_default i (g_threads m) Vacant) as [I|I]; [|exact I].
        exact (proj1 (Forall_forall _ _) B _ I). }
      rewrite X in D. discriminate D.
    + destruct (io_due m && is_alive (g_io m)) eqn:D; [|discriminate S]. injection S as <-. cbn.
      split; [|discriminate]. apply andb_true_iff in D as [_ D]. split; [discriminate|].
      intro J. apply joined_back in J; [|discriminate]. apply A in J. destruct (g_io m); discriminate.
    + injection S as <-. split; [apply K; (discriminate || reflexivity)|exact B].
    + injection S as <-. split; [apply K; (discriminate || reflexivity)|exact B].
Qed.

Lemma none_joinable : forall l, Forall vac l -> existsb joinable l = false.
Proof. induction 1 as [|t l E F IH]; [reflexivity|]. rewrite E. exact IH. Qed.

(** Destruction. *)
Lemma destroy_exact : forall n j1 j2 l s, g_run l (g_init n j1 j2) = GOn s ->
  (all_joined l -> g_step GDestroy s = GGone) /\ (~ all_joined l -> g_step GDestroy s = GAbort).
Proof.
  intros n j1 j2 l s E. apply io_tells in E as (A & B). cbn. unfold g_destroy. split; intro J.
  - apply A in J. rewrite J, none_joinable by auto. reflexivity.
  - destruct (joinable (g_io s)) eqn:X; [rewrite orb_true_r; reflexivity|]. destruct J. now apply A.
Qed.

(** Threads that have not ended. *)
Definition not_ended (t : slot) : Prop := t <> Ended.

Lemma left_back : forall l a, a <> GJoin -> none_left (l ++ [a]) -> none_left l.
Proof.
  intros l a N J l1 x l2 -> H. specialize (J l1 x (l2 ++ [a])). rewrite <- app_assoc in J. specialize (J eq_refl H).
  apply in_app_or in J as [J|[J|[]]]; [exact J|now destruct N].
Qed.

Lemma fresh_threads : forall n j1 j2 l s, g_run l (g_init n j1 j2) = GOn s -> none_left l ->
  Forall not_ended (g_threads s) /\ not_ended (g_io s).
Proof.
  intros n j1 j2 l. induction l as [|a l IH] using rev_ind; intros s E L.
  - injection E as <-. split; [apply forall_repeat|]; discriminate.
  - apply g_run_snoc in E as (m & E & S).
    assert (K : a <> GJoin -> Forall not_ended (g_threads m) /\ not_ended (g_io m)).
    { intro N. apply IH; auto. now apply left_back in L. }
    clear IH. destruct a as [| | | |k| |i| |b|b]; cbn [g_step] in S;
      try (specialize (K ltac:(discriminate)); destruct K as (K1 & K2)).
    + injection S as <-. cbn. split.
      * induction K1 as [|t ts T K1 IH]; cbn; constructor; auto. destruct t; [discriminate|discriminate|now destruct T].
      * destruct (g_io m); [discriminate|discriminate|now destruct K2].
    + injection S as <-. auto.
    + injection S as <-. auto.
    + unfold g_join in S. destruct (existsb is_alive (g_threads m) || is_alive (g_io m)); [discriminate|].
      injection S as <-. cbn. split; [|discriminate]. clear. induction (g_threads m); cbn; constructor; auto; discriminate.
    + unfold g_resize in S. destruct (g_stop m); [|injection S as <-; auto].
      destruct (existsb joinable (skipn k (g_threads m))); [discriminate|]. injection S as <-. cbn. split; auto.
      apply Forall_app. split; [now apply forall_firstn|apply forall_repeat; discriminate].
    + unfold g_destroy in S. destruct (existsb joinable (g_threads m) || joinable (g_io m)); discriminate S.
    + destruct (L l (GLeave i) [] eq_refl); eauto.
    + destruct (L l GLeaveIo [] eq_refl); eauto.
    + injection S as <-. auto.
    + injection S as <-. auto.
Qed.

Lemma launch_all : forall l, Forall not_ended l -> map launch l = repeat Alive (length l).
Proof.
  induction 1 as [|t l T F IH]; [reflexivity|]. cbn. rewrite IH. destruct t; [reflexivity|reflexivity|now destruct T].
Qed.

Lemma start_runs : forall n j1 j2 l s, g_run l (g_init n j1 j2) = GOn s -> none_left l ->
  exists s', g_step GStart s = GOn s' /\ all_running (length (g_threads s)) s'.
Proof.
  intros n j1 j2 l s E L. apply fresh_threads in E as (A & B); auto. eexists. split; [reflexivity|].
  repeat split; cbn.
  - now apply launch_all.
  - destruct (g_io s); [reflexivity|reflexivity|now destruct B].
Qed.

(** A running manager is not changed by [start]. *)
Lemma start_again : forall n s, all_running n s -> g_tstop s = false -> g_tterm s = false -> g_step GStart s = GOn s.
Proof.
  intros n [st te th ts tt io rq so] (A & B & C & D) T1 T2. cbn in *. subst. unfold g_start. cbn. do 2 f_equal.
  clear. induction n; cbn; congruence.
Qed.

(** The number of threads. *)
Lemma threads_kept : forall l s s', g_run l s = GOn s' -> (forall k, ~ In (GResize k) l) ->
  length (g_threads s') = length (g_threads s).
Proof.
  induction l as [|a l IH]; intros s s' E N; cbn in E; [now injection E as <-|].
  destruct (g_step a s) as [m| | |] eqn:S; try discriminate E.
  rewrite (IH _ _ E) by (intros k I; apply (N k); now right). clear E IH.
  destruct a as [| | | |k| |i| |b|b]; cbn [g_step] in S.
  - injection S as <-. cbn. apply map_length.
  - now injection S as <-.
  - now injection S as <-.
  - unfold g_join in S. destruct (existsb is_alive (g_threads s) || is_alive (g_io s)); [discriminate|].
    injection S as <-. cbn. apply map_length.
  - destruct (N k). now left.
  - unfold g_destroy in S. destruct (existsb joinable (g_threads s) || joinable (g_io s)); discriminate S.
  - destruct (due s && is_alive (nth i (g_threads s) Vacant)); [|discriminate S]. injection S as <-. cbn.
    clear. revert i. induction (g_threads s); intro i; [now destruct i|]. destruct i; cbn; auto.
  - destruct (io_due s && is_alive (g_io s)); [|discriminate S]. now injection S as <-.
  - now injection S as <-.
  - now injection S as <-.
Qed.

Lemma stop_flag : forall n j1 j2 l s, g_run l (g_init n j1 j2) = GOn s -> stopped_last l -> g_stop s = true.
Proof.
  intros n j1 j2 l. induction l as [|a l IH] using rev_ind; intros s E L; [now injection E as <-|].
  apply g_run_snoc in E as (m & E & S).
  assert (K : a <> GStop -> g_stop m = true).
  { intro N. apply IH; auto. intros l1 l2 ->. specialize (L l1 (l2 ++ [a])). rewrite <- app_assoc in L.
    specialize (L eq_refl). apply in_app_or in L as [L|[L|[]]]; [exact L|now destruct N]. }
  clear IH. destruct a as [| | | |k| |i| |b|b]; cbn [g_step] in S; try (specialize (K ltac:(discriminate))).
  - destruct (L l [] eq_refl).
  - now injection S as <-.
  - now injection S as <-.
  - unfold g_join in S. destruct (existsb is_alive (g_threads m) || is_alive (g_io m)); [discriminate|].
    now injection S as <-.
  - unfold g_resize in S. rewrite K in S. destruct (existsb joinable (skipn k (g_threads m))); [discriminate|].
    now injection S as <-.
  - unfold g_destroy in S. destruct (existsb joinable (g_threads m) || joinable (g_io m)); discriminate S.
  - destruct (due m && is_alive (nth i (g_threads m) Vacant)); [|discriminate S]. now injection S as <-.
  - destruct (io_due m && is_alive (g_io m)); [|discriminate S]. now injection S as <-.
  - now injection S as <-.
  - now injection S as <-.
Qed.

Lemma vac_skip : forall k l, Forall vac l -> Forall vac (skipn k l).
Proof. induction k; intros l F; [exact F|]. destruct F; cbn; auto. Qed.

Lemma resize_works : forall n j1 j2 l s k, g_run l (g_init n j1 j2) = GOn s -> all_joined l -> stopped_last l ->
  exists s', g_step (GResize k) s = GOn s' /\ length (g_threads s') = k.
Proof.
  intros n j1 j2 l s k E J L. pose proof (stop_flag _ _ _ _ _ E L) as ST.
  apply io_tells in E as (A & B). apply A in J. specialize (B J).
  cbn [g_step]. unfold g_resize. rewrite ST, none_joinable by now apply vac_skip.
  eexists. split; [reflexivity|]. cbn. rewrite app_length, firstn_length, repeat_length. lia.
Qed.

Lemma initial_kept : forall n j1 j2 l s, g_run l (g_init n j1 j2) = GOn s -> (forall k, ~ In (GResize k) l) ->
  length (g_threads s) = n.
Proof. intros n j1 j2 l s E N. rewrite (threads_kept _ _ _ E N). apply repeat_length. Qed.

(** Joining. *)
Lemma join_rests : forall s s', g_step GJoin s = GOn s' -> none_running s /\ none_running s' /\
  Forall vac (g_threads s') /\ g_io s' = Vacant.
Proof.
  intros s s' S. cbn [g_step] in S. unfold g_join in S.
  destruct (existsb is_alive (g_threads s) || is_alive (g_io s)) eqn:X; [discriminate|].
  injection S as <-. apply orb_false_iff in X as [X Y]. cbn.
  assert (V : Forall vac (map (fun _ : slot => Vacant) (g_threads s))).
  { clear. induction (g_threads s); cbn; constructor; auto; reflexivity. }
  split; [split|split; [split|split]].
  - apply Forall_forall. intros t I ->.
    assert (E : existsb is_alive (g_threads s) = true) by (apply existsb_exists; exists Alive; auto). congruence.
  - intro E. rewrite E in Y. discriminate Y.
  - cbn. clear -V. induction V as [|t l T F IH]; constructor; auto. now rewrite T.
  - discriminate.
  - exact V.
  - reflexivity.
Qed.

(** A thread that runs goes on running until [stop] or [terminate]. *)
Definition pressing (s : mgr) : Prop := g_stop s = false /\ g_term s = false /\ g_tstop s = false /\ g_tterm s = false.

Lemma keeps_running : forall l s s', g_run l s = GOn s' -> pressing s -> ~ In GStop l -> ~ In GTerminate l ->
  pressing s' /\ (Forall (fun t => t = Alive) (g_threads s) -> Forall (fun t => t = Alive) (g_threads s')) /\
  (g_io s = Alive -> g_io s' = Alive).
Proof.
  induction l as [|a l IH]; intros s s' E P N1 N2; cbn in E; [injection E as <-; auto|].
  destruct (g_step a s) as [m| | |] eqn:S; try discriminate E.
  assert (M : pressing m /\ (Forall (fun t => t = Alive) (g_threads s) -> Forall (fun t => t = Alive) (g_threads m)) /\
    (g_io s = Alive -> g_io m = Alive)).
  { destruct P as (P1 & P2 & P3 & P4). destruct a as [| | | |k| |i| |b|b]; cbn [g_step] in S.
    - injection S as <-. cbn. split; [repeat split|]. split.
      + intro F. induction F as [|t ts T F F2]; cbn; constructor; auto. now rewrite T.
      + now intros ->.
    - destruct N1. now left.
    - destruct N2. now left.
    - unfold g_join in S. destruct (existsb is_alive (g_threads s) || is_alive (g_io s)) eqn:X; [discriminate|].
      apply orb_false_iff in X as [X Y]. injection S as <-. cbn. split; [repeat split; auto|]. split.
      + intro F. destruct F as [|t ts T F]; [constructor|]. rewrite T in X. discriminate X.
      + intro I. rewrite I in Y. discriminate Y.
    - unfold g_resize in S. rewrite P1 in S. injection S as <-. split; [repeat split|]; auto.
    - unfold g_destroy in S. destruct (existsb joinable (g_threads s) || joinable (g_io s)); discriminate S.
    - unfold due in S. rewrite P1, P2 in S. discriminate S.
    - unfold io_due in S. rewrite P3, P4 in S. discriminate S.
    - injection S as <-. cbn. split; [repeat split|]; auto.
    - injection S as <-. cbn. split; [repeat split|]; auto. }
  destruct M as (M1 & M2 & M3).
  destruct (IH m s' E M1) as (A & B & C); [intro I; apply N1; now right|intro I; apply N2; now right|]. auto.
Qed.

(** [join] comes back only after [stop] or [terminate]. *)
Lemma join_waits : forall n j1 j2 l1 l2 s, g_run (l1 ++ [GStart] ++ l2 ++ [GJoin]) (g_init n j1 j2) = GOn s ->
  none_left l1 -> In GStop l2 \/ In GTerminate l2.
Proof.
  intros n j1 j2 l1 l2 s E L.
  assert (D : forall a : gact, {In a l2} + {~ In a l2}) by (intro a; apply in_dec; repeat decide equality).
  destruct (D GStop) as [|N1]; [now left|]. destruct (D GTerminate) as [|N2]; [now right|]. exfalso.
  rewrite g_run_app in E. destruct (g_run l1 (g_init n j1 j2)) as [a| | |] eqn:E1; try discriminate E.
  rewrite g_run_app in E. cbn [g_run g_step] in E. rewrite g_run_app in E.
  destruct (g_run l2 (g_start a)) as [b| | |] eqn:E2; try discriminate E.
  destruct (start_runs _ _ _ _ _ E1 L) as (m & S & (_ & R & _)). cbn [g_step] in S.
  assert (X : m = g_start a) by congruence. subst m.
  destruct (keeps_running _ _ _ E2) as (_ & _ & K); auto; [repeat split|]. specialize (K R).
  cbn in E. unfold g_join in E. rewrite K, orb_true_r in E. discriminate E.
Qed.

(** What the flags tell. *)
Lemma flags_tell : forall l s s', g_run l s = GOn s' -> ~ In GStart l ->
  (g_term s' = true <-> g_term s = true \/ In GTerminate l) /\
  (g_tterm s' = true <-> g_tterm s = true \/ In GTerminate l) /\
  (g_stop s' = true <-> g_stop s = true \/ In GStop l) /\
  (g_tstop s' = true <-> g_tstop s = true \/ In GStop l).
Proof.
  induction l as [|a l IH]; intros s s' E N; cbn in E; [injection E as <-; cbn; tauto|].
  destruct (g_step a s) as [m| | |] eqn:S; try discriminate E.
  destruct (IH m s' E) as (A & B & C & D); [intro I; apply N; now right|]. clear IH.
  assert (M : (g_term m = true <-> g_term s = true \/ a = GTerminate) /\
    (g_tterm m = true <-> g_tterm s = true \/ a = GTerminate) /\
    (g_stop m = true <-> g_stop s = true \/ a = GStop) /\
    (g_tstop m = true <-> g_tstop s = true \/ a = GStop)).
  { clear A B C D. destruct a as [| | | |k| |i| |b|b]; cbn [g_step] in S.
    - destruct N. now left.
    - injection S as <-. cbn. repeat split; intro H; auto; destruct H as [H|H]; auto; discriminate H.
    - injection S as <-. cbn. repeat split; intro H; auto; destruct H as [H|H]; auto; discriminate H.
    - unfold g_join in S. destruct (existsb is_alive (g_threads s) || is_alive (g_io s)); [discriminate|].
      injection S as <-. cbn. repeat split; intro H; auto; destruct H as [H|H]; auto; discriminate H.
    - unfold g_resize in S. destruct (g_stop s) eqn:G.
      + destruct (existsb joinable (skipn k (g_threads s))); [discriminate|].
        injection S as <-. cbn. repeat split; intro H; auto; destruct H as [H|H]; auto; discriminate H.
      + injection S as <-. rewrite G. repeat split; intro H; auto; destruct H as [H|H]; auto; discriminate H.
    - unfold g_destroy in S. destruct (existsb joinable (g_threads s) || joinable (g_io s)); discriminate S.
    - destruct (due s && is_alive (nth i (g_threads s) Vacant)); [|discriminate S].
      injection S as <-. cbn. repeat split; intro H; auto; destruct H as [H|H]; auto; discriminate H.
    - destruct (io_due s && is_alive (g_io s)); [|discriminate S].
      injection S as <-. cbn. repeat split; intro H; auto; destruct H as [H|H]; auto; discriminate H.
    - injection S as <-. cbn. repeat split; intro H; auto; destruct H as [H|H]; auto; discriminate H.
    - injection S as <-. cbn. repeat split; intro H; auto; destruct H as [H|H]; auto; discriminate H. }
  destruct M as (M1 & M2 & M3 & M4). cbn [In].
  repeat split; intro H; tauto.
Qed.

Lemma load_told : forall l s s', g_run l s = GOn s' ->
  g_requests s' = fold_left (fun b a => match a with GRequests c => c | _ => b end) l (g_requests s) /\
  g_sockets s' = fold_left (fun b a => match a with GSockets c => c | _ => b end) l (g_sockets s).
Proof.
  induction l as [|a l IH]; intros s s' E; cbn in E; [injection E as <-; auto|].
  destruct (g_step a s) as [m| | |] eqn:S; try discriminate E.
  destruct (IH m s' E) as (A & B). rewrite A, B. clear IH A B E. cbn [fold_left].
  destruct a as [| | | |k| |i| |b|b]; cbn [g_step] in S; try (injection S as <-; auto; fail).
  - unfold g_join in S. destruct (existsb is_alive (g_threads s) || is_alive (g_io s)); [discriminate|].
    injection S as <-. auto.
  - unfold g_resize in S. destruct (g_stop s); [destruct (existsb joinable (skipn k (g_threads s))); [discriminate|]|];
    injection S as <-; auto.
  - unfold g_destroy in S. destruct (existsb joinable (g_threads s) || joinable (g_io s)); discriminate S.
  - destruct (due s && is_alive (nth i (g_threads s) Vacant)); [|discriminate S]. injection S as <-. auto.
  - destruct (io_due s && is_alive (g_io s)); [|discriminate S]. injection S as <-. auto.
Qed.

(** When the threads can leave. *)
Lemma leaving : forall n j1 j2 l1 l2 s, g_run (l1 ++ [GStart] ++ l2) (g_init n j1 j2) = GOn s -> ~ In GStart l2 ->
  (forall i, nth i (g_threads s) Vacant = Alive ->
    ((exists s', g_step (GLeave i) s = GOn s') <->
     In GTerminate l2 \/ (In GStop l2 /\ requests_left (l1 ++ [GStart] ++ l2) = false))) /\
  (g_io s = Alive ->
    ((exists s', g_step GLeaveIo s = GOn s') <->
     In GTerminate l2 \/ (In GStop l2 /\ sockets_left (l1 ++ [GStart] ++ l2) = false))).
Proof.
  intros n j1 j2 l1 l2 s E N.
  destruct (load_told _ _ _ E) as (RQ & SO). cbn [g_init g_requests g_sockets] in RQ, SO.
  fold (requests_left (l1 ++ [GStart] ++ l2)) in RQ. fold (sockets_left (l1 ++ [GStart] ++ l2)) in SO.
  rewrite <- RQ, <- SO. clear RQ SO.
  rewrite g_run_app in E. destruct (g_run l1 (g_init n j1 j2)) as [a| | |] eqn:E1; try discriminate E.
  rewrite g_run_app in E. cbn [g_run g_step] in E.
  destruct (flags_tell _ _ _ E N) as (A & B & C & D). cbn in A, B, C, D.
  assert (A' : g_term s = true <-> In GTerminate l2) by (split; [intro H; apply A in H as [H|H]; [discriminate H|auto]|intro H; apply A; auto]).
  assert (B' : g_tterm s = true <-> In GTerminate l2) by (split; [intro H; apply B in H as [H|H]; [discriminate H|auto]|intro H; apply B; auto]).
  assert (C' : g_stop s = true <-> In GStop l2) by (split; [intro H; apply C in H as [H|H]; [discriminate H|auto]|intro H; apply C; auto]).
  assert (D' : g_tstop s = true <-> In GStop l2) by (split; [intro H; apply D in H as [H|H]; [discriminate H|auto]|intro H; apply D; auto]).
  split.
  - intros i I. rewrite <- A', <- C'. cbn [g_step]. rewrite I. cbn [is_alive]. rewrite andb_true_r. unfold due.
    destruct (g_term s), (g_stop s), (g_requests s); cbn; split; intro H; auto;
      try (eexists; reflexivity); try (destruct H as (x & H); discriminate H); destruct H as [H|(H & H2)]; discriminate.
  - intro I. rewrite <- B', <- D'. cbn [g_step]. rewrite I. cbn [is_alive]. rewrite andb_true_r. unfold io_due.
    destruct (g_tterm s), (g_tstop s), (g_sockets s); cbn; split; intro H; auto;
      try (eexists; reflexivity); try (destruct H as (x & H); discriminate H); destruct H as [H|(H & H2)]; discriminate.
Qed.

(** Threads that have ended stay so until they are joined. *)
Lemma ended_stays : forall l s s', g_run l s = GOn s' -> ~ In GJoin l -> (forall k, ~ In (GResize k) l) ->
  (Forall (fun t => t = Ended) (g_threads s) -> Forall (fun t => t = Ended) (g_threads s')) /\
  (g_io s = Ended -> g_io s' = Ended).
Proof.
  induction l as [|a l IH]; intros s s' E N1 N2; cbn in E; [injection E as <-; auto|].
  destruct (g_step a s) as [m| | |] eqn:S; try discriminate E.
  assert (M : (Forall (fun t => t = Ended) (g_threads s) -> Forall (fun t => t = Ended) (g_threads m)) /\
    (g_io s = Ended -> g_io m = Ended)).
  { destruct a as [| | | |k| |i| |b|b]; cbn [g_step] in S; try (injection S as <-; auto; fail).
    - injection S as <-. cbn. split.
      + intro F. induction F as [|t ts T F F2]; cbn; constructor; auto. now rewrite T.
      + now intros ->.
    - destruct N1. now left.
    - destruct (N2 k). now left.
    - unfold g_destroy in S. destruct (existsb joinable (g_threads s) || joinable (g_io s)); discriminate S.
    - destruct (due s && is_alive (nth i (g_threads s) Vacant)); [|discriminate S]. injection S as <-. cbn. split; auto.
      intro F. now apply forall_set.
    - destruct (io_due s && is_alive (g_io s)); [|discriminate S]. injection S as <-. cbn. auto. }
  destruct M as (M2 & M3).
  destruct (IH m s' E) as (B & C); [intro I; apply N1; now right|intros k I; apply (N2 k); now right|]. auto.
Qed.

(* ------------------------------------------------------------------ *)
(** * Runs *)

(** All handler threads leave, one after the other. *)
Definition leave_all (n : nat) : list gact := map GLeave (seq 0 n).

Lemma nth_ended : forall k (l : list slot), nth k (repeat Ended k ++ l) Vacant = nth 0 l Vacant.
Proof. induction k; intro l; [reflexivity|]. apply IHk. Qed.

Lemma set_ended : forall k m, set_nth k Ended (repeat Ended k ++ repeat Alive (S m)) = repeat Ended (S k) ++ repeat Alive m.
Proof. induction k; intro m; [reflexivity|]. cbn. f_equal. apply IHk. Qed.

Lemma leave_some : forall m k st te ts tt io rq so, due (mkG st te [] ts tt io rq so) = true ->
  g_run (map GLeave (seq k m)) (mkG st te (repeat Ended k ++ repeat Alive m) ts tt io rq so)
  = GOn (mkG st te (repeat Ended (k + m)) ts tt io rq so).
Proof.
  induction m as [|m IH]; intros k st te ts tt io rq so D.
  - cbn. now rewrite Nat.add_0_r, app_nil_r.
  - cbn [seq map g_run g_step]. unfold due in D |- *. cbn [g_stop g_term g_requests] in D |- *. rewrite D.
    cbn [g_threads]. rewrite nth_ended. cbn [nth repeat is_alive andb]. cbn [g_stop g_term g_tstop g_tterm g_io g_requests g_sockets].
    change (Alive :: repeat Alive m) with (repeat Alive (S m)). rewrite set_ended. rewrite IH by exact D.
    now rewrite Nat.add_succ_r.
Qed.

Lemma launch_vacant : forall n, map launch (repeat Vacant n) = repeat Alive n.
Proof. induction n; cbn; congruence. Qed.
Lemma launch_ended : forall n, map launch (repeat Ended n) = repeat Ended n.
Proof. induction n; cbn; congruence. Qed.

Definition down_up (n : nat) : list gact := [GStart; GStop] ++ leave_all n ++ [GLeaveIo; GStart].

Lemma down_up_run : forall n j1 j2, g_run (down_up n) (g_init n j1 j2)
  = GOn (mkG false false (repeat Ended n) false false Ended false false).
Proof.
  intros n j1 j2. unfold down_up, leave_all. cbn [app g_run g_step]. unfold g_start, g_stopped, g_init. cbn.
  rewrite launch_vacant, g_run_app.
  pose proof (leave_some n 0 true false true false Alive false false eq_refl) as X. cbn [repeat app Nat.add] in X. rewrite X. clear X. cbn.
  unfold g_start. cbn. now rewrite launch_ended.
Qed.

Lemma unjoined_witness : forall n j1 j2, exists s,
  g_run (down_up n) (g_init n j1 j2) = GOn s /\ g_stop s = false /\ g_term s = false /\
  forall l s', g_run l s = GOn s' -> ~ In GJoin l -> (forall k, ~ In (GResize k) l) -> none_running s'.
Proof.
  intros n j1 j2. eexists. split; [apply down_up_run|]. split; [reflexivity|]. split; [reflexivity|].
  intros l s' E N1 N2. destruct (ended_stays _ _ _ E N1 N2) as (A & B). split.
  - eapply Forall_impl; [|apply A]; [intros t ->; discriminate|]. cbn. apply forall_repeat. reflexivity.
  - rewrite B by reflexivity. discriminate.
Qed.

Lemma early_join_witness : forall n j1 j2, exists s s',
  g_run (down_up n) (g_init n j1 j2) = GOn s /\ g_stop s = false /\ g_term s = false /\ g_step GJoin s = GOn s'.
Proof.
  intros n j1 j2. do 2 eexists. split; [apply down_up_run|]. split; [reflexivity|]. split; [reflexivity|].
  cbn [g_step]. unfold g_join. cbn [g_threads g_io is_alive].
  replace (existsb is_alive (repeat Ended n)) with false by (induction n; auto). reflexivity.
Qed.

Lemma resize_ignored_witness : forall n k j1 j2, n <> k -> exists s s',
  g_run ([GStart; GTerminate] ++ leave_all n ++ [GLeaveIo; GJoin]) (g_init n j1 j2) = GOn s /\
  g_run [GResize k; GStart] s = GOn s' /\ length (g_threads s') = n.
Proof.
  intros n k j1 j2 N. unfold leave_all. cbn [app g_run g_step]. unfold g_start, g_terminated, g_init. cbn.
  rewrite launch_vacant, g_run_app.
  pose proof (leave_some n 0 false true false true Alive false false eq_refl) as X. cbn [repeat app Nat.add] in X. rewrite X. clear X. cbn.
  unfold g_join. cbn. replace (existsb is_alive (repeat Ended n)) with false by (clear; induction n; auto). cbn.
  do 2 eexists. split; [reflexivity|]. cbn. split; [reflexivity|]. cbn. now rewrite !map_length, repeat_length.
Qed.

Lemma resize_abort_witness : forall n k j1 j2, k < n ->
  g_run [GStart; GStop; GResize k] (g_init n j1 j2) = GAbort.
Proof.
  intros n k j1 j2 L. cbn [g_run g_step]. unfold g_resize, g_start, g_stopped, g_init. cbn.
  rewrite launch_vacant. replace n with (k + S (n - k - 1)) by lia. rewrite repeat_app, skipn_app, repeat_length, Nat.sub_diag.
  rewrite existsb_app. cbn. now rewrite orb_true_r.
Qed.

Lemma cancel_witness : forall n j1 j2, exists s,
  g_run [GStart; GStop; GStart] (g_init n j1 j2) = GOn s /\
  forall l s', g_run l s = GOn s' -> ~ In GStop l -> ~ In GTerminate l ->
    Forall (fun t => t = Alive) (g_threads s') /\ g_io s' = Alive.
Proof.
  intros n j1 j2. eexists. split; [reflexivity|]. intros l s' E N1 N2.
  destruct (keeps_running _ _ _ E) as (_ & A & B); [repeat split|exact N1|exact N2|]. split; [|now apply B].
  apply A. cbn. rewrite launch_vacant.
  replace (map launch (repeat Alive n)) with (repeat Alive n) by (clear; induction n; cbn; congruence).
  apply forall_repeat. reflexivity.
Qed.
