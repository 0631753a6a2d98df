(** The size of the socket table, whatever the kernel refuses. *)
From Coq Require Import List NArith ZArith Bool Arith Lia.
From Verif Require Import Model.Sockets Spec.SocketSpec Proofs.SocketProofs.
Import ListNotations.

Record tinv (s : grp) (R : list N) : Prop := mkTinv {
  t_live : forall fd d, In (fd, d) (g_map s) -> is_socket s d fd true \/ In fd R;
  t_dead : forall fd, In fd R -> exists d, In (fd, d) (g_map s) /\ is_socket s d fd false;
  t_size : length (g_map s) = valid_count s + length (nodup N.eq_dec R)
}.

Lemma made_none : forall s s', length (g_data s') = length (g_data s) -> made s s' = None.
Proof. intros s s' E; unfold made; rewrite E, (proj2 (Nat.eqb_neq _ _)); [reflexivity|lia]. Qed.

Lemma made_snoc : forall s s' fd v c, g_data s' = g_data s ++ [mkDat fd v c] -> made s s' = Some fd.
Proof.
  intros s s' fd v c E; unfold made; rewrite E, app_length; cbn; rewrite Nat.add_1_r, Nat.eqb_refl.
  rewrite nth_error_app2 by lia; rewrite Nat.sub_diag; reflexivity.
Qed.

Lemma map_dead : forall s fd d, ginv s -> In (fd, d) (g_map s) -> is_socket s d fd false -> forall e, ~ is_socket s e fd true.
Proof.
  intros s fd d I M [x [E [_ V]]] e [y [E' [F V']]]; destruct (i_valid _ I e y E' V') as [_ [_ Z]]; rewrite F in Z.
  assert (d = e) by exact (nodup_fst _ _ _ _ (i_map _ I) M Z); subst; congruence.
Qed.

Lemma tinv_step : forall o s s' r R, ginv s -> tinv s R -> gstep o s = Ok s' r ->
  tinv s' (match made s s' with Some fd => if adds o then R else fd :: R | None => R end).
Proof.
  intros o s s' r R I [L D Z] H; assert (G := gstep_change o s I); rewrite H in G; destruct G as [I' C].
  destruct C as [o s s' M DV|o s d x E V|o s s1 fd s' DE M O I1 F Ad].
  - assert (LE : length (g_data s') = length (g_data s)) by (apply (f_equal (@length _)) in DV; now rewrite !map_length in DV).
    rewrite (made_none _ _ LE).
    assert (K : forall fd d v, In (fd, d) (g_map s) -> is_socket s d fd v -> is_socket s' d fd v).
    { intros fd d v J [x [E' [_ V]]]; rewrite <- M in J; destruct (i_mapd _ I' fd d J) as [y [E Q]]; exists y; repeat split; auto.
      apply (f_equal (fun l => nth_error l d)) in DV; rewrite !nth_error_map, E, E' in DV; cbn in DV; congruence. }
    constructor.
    + intros fd d J; rewrite M in J; destruct (L fd d J) as [A|A]; [left; auto|now right].
    + intros fd A; destruct (D fd A) as [d [J S]]; exists d; rewrite M; auto.
    + rewrite M, Z; f_equal; unfold valid_count; now apply valid_count_map.
  - destruct (i_valid _ I d x E V) as [X [Y W]]; rewrite made_none by (cbn; apply upd_length); constructor.
    + intros fd e J; cbn in J; apply dropN_In in J as [J N]; cbn in N; destruct (L fd e J) as [[y [E' [Q V']]]|A]; [left|now right].
      exists y; cbn; rewrite upd_nth; destruct (Nat.eqb_spec e d) as [->|]; [congruence|auto].
    + intros fd A; destruct (D fd A) as [e [J S]].
      assert (N : fd <> d_fd x).
      { intros ->; apply (map_dead s _ _ I J S d); exists x; auto. }
      exists e; cbn; split; [apply dropN_In; auto|]; destruct S as [y [E' [Q V']]]; exists y; cbn; rewrite upd_nth.
      destruct (Nat.eqb_spec e d) as [->|]; [congruence|auto].
    + cbn -[dropN]; unfold valid_count in *; cbn.
      assert (L1 := dropN_length _ _ _ (i_map _ I) W); assert (L2 := valid_count_close _ _ _ E V); lia.
  - assert (K : forall l e f v, is_socket s e f v -> g_data s' = g_data s ++ l -> is_socket s' e f v).
    { intros l e f v [x [E Q]] DD; exists x; split; [|exact Q]; rewrite DD, nth_error_app1; [exact E|apply nth_error_Some; congruence]. }
    assert (ND : forall e, ~ is_socket s e fd true).
    { intros e [x [E [Q V]]]; destruct (i_valid _ I e x E V) as [X _]; rewrite Q, <- O in X; exact (findN_None _ _ F _ X). }
    rewrite (adopt_some _ _ _ I1 F) in Ad; destruct (adds o).
    + destruct (findN fd (g_map s1)) as [d0|] eqn:Q; injection Ad as <-.
      * assert (DD : g_data (dropped fd s1) = g_data s ++ [mkDat fd false false]) by (cbn; now rewrite DE).
        rewrite (made_snoc _ _ _ _ _ DD); constructor.
        -- intros f d J; cbn in J; rewrite M in J; destruct (L f d J) as [A|A]; [left; eauto|now right].
        -- intros f A; destruct (D f A) as [d [J S]]; exists d; cbn; rewrite M; eauto.
        -- unfold valid_count; rewrite DD, filter_app, app_length; cbn; rewrite M, Nat.add_0_r; exact Z.
      * assert (DD : g_data (adopted fd s1) = g_data s ++ [mkDat fd true false]) by (cbn; now rewrite DE).
        rewrite (made_snoc _ _ _ _ _ DD); constructor.
        -- intros f d [J|J]; [injection J as <- <-; left|].
           ++ exists (mkDat fd true false); rewrite DD, DE, nth_error_app2, Nat.sub_diag by lia; repeat split.
           ++ rewrite M in J; destruct (L f d J) as [A|A]; [left; eauto|now right].
        -- intros f A; destruct (D f A) as [d [J S]]; exists d; cbn; rewrite M; eauto.
        -- unfold valid_count; rewrite DD, filter_app, app_length; cbn; rewrite M, Z; unfold valid_count; lia.
    + injection Ad as <-.
      assert (DD : g_data (unpolled fd s1) = g_data s ++ [mkDat fd false false]) by (cbn; now rewrite DE).
      rewrite (made_snoc _ _ _ _ _ DD); constructor.
      * intros f d [J|J]; [injection J as <- <-; right; now left|].
        rewrite M in J; apply dropN_In in J as [J N]; destruct (L f d J) as [A|A]; [left; eauto|right; now right].
      * intros f A; destruct (N.eq_dec f fd) as [->|N].
        -- exists (length (g_data s1)); split; [now left|].
           exists (mkDat fd false false); rewrite DD, DE, nth_error_app2, Nat.sub_diag by lia; repeat split.
        -- destruct A as [A|A]; [congruence|]; destruct (D f A) as [d [J S]]; exists d; split; [|eauto].
           cbn -[dropN]; rewrite M; right; apply dropN_In; auto.
      * unfold valid_count; rewrite DD, filter_app, app_length; cbn -[dropN nodup]; rewrite M, Nat.add_0_r; fold (valid_count s).
        cbn [nodup]; destruct (in_dec N.eq_dec fd R) as [A|A].
        -- destruct (D fd A) as [d [J _]]; assert (LL := dropN_length _ _ _ (i_map _ I) J); lia.
        -- rewrite dropN_absent; [cbn; lia|]; intros d J; destruct (L fd d J) as [B|B]; [exact (ND d B)|contradiction].
Qed.

Lemma tinv_exec : forall l s R s', ginv s -> tinv s R -> gexec l s = Ok s' RNone -> ginv s' /\ tinv s' (refused l s R).
Proof.
  induction l as [|o l IH]; intros s R s' I T H; cbn in *; [injection H as <-; auto|].
  assert (G := gstep_change o s I); destruct (gstep o s) as [s1 r| | |] eqn:E; try discriminate.
  exact (IH _ _ _ (proj1 G) (tinv_step _ _ _ _ _ I T E) H).
Qed.

Lemma tinv_run : forall l s, gexec l g_init = Ok s RNone -> ginv s /\ tinv s (refused l g_init []).
Proof.
  intros l s H; apply (tinv_exec l g_init [] s ginit_inv); [|exact H]; constructor; [intros fd d []|intros fd []|reflexivity].
Qed.

Lemma size_exact : forall l s, gexec l g_init = Ok s RNone ->
  length (g_map s) = valid_count s + length (nodup N.eq_dec (refused l g_init [])) /\
  (forall fd d, is_socket s d fd true -> In (fd, d) (g_map s) /\ ~ In fd (refused l g_init [])) /\
  (forall fd d, In (fd, d) (g_map s) -> is_socket s d fd true \/ is_socket s d fd false /\ In fd (refused l g_init [])).
Proof.
  intros l s H; destruct (tinv_run l s H) as [I [L D Z]]; split; [exact Z|]; split.
  - intros fd d S; split; [destruct S as [x [E [<- V]]]; apply (i_valid _ I d x E V)|].
    intros A; destruct (D fd A) as [e [J Q]]; exact (map_dead s _ _ I J Q d S).
  - intros fd d J; destruct (L fd d J) as [A|A]; [now left|right; split; [|exact A]].
    destruct (D fd A) as [e [K Q]]; now rewrite (nodup_fst _ _ _ _ (i_map _ I) J K).
Qed.

Lemma adopted_exact : forall l s o s' r fd v, gexec l g_init = Ok s RNone -> gstep o s = Ok s' r ->
  is_socket s' (length (g_data s)) fd v -> v = adds o && negb (memN fd (refused l g_init [])).
Proof.
  intros l s o s' r fd v H E S; destruct (tinv_run l s H) as [I [L D Z]].
  assert (G := gstep_change o s I); rewrite E in G; destruct G as [I' C].
  destruct S as [x [Ex [Fx Vx]]].
  assert (LL : length (g_data s') <> length (g_data s)).
  { intros Q; assert (nth_error (g_data s') (length (g_data s)) <> None) by congruence; apply nth_error_Some in H0; lia. }
  destruct C as [o s s' M DV|o s d y E' V|o s s1 f s' DE M O I1 F Ad].
  - destruct LL; apply (f_equal (@length _)) in DV; now rewrite !map_length in DV.
  - destruct LL; cbn; apply upd_length.
  - assert (ND : forall e, ~ is_socket s e f true).
    { intros e [z [E1 [Q V]]]; destruct (i_valid _ I e z E1 V) as [X _]; rewrite Q, <- O in X; exact (findN_None _ _ F _ X). }
    assert (LN : forall w, g_data s' = g_data s ++ [mkDat f w false] -> fd = f /\ v = w).
    { intros w Q; rewrite Q, nth_error_app2, Nat.sub_diag in Ex by lia; cbn in Ex; injection Ex as <-; auto. }
    rewrite (adopt_some _ _ _ I1 F) in Ad; destruct (adds o).
    + destruct (findN f (g_map s1)) as [d0|] eqn:Q; injection Ad as <-.
      * destruct (LN false) as [-> ->]; [cbn; now rewrite DE|].
        apply findN_In in Q; rewrite M in Q; destruct (L f d0 Q) as [A|A]; [destruct (ND _ A)|].
        symmetry; cbn; apply negb_false_iff; now apply memN_In.
      * destruct (LN true) as [-> ->]; [cbn; now rewrite DE|].
        symmetry; cbn; apply negb_true_iff, not_true_is_false; intros A; apply memN_In in A; destruct (D f A) as [d [J _]].
        rewrite <- M in J; exact (findN_None _ _ Q _ J).
    + injection Ad as <-; destruct (LN false) as [-> ->]; [cbn; now rewrite DE|reflexivity].
Qed.
