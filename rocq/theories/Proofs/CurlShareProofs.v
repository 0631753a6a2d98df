(** Proofs about objects sharing buffers. *)
From Coq Require Import List NArith Arith Bool Lia.
From Verif Require Import Model.Base Model.CurlShare Spec.CurlShareSpec.
Import ListNotations.

Lemma set_obj_in : forall i o l x, In x (set_obj i o l) -> x = o \/ In x l.
Proof.
  induction i as [|i IH]; intros o [|y l] x H; cbn in *; try tauto.
  - destruct H as [H|H]; auto.
  - destruct H as [H|H]; auto. apply IH in H as [H|H]; auto.
Qed.

Lemma set_obj_length : forall i o l, length (set_obj i o l) = length l.
Proof. induction i as [|i IH]; intros o [|y l]; cbn; auto. Qed.

Lemma set_obj_nth : forall i o l j, nth j (set_obj i o l) None = if Nat.eqb j i && Nat.ltb i (length l) then o else nth j l None.
Proof.
  induction i as [|i IH]; intros o [|y l] [|j]; cbn; try reflexivity.
  - now rewrite andb_false_r.
  - rewrite IH. reflexivity.
Qed.

Lemma set_obj_owns : forall b i o l, owns b o = owns b (nth i l None) -> existsb (owns b) (set_obj i o l) = existsb (owns b) l.
Proof.
  intros b. induction i as [|i IH]; intros o [|y l] H; cbn in *; try reflexivity.
  - now rewrite H.
  - now rewrite IH.
Qed.

Lemma nth_in : forall i (l : list (option curl)) k, nth i l None = Some k -> In (Some k) l.
Proof.
  intros i l k H. destruct (Nat.lt_ge_cases i (length l)) as [L|L].
  - rewrite <- H. now apply nth_In.
  - rewrite nth_overflow in H by exact L. discriminate.
Qed.

Definition good_obj (made : nat) (k : curl) : Prop :=
  k_own k < made /\ (forall r, k_ref k = Some r -> r = k_own k) /\ (forall b, k_rdbuf k = Some b -> k_ref k = Some b).

Definition inv (h : heap) : Prop :=
  (forall k, In (Some k) (h_objs h) -> good_obj (h_made h) k) /\
  (forall b, In b (h_freed h) <-> b < h_made h /\ existsb (owns b) (h_objs h) = false) /\
  NoDup (h_freed h).

Lemma inv_init : inv h_init.
Proof.
  split; [|split]; cbn; [intros k []| |constructor]. intro b. split; [intros []|]. intros [L _]. lia.
Qed.

Lemma inv_alive : forall h k, inv h -> In (Some k) (h_objs h) -> gone (k_own k) h = false.
Proof.
  intros h k (I1 & I2 & I3) K. unfold gone. destruct (existsb (Nat.eqb (k_own k)) (h_freed h)) eqn:E; [|reflexivity].
  apply existsb_exists in E as (x & IX & EX). apply Nat.eqb_eq in EX. subst x. apply I2 in IX as [_ N].
  rewrite <- N. symmetry. apply existsb_exists. exists (Some k). split; [exact K|]. cbn. apply Nat.eqb_refl.
Qed.

Lemma inv_add : forall h k, inv h -> good_obj (h_made h) k -> gone (k_own k) h = false -> inv (add_obj k h).
Proof.
  intros h k (I1 & I2 & I3) G A. split; [|split]; cbn.
  - intros x H. apply in_app_iff in H as [H|[H|[]]]; [now apply I1|]. now injection H as <-.
  - intro b. rewrite existsb_app. cbn. rewrite orb_false_r, I2. split.
    + intros [L N]. split; [exact L|]. rewrite N. cbn. destruct (Nat.eqb_spec (k_own k) b) as [<-|D]; [|reflexivity].
      exfalso. assert (J : In (k_own k) (h_freed h)) by (apply I2; auto).
      unfold gone in A. assert (T : existsb (Nat.eqb (k_own k)) (h_freed h) = true).
      { apply existsb_exists. exists (k_own k). split; [exact J|apply Nat.eqb_refl]. }
      congruence.
    + intros [L N]. apply orb_false_iff in N as [N _]. auto.
  - exact I3.
Qed.

Lemma inv_step : forall a h, inv h -> k_step a h <> KUndef /\ forall h', k_step a h = KOn h' -> inv h'.
Proof.
  intros a h I. assert (I0 := I). destruct I0 as (I1 & I2 & I3).
  unfold k_step. destruct (h_exit h) eqn:EX; [split; discriminate|].
  destruct a as [|i|i|i|i|i t|i|i|i].
  - split; [discriminate|]. intros h' E. injection E as <-. split; [|split]; cbn.
    + intros k H. apply in_app_iff in H as [H|[H|[]]].
      * destruct (I1 k H) as (G1 & G2 & G3). split; [lia|auto].
      * injection H as <-. unfold good_obj; cbn. repeat split; [lia| |]; intros x E; congruence.
    + intro b. rewrite existsb_app. cbn. rewrite orb_false_r, I2. split.
      * intros [L N]. split; [lia|]. rewrite N. cbn. apply Nat.eqb_neq. lia.
      * intros [L N]. apply orb_false_iff in N as [N D]. apply Nat.eqb_neq in D. split; [lia|exact N].
    + exact I3.
  - destruct (nth i (h_objs h) None) as [[b [r|] w]|] eqn:E; try (split; discriminate).
    split; [discriminate|]. intros h' E'. injection E' as <-. apply nth_in in E.
    apply inv_add; [exact I| |exact (inv_alive h _ I E)].
    destruct (I1 _ E) as (G1 & G2 & G3). cbn in *. repeat split; cbn; auto. discriminate.
  - destruct (nth i (h_objs h) None) as [[b [r|] w]|] eqn:E; try (split; discriminate).
    split; [discriminate|]. intros h' E'. injection E' as <-. assert (K := nth_in _ _ _ E).
    destruct (I1 _ K) as (G1 & G2 & G3). cbn in *.
    set (h1 := mkHeap _ _ _ _ _).
    assert (J : inv h1).
    { split; [|split]; cbn.
      - intros k H. apply set_obj_in in H as [H|H]; [|now apply I1]. injection H as ->. repeat split; cbn; auto. discriminate.
      - intro x. rewrite set_obj_owns by (rewrite E; reflexivity). apply I2.
      - exact I3. }
    apply inv_add; [exact J| |].
    + repeat split; cbn; auto.
    + apply (inv_alive h _ I K).
  - destruct (nth i (h_objs h) None) as [k|] eqn:E; [|split; discriminate].
    split; [discriminate|]. intros h' E'. injection E' as <-. apply nth_in in E.
    apply inv_add; [exact I| |exact (inv_alive h _ I E)].
    destruct (I1 _ E) as (G1 & _). repeat split; cbn; auto; discriminate.
  - destruct (nth i (h_objs h) None) as [k|] eqn:E; [|split; discriminate]. assert (K := nth_in _ _ _ E).
    assert (G : forall x, In (Some x) (set_obj i None (h_objs h)) -> good_obj (h_made h) x).
    { intros x H. apply set_obj_in in H as [H|H]; [discriminate|now apply I1]. }
    assert (O : forall b, b <> k_own k -> existsb (owns b) (set_obj i None (h_objs h)) = existsb (owns b) (h_objs h)).
    { intros b D. apply set_obj_owns. rewrite E. cbn. symmetry. apply Nat.eqb_neq. congruence. }
    assert (A := inv_alive h k I K).
    assert (NF : ~ In (k_own k) (h_freed h)).
    { intro J. unfold gone in A. assert (T : existsb (Nat.eqb (k_own k)) (h_freed h) = true).
      { apply existsb_exists. exists (k_own k). split; [exact J|apply Nat.eqb_refl]. } congruence. }
    destruct (I1 k K) as (G1 & _).
    destruct (existsb (owns (k_own k)) (set_obj i None (h_objs h))) eqn:S; (split; [discriminate|]);
      intros h' E'; injection E' as <-; (split; [exact G|split]); cbn.
    + intro b. destruct (Nat.eq_dec b (k_own k)) as [-> |D].
      * rewrite S. split; [tauto|intros [_ X]; discriminate].
      * rewrite O by exact D. apply I2.
    + exact I3.
    + intro b. rewrite in_app_iff. cbn. destruct (Nat.eq_dec b (k_own k)) as [-> |D].
      * rewrite S. tauto.
      * rewrite O by exact D. rewrite I2. split; [intros [X|[X|[]]]; [exact X|congruence]|auto].
    + assert (P := NoDup_Add (a := k_own k) (l := h_freed h) (l' := h_freed h ++ [k_own k])).
      apply P; [|split; assumption].
      rewrite <- (app_nil_r (h_freed h)) at 1. apply Add_app.
  - destruct (nth i (h_objs h) None) as [[b [r|] [w|]]|] eqn:E; try (split; discriminate).
    + apply nth_in in E. destruct (I1 _ E) as (G1 & G2 & G3). cbn in *. assert (A := inv_alive h _ I E). cbn in A.
      assert (R : w = b). { assert (X := G3 w eq_refl). injection X as <-. now apply G2. }
      subst w. rewrite A. split; [discriminate|]. intros h' E'. injection E' as <-. split; [exact I1|split; assumption].
    + split; [discriminate|]. intros h' E'. injection E' as <-. exact I.
  - destruct (nth i (h_objs h) None) as [[b [r|] w]|] eqn:E; try (split; discriminate).
    apply nth_in in E. destruct (I1 _ E) as (G1 & G2 & G3). cbn in *. assert (A := inv_alive h _ I E). cbn in A.
    rewrite (G2 r eq_refl), A. split; [discriminate|]. intros h' E'. injection E' as <-. exact I.
  - destruct (nth i (h_objs h) None) as [k|] eqn:E; [|split; discriminate].
    apply nth_in in E. rewrite (inv_alive h _ I E). split; [discriminate|]. intros h' E'. injection E' as <-. exact I.
  - destruct (nth i (h_objs h) None) as [[b [r|] w]|] eqn:E; [| |split; discriminate].
    + apply nth_in in E. destruct (I1 _ E) as (G1 & G2 & G3). cbn in *. assert (A := inv_alive h _ I E). cbn in A.
      rewrite (G2 r eq_refl), A. split; [discriminate|]. intros h' E'. injection E' as <-.
      apply inv_add; [exact I| |exact A]. repeat split; cbn; auto; discriminate.
    + split; [discriminate|]. intros h' E'. injection E' as <-. split; [exact I1|split; assumption].
Qed.

Lemma inv_run : forall l h, inv h -> k_run l h <> KUndef /\ forall h', k_run l h = KOn h' -> inv h'.
Proof.
  induction l as [|a l IH]; intros h I; cbn.
  - split; [discriminate|]. intros h' E. now injection E as <-.
  - destruct (inv_step a h I) as [U N]. destruct (k_step a h) as [h1| |]; [apply IH, N; reflexivity|split; discriminate|congruence].
Qed.

Lemma share_safe : forall l, k_run l h_init <> KUndef.
Proof. intro l. apply (inv_run l h_init inv_init). Qed.

Lemma shares_exists : forall h b, (exists i, shares h i b) <-> existsb (owns b) (h_objs h) = true.
Proof.
  intros h b. rewrite existsb_exists. split.
  - intros (i & k & N & E). exists (Some k). split; [now apply nth_error_In in N|]. cbn. now apply Nat.eqb_eq.
  - intros ([k|] & I & E); [|discriminate]. apply In_nth_error in I as [i N]. exists i, k. split; [exact N|]. now apply Nat.eqb_eq.
Qed.

Lemma share_freed : forall h, k_reached h ->
  NoDup (h_freed h) /\ forall b, In b (h_freed h) <-> b < h_made h /\ forall i, ~ shares h i b.
Proof.
  intros h [l R]. destruct (proj2 (inv_run l h_init inv_init) h R) as (I1 & I2 & I3). split; [exact I3|].
  intro b. rewrite I2. split; intros [L N]; (split; [exact L|]).
  - intros i S. assert (T := proj1 (shares_exists h b) (ex_intro _ i S)). congruence.
  - destruct (existsb (owns b) (h_objs h)) eqn:E; [|reflexivity]. apply shares_exists in E as [i S]. now apply N in S.
Qed.

(** * Who can write *)
Definition rdbuf_at (h : heap) (i : nat) : option nat := match nth i (h_objs h) None with Some k => k_rdbuf k | None => None end.

Lemma app_longer : forall (x : list N) c, x = x ++ [c] -> False.
Proof. intros x c E. apply (f_equal (@length N)) in E. rewrite app_length in E. cbn in E. lia. Qed.

Lemma writes_rdbuf : forall h i b, writes_to h i b -> rdbuf_at h i = Some b.
Proof.
  intros h i b W. destruct (W [0%N]) as (h' & E & T). unfold rdbuf_at. unfold k_step in E.
  destruct (h_exit h); [discriminate|].
  destruct (nth i (h_objs h) None) as [[o [r|] [w|]]|]; try discriminate; cbn.
  - destruct (gone w h); [discriminate|]. injection E as <-. cbn in T.
    destruct (Nat.eqb_spec b w) as [-> |D]; [reflexivity|]. destruct (app_longer _ _ T).
  - injection E as <-. destruct (app_longer _ _ T).
Qed.

Definition single (h : heap) : Prop := forall i j b, rdbuf_at h i = Some b -> rdbuf_at h j = Some b -> i = j.

Lemma rdbuf_add : forall k h i, rdbuf_at (add_obj k h) i
  = if Nat.eqb i (length (h_objs h)) then k_rdbuf k else rdbuf_at h i.
Proof.
  intros k h i. unfold rdbuf_at. cbn. destruct (Nat.eqb_spec i (length (h_objs h))) as [-> |D].
  - rewrite app_nth2, Nat.sub_diag by lia. reflexivity.
  - destruct (Nat.lt_ge_cases i (length (h_objs h))) as [L|L].
    + now rewrite app_nth1.
    + rewrite !nth_overflow; [reflexivity|lia|rewrite app_length; cbn; lia].
Qed.

Lemma rdbuf_in : forall h i b, inv h -> rdbuf_at h i = Some b -> b < h_made h /\ i < length (h_objs h) /\
  forall k, nth i (h_objs h) None = Some k -> k_ref k = Some b.
Proof.
  intros h i b (I1 & _) R. unfold rdbuf_at in R. destruct (nth i (h_objs h) None) as [k|] eqn:E; [|discriminate].
  assert (K := nth_in _ _ _ E). destruct (I1 k K) as (G1 & G2 & G3). assert (F := G3 b R). split; [|split].
  - rewrite (G2 b F). exact G1.
  - destruct (Nat.lt_ge_cases i (length (h_objs h))) as [L|L]; [exact L|]. rewrite nth_overflow in E by exact L. discriminate.
  - intros k' E'. injection E' as <-. exact F.
Qed.

Lemma single_add : forall k h, single h -> k_rdbuf k = None -> single (add_obj k h).
Proof.
  intros k h S N i j b. rewrite !rdbuf_add, N.
  destruct (Nat.eqb i (length (h_objs h))); [discriminate|]. destruct (Nat.eqb j (length (h_objs h))); [discriminate|]. apply S.
Qed.

Lemma single_step : forall a h h', inv h -> single h ->
  match a with KMove i => exists b, writes_to h i b | _ => True end -> k_step a h = KOn h' -> single h'.
Proof.
  intros a h h' I S M E. unfold k_step in E. destruct (h_exit h) eqn:EX; [discriminate|].
  destruct a as [|i|i|i|i|i t|i|i|i].
  - injection E as <-. intros i j b.
    assert (Q : forall x, rdbuf_at (mkHeap (h_objs h ++ [Some (mkK (h_made h) (Some (h_made h)) (Some (h_made h)))])
        (Datatypes.S (h_made h)) (h_freed h) (h_text h) false) x
      = if Nat.eqb x (length (h_objs h)) then Some (h_made h) else rdbuf_at h x).
    { intro x. apply (rdbuf_add (mkK (h_made h) (Some (h_made h)) (Some (h_made h))) h x). }
    rewrite !Q. destruct (Nat.eqb_spec i (length (h_objs h))), (Nat.eqb_spec j (length (h_objs h))); intros A B; try congruence.
    + injection A as <-. apply rdbuf_in in B as [B _]; [lia|exact I].
    + injection B as <-. apply rdbuf_in in A as [A _]; [lia|exact I].
    + now apply (S i j b).
  - destruct (nth i (h_objs h) None) as [[b [r|] w]|] eqn:F; try discriminate. injection E as <-. now apply single_add.
  - destruct (nth i (h_objs h) None) as [[b [r|] w]|] eqn:F; try discriminate. injection E as <-.
    destruct M as [b0 M]. apply writes_rdbuf in M. assert (X := rdbuf_in h i b0 I M). destruct X as (_ & LI & X).
    specialize (X _ F). cbn in X. injection X as <-.
    set (h1 := mkHeap (set_obj i (Some (mkK b (Some r) None)) (h_objs h)) (h_made h) (h_freed h) (h_text h) false).
    assert (Q : forall x, rdbuf_at h1 x = if Nat.eqb x i then None else rdbuf_at h x).
    { intro x. unfold rdbuf_at. cbn. rewrite set_obj_nth. assert (T : Nat.ltb i (length (h_objs h)) = true) by now apply Nat.ltb_lt.
      rewrite T, andb_true_r. destruct (Nat.eqb x i); reflexivity. }
    intros x y c. rewrite !rdbuf_add, !Q. cbn [h_objs h1 k_rdbuf]. unfold h1. cbn [h_objs]. rewrite set_obj_length.
    destruct (Nat.eqb_spec x (length (h_objs h))), (Nat.eqb_spec y (length (h_objs h))); intros A B; try congruence.
    + injection A as <-. destruct (Nat.eqb_spec y i); [discriminate|]. destruct n0. now apply (S y i r).
    + injection B as <-. destruct (Nat.eqb_spec x i); [discriminate|]. destruct n0. now apply (S x i r).
    + destruct (Nat.eqb x i); [discriminate|]. destruct (Nat.eqb y i); [discriminate|]. now apply (S x y c).
  - destruct (nth i (h_objs h) None) as [k|]; [|discriminate]. injection E as <-. now apply single_add.
  - destruct (nth i (h_objs h) None) as [k|]; [|discriminate].
    assert (Q : forall h2, h_objs h2 = set_obj i None (h_objs h) -> single h2).
    { intros h2 O x y c. unfold rdbuf_at. rewrite O, !set_obj_nth.
      destruct (Nat.eqb x i && Nat.ltb i (length (h_objs h))); [discriminate|].
      destruct (Nat.eqb y i && Nat.ltb i (length (h_objs h))); [discriminate|]. apply S. }
    destruct (existsb (owns (k_own k)) (set_obj i None (h_objs h))); injection E as <-; apply Q; reflexivity.
  - destruct (nth i (h_objs h) None) as [[b [r|] [w|]]|]; try discriminate.
    + destruct (gone w h); [discriminate|]. injection E as <-. exact S.
    + injection E as <-. exact S.
  - destruct (nth i (h_objs h) None) as [[b [r|] w]|]; try discriminate. destruct (gone r h); [discriminate|]. now injection E as <-.
  - destruct (nth i (h_objs h) None) as [k|]; [|discriminate]. destruct (gone (k_own k) h); [discriminate|]. now injection E as <-.
  - destruct (nth i (h_objs h) None) as [[b [r|] w]|]; [| |discriminate].
    + destruct (gone b h || gone r h); [discriminate|]. injection E as <-. now apply single_add.
    + injection E as <-. exact S.
Qed.

Lemma one_writer : forall l h i j b, k_run l h_init = KOn h -> moves_writers l h_init ->
  writes_to h i b -> writes_to h j b -> i = j.
Proof.
  assert (G : forall l h0 h, inv h0 -> single h0 -> moves_writers l h0 -> k_run l h0 = KOn h -> single h).
  { induction l as [|a l IH]; intros h0 h I S M E; cbn in *; [now injection E as <-|].
    destruct M as [M1 M2]. destruct (k_step a h0) as [h1| |] eqn:K; try discriminate.
    apply (IH h1 h); try assumption; [now apply (inv_step a h0 I)|now apply (single_step a h0 h1)]. }
  intros l h i j b E M W1 W2. apply (G l h_init h inv_init) with (b := b); try assumption; try now apply writes_rdbuf.
  intros x y c A. unfold rdbuf_at in A. cbn in A. destruct x; discriminate.
Qed.

(** What a reader of the family sees: a buffer some living object writes to is
    among those it shares. *)
Lemma writer_shares : forall h i b, k_reached h -> writes_to h i b -> shares h i b.
Proof.
  intros h i b [l R] W. apply writes_rdbuf in W. assert (I := proj2 (inv_run l h_init inv_init) h R).
  unfold rdbuf_at in W. destruct (nth i (h_objs h) None) as [k|] eqn:E; [|discriminate].
  assert (L : i < length (h_objs h)).
  { destruct (Nat.lt_ge_cases i (length (h_objs h))) as [L|L]; [exact L|]. rewrite nth_overflow in E by exact L. discriminate. }
  exists k. split; [rewrite (nth_error_nth' _ None L); now rewrite E|].
  destruct I as (I1 & _). destruct (I1 k (nth_in _ _ _ E)) as (_ & G2 & G3). symmetry. apply G2, G3, W.
Qed.

Lemma nth_last : forall (l : list (option curl)) x, nth (length l) (l ++ [x]) None = x.
Proof. intros l x. rewrite app_nth2, Nat.sub_diag by lia. reflexivity. Qed.

Lemma derived_shares : forall h h' i b a, In a [KCopy i; KMove i; KSlice i; KQueue i] ->
  shares h i b -> k_step a h = KOn h' -> h_exit h' = false ->
  shares h' i b /\ shares h' (length (h_objs h)) b /\ length (h_objs h') = S (length (h_objs h)).
Proof.
  intros h h' i b a A (k & N & <-) E X.
  assert (F : nth i (h_objs h) None = Some k) by now apply nth_error_nth.
  assert (L : i < length (h_objs h)) by (apply nth_error_Some; congruence).
  assert (G : forall l k', length l = length (h_objs h) -> k_own k' = k_own k ->
    (exists k2, nth_error l i = Some (Some k2) /\ k_own k2 = k_own k) ->
    forall h2, h_objs h2 = l ++ [Some k'] ->
    shares h2 i (k_own k) /\ shares h2 (length (h_objs h)) (k_own k) /\ length (h_objs h2) = S (length (h_objs h))).
  { intros l k' LL OK (k2 & N2 & O2) h2 E2. unfold shares. rewrite E2. split; [|split].
    - exists k2. split; [|exact O2]. now rewrite nth_error_app1 by lia.
    - exists k'. split; [|exact OK]. rewrite nth_error_app2, LL, Nat.sub_diag by lia. reflexivity.
    - rewrite app_length, LL. cbn. lia. }
  unfold k_step in E. destruct (h_exit h); [discriminate|].
  destruct A as [<-|[<-|[<-|[<-|[]]]]]; rewrite F in E.
  - destruct k as [o [r|] w]; [|discriminate]. injection E as <-.
    apply (G (h_objs h) (mkK o (Some r) None)); [reflexivity|reflexivity| |reflexivity]. exists (mkK o (Some r) w). auto.
  - destruct k as [o [r|] w]; [|discriminate]. injection E as <-.
    apply (G (set_obj i (Some (mkK o (Some r) None)) (h_objs h)) (mkK o (Some r) (Some r))); [apply set_obj_length|reflexivity| |reflexivity].
    exists (mkK o (Some r) None). split; [|reflexivity].
    rewrite (nth_error_nth' _ None) by (rewrite set_obj_length; exact L). rewrite set_obj_nth, Nat.eqb_refl.
    apply Nat.ltb_lt in L. now rewrite L.
  - injection E as <-. apply (G (h_objs h) (mkK (k_own k) None None)); [reflexivity|reflexivity| |reflexivity]. exists k. auto.
  - destruct k as [o [r|] w].
    + destruct (gone o h || gone r h); [discriminate|]. injection E as <-.
      apply (G (h_objs h) (mkK o None None)); [reflexivity|reflexivity| |reflexivity]. exists (mkK o (Some r) w). auto.
    + injection E as <-. discriminate.
Qed.

Lemma move_writes : forall h h' i b, k_reached h -> shares h i b -> k_step (KMove i) h = KOn h' ->
  writes_to h' (length (h_objs h)) b /\ forall t h'', k_step (KWrite i t) h' = KOn h'' -> h'' = h'.
Proof.
  intros h h' i b [l R] (k & N & <-) E. assert (I := proj2 (inv_run l h_init inv_init) h R).
  assert (F : nth i (h_objs h) None = Some k) by now apply nth_error_nth.
  assert (L : i < length (h_objs h)) by (apply nth_error_Some; congruence).
  assert (A := inv_alive h k I (nth_in _ _ _ F)). destruct I as (I1 & _). destruct (I1 k (nth_in _ _ _ F)) as (_ & G2 & _).
  unfold k_step in E. destruct (h_exit h) eqn:EX; [discriminate|]. rewrite F in E.
  destruct k as [o [r|] w]; [|discriminate]. assert (X := G2 r eq_refl). cbn in X, A. subst r. injection E as <-. split.
  - intro t. unfold k_step. cbn [h_exit add_obj h_objs].
    rewrite <- (set_obj_length i (Some (mkK o (Some o) None)) (h_objs h)), nth_last. cbn [k_own].
    unfold gone in *. cbn [h_freed add_obj]. rewrite A. eexists; split; [reflexivity|]. cbn. now rewrite Nat.eqb_refl.
  - intros t h''. unfold k_step. cbn [h_exit add_obj h_objs].
    rewrite app_nth1 by (rewrite set_obj_length; exact L). rewrite set_obj_nth, Nat.eqb_refl. apply Nat.ltb_lt in L. rewrite L. cbn [andb].
    intro E. now injection E as <-.
Qed.

Lemma copy_mute : forall h h' i t h'', k_step (KCopy i) h = KOn h' -> k_step (KWrite (length (h_objs h)) t) h' = KOn h'' -> h'' = h'.
Proof.
  intros h h' i t h'' E. unfold k_step in E. destruct (h_exit h) eqn:EX; [discriminate|].
  destruct (nth i (h_objs h) None) as [[o [r|] w]|]; try discriminate. injection E as <-.
  unfold k_step. cbn [h_exit add_obj h_objs]. rewrite EX, nth_last. intro E. now injection E as <-.
Qed.

Lemma slice_exits : forall h h1 h2 i, k_step (KSlice i) h = KOn h1 -> k_step (KQueue (length (h_objs h))) h1 = KOn h2 -> h_exit h2 = true.
Proof.
  intros h h1 h2 i E. unfold k_step in E. destruct (h_exit h) eqn:EX; [discriminate|].
  destruct (nth i (h_objs h) None) as [k|]; [|discriminate]. injection E as <-.
  unfold k_step. cbn [h_exit add_obj h_objs]. rewrite EX, nth_last. intro E. now injection E as <-.
Qed.

Lemma two_writers : exists h, k_run [KNew; KCopy 0; KMove 1] h_init = KOn h /\ writes_to h 0 0 /\ writes_to h 2 0.
Proof.
  eexists. split; [reflexivity|]. split; intro t; eexists; split; reflexivity.
Qed.
