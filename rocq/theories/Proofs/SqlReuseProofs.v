From Coq Require Import List NArith ZArith Bool Lia Arith.
From Verif Require Import Model.Base Model.Endian Model.Sql Model.SqlReuse Spec.EndianSpec Spec.StreamSpec Spec.PgSpec Spec.SqlSpec Spec.SqlReuseSpec
  Proofs.SqlProofs.
Import ListNotations.
Local Open Scope N_scope.

Local Notation vals_t := (list {t : sqlty & val t}).

(** * Lists *)
Lemma replace_set : forall A i (x : A) l, replace i x l = set_nth i x l.
Proof.
  intros A i x l. unfold set_nth. revert l; induction i as [|i IH]; intros [|y l]; try reflexivity.
  cbn [replace length]. rewrite IH. change (Nat.ltb (S i) (S (length l))) with (Nat.ltb i (length l)).
  destruct (Nat.ltb i (length l)); reflexivity.
Qed.
Lemma replace_length : forall A i (x : A) l, length (replace i x l) = length l.
Proof. induction i as [|i IH]; intros x [|y l]; try reflexivity; cbn [replace length]; now rewrite IH. Qed.
Lemma replace_same : forall A i (x : A) l, (i < length l)%nat -> nth_error (replace i x l) i = Some x.
Proof. induction i as [|i IH]; intros x [|y l] H; cbn [length] in H; try lia; [reflexivity|]; cbn [replace nth_error]; apply IH; lia. Qed.
Lemma replace_other : forall A i j (x : A) l, i <> j -> nth_error (replace i x l) j = nth_error l j.
Proof. induction i as [|i IH]; intros [|j] x [|y l] H; try reflexivity; try (now elim H); cbn [replace nth_error]; apply IH; congruence. Qed.
Lemma nth_lt : forall A (l : list A) i x, nth_error l i = Some x -> (i < length l)%nat.
Proof. intros A l i x H; apply nth_error_Some; congruence. Qed.

(** * Runs *)
Lemma prun_app : forall strict a b p p', prun strict (a ++ b) p = Some p' -> exists q, prun strict a p = Some q /\ prun strict b q = Some p'.
Proof.
  intros strict a; induction a as [|x a IH]; intros b p p' H; [exists p; now split|].
  cbn [app prun] in *. destruct (pstep strict x p) as [q|]; [|discriminate]. now apply IH.
Qed.
Lemma values_app : forall v a b, values v (a ++ b) = values (values v a) b.
Proof. intros; unfold values; apply fold_left_app. Qed.
Lemma values_cons : forall v x b, values v (x :: b) = values (value_after v x) b.
Proof. reflexivity. Qed.

(** * Types *)
Lemma num_eqb_eq : forall a b, num_eqb a b = true -> a = b.
Proof. intros [] []; try discriminate; reflexivity. Qed.
Lemma sqlty_eqb_eq : forall a b, sqlty_eqb a b = true -> a = b.
Proof. intros [] []; try discriminate; cbn; intros H; try reflexivity; apply num_eqb_eq in H; now subst. Qed.

Lemma place_keeping : forall t, in_place t = true <-> keeping_of t = Inside.
Proof. intros []; cbn; split; congruence. Qed.

Lemma fixed_size : forall strict t (v w : val t) m n, in_place t = true -> fits t v -> fits t w -> param strict t v = Val m -> param strict t w = Val n ->
  length m = length n.
Proof.
  intros strict t v w m n I F G P Q; destruct t as [|k| | | | | | |k| |]; try discriminate; cbn [param] in P, Q.
  - injection P as <-; injection Q as <-; reflexivity.
  - injection P as <-; injection Q as <-. rewrite !map_length. pose proof (be_set_length k v) as A; pose proof (be_set_length k w) as B. lia.
  - destruct (is_i64 (v - epoch_us)); [|discriminate]; destruct (is_i64 (w - epoch_us)); [|discriminate].
    assert (m = map Some (set_i64 (v - epoch_us))) as -> by congruence. assert (n = map Some (set_i64 (w - epoch_us))) as -> by congruence. rewrite !map_length. reflexivity.
  - assert (m = map Some (set_i32 (v - epoch_days))) as -> by congruence. assert (n = map Some (set_i32 (w - epoch_days))) as -> by congruence. rewrite !map_length. reflexivity.
  - assert (m = map Some ([3; 128; 0; 16] ++ v)) as -> by congruence. assert (n = map Some ([3; 128; 0; 16] ++ w)) as -> by congruence. rewrite !map_length, !app_length. destruct F as (-> & _), G as (-> & _). reflexivity.
Qed.

(** * What the memory of a parameter holds *)
Definition slot_ok (strict : bool) (v : {t : sqlty & val t}) (s : slot) : Prop :=
  s_ty s = projT1 v /\ exists m, param strict (projT1 v) (projT2 v) = Val m /\ s_size s = N.of_nat (length m) /\
    firstn (length m) (s_mem s) = m /\ (keeping_of (s_ty s) = Block -> s_mem s = m) /\ (s_block s = None -> v = existT val BYTEA []).

Lemma null_data_empty : forall strict v m, param strict (projT1 v) (projT2 v) = Val m -> null_data (projT1 v) m = true -> v = existT val BYTEA [].
Proof.
  intros strict [t v] m P N; cbn [projT1 projT2] in *; destruct t; try discriminate. destruct m; [|discriminate].
  cbn [param] in P. destruct v as [|x v]; [reflexivity|discriminate].
Qed.
Lemma firstn_own : forall (A : Type) (m : list A) r, firstn (length m) (m ++ r) = m.
Proof. intros; rewrite firstn_app, Nat.sub_diag, firstn_all; cbn [firstn]; apply app_nil_r. Qed.

Lemma new_ok : forall strict k v s, new_slot strict k v = Some s -> slot_ok strict v s.
Proof.
  intros strict k v s H; unfold new_slot in H. destruct (param strict (projT1 v) (projT2 v)) as [m|] eqn:P; [|discriminate].
  injection H as <-. split; [reflexivity|]. exists m. cbn [s_size s_mem s_block s_ty]. split; [exact P|]. split; [reflexivity|].
  split; [|split].
  - unfold stored. destruct (keeping_of (projT1 v)); [|apply firstn_own| |]; apply firstn_all.
  - unfold stored. intros ->. reflexivity.
  - destruct (null_data (projT1 v) m) eqn:N; [|discriminate]. intros _. now apply (null_data_empty strict v m).
Qed.
Lemma new_all : forall strict l k r, new_slots strict k l = Some r -> length r = length l /\
  (forall i v, nth_error l i = Some v -> exists s, nth_error r i = Some s /\ slot_ok strict v s /\ forall b, s_block s = Some b -> (b < k + length l)%nat).
Proof.
  intros strict l; induction l as [|v l IH]; intros k r H; cbn [new_slots] in H; [injection H as <-; split; [reflexivity|]; intros [|i] v; discriminate|].
  destruct (new_slot strict k v) as [s|] eqn:HS; [|discriminate]. destruct (new_slots strict (S k) l) as [r'|] eqn:R; [|discriminate].
  injection H as <-. apply IH in R as (L & R). split; [cbn [length]; now rewrite L|].
  intros [|i] w N; cbn [nth_error] in *.
  - injection N as <-. exists s. split; [reflexivity|]. split; [now apply (new_ok strict k)|].
    intros b B. unfold new_slot in HS. destruct (param _ _ _) as [m|]; [|discriminate]. injection HS as <-. cbn [s_block] in B. destruct (null_data _ _); [discriminate|].
    injection B as <-. cbn [length]. lia.
  - destruct (R i w N) as (s' & A & B & C). exists s'. split; [exact A|]. split; [exact B|]. intros b E. specialize (C b E). cbn [length]. lia.
Qed.

Lemma assign_ok : forall strict s t v m mv k, s_ty s = t -> (keeping_of t = Inside -> s_block s <> None) -> (keeping_of t = SqlReuse.String -> s_block s <> None) -> param strict t v = Val m -> slot_ok strict (existT val t v) (assign s m mv k).
Proof.
  intros strict s t v m mv k T N1 N2 P. unfold slot_ok. cbn [projT1 projT2]. unfold assign. rewrite T.
  destruct (keeping_of t) eqn:K.
  - split; [reflexivity|]. exists m. cbn [s_size s_mem s_block s_ty]. split; [exact P|]. split; [reflexivity|]. split; [apply firstn_all|]. split; [congruence|].
    intros B. now elim (N1 eq_refl).
  - destruct mv.
    + split; [reflexivity|]. exists m. cbn [s_size s_mem s_block s_ty]. split; [exact P|]. split; [reflexivity|]. split; [apply firstn_own|]. split; congruence.
    + split; [reflexivity|]. exists m. cbn [s_size s_mem s_block s_ty]. split; [exact P|]. split; [reflexivity|]. split; [apply firstn_own|]. split; [congruence|].
      intros B. now elim (N2 eq_refl).
  - assert (W : slot_ok strict (existT val t v) (mkSlot t m (N.of_nat (length m)) (if null_data t m then None else Some k))).
    { split; [reflexivity|]. exists m. cbn [s_size s_mem s_block s_ty projT1 projT2]. split; [exact P|]. split; [reflexivity|]. split; [apply firstn_all|]. split; [reflexivity|].
      destruct (null_data t m) eqn:N; [|discriminate]. intros _. now apply (null_data_empty strict (existT val t v) m). }
    destruct (s_block s) as [b|]; [|exact W]. destruct mv; [exact W|].
    split; [reflexivity|]. exists m. cbn [s_size s_mem s_block s_ty]. split; [exact P|]. split; [reflexivity|]. split; [apply firstn_own|]. split; [congruence|discriminate].
  - split; [reflexivity|]. exists m. cbn [s_size s_mem s_block s_ty]. split; [exact P|]. split; [reflexivity|]. split; [apply firstn_all|]. split; [reflexivity|discriminate].
Qed.

(** An element of an array. *)
Lemma num_form : forall n l m, fits (ARRAY n) l -> array_num n l = Val m ->
  m = map Some (head (num_oid n) (length l) ++ items (map (fun z => pg_send1 (num_means n z)) l)).
Proof. intros n l m [F A] E; rewrite array_num_ok in E by assumption. congruence. Qed.
Lemma set_element : forall n l m k z m', fits (ARRAY n) l -> fits (ARRAY n) (set_nth (N.to_nat k) z l) -> array_num n l = Val m -> set_at n m k z = Val m' ->
  array_num n (set_nth (N.to_nat k) z l) = Val m'.
Proof.
  intros n l m k z m' F G P HS. pose proof (num_form n l m F P) as M.
  assert (L : (N.to_nat k < length l)%nat).
  { unfold set_at in HS. apply put_length in HS as (_ & HS). rewrite be_set_length in HS. rewrite M, map_length, app_length, head_length, items_num_length in HS.
    destruct n; cbn [width] in HS; lia. }
  revert G; unfold set_nth. destruct (Nat.ltb_spec (N.to_nat k) (length l)); [|lia]. intros G.
  destruct (nth_error l (N.to_nat k)) as [y|] eqn:Y; [|apply nth_error_None in Y; lia].
  apply nth_error_split in Y as (a & b & -> & La).
  assert (X : firstn (N.to_nat k) (a ++ y :: b) ++ z :: skipn (S (N.to_nat k)) (a ++ y :: b) = a ++ z :: b).
  { rewrite <- La, firstn_own. f_equal. f_equal. rewrite skipn_app, skipn_all2 by lia. now replace (S (length a) - length a)%nat with 1%nat by lia. }
  rewrite X in *. destruct G as [G1 G2]. rewrite array_num_ok by assumption. f_equal.
  unfold set_at, put in HS. destruct (_ <=? _); [|discriminate]. assert (S' : m' = firstn (N.to_nat (24 + k * (4 + width n))) m ++ map Some (be_set n z) ++ skipn (N.to_nat (24 + k * (4 + width n)) + length (be_set n z)) m) by congruence. clear HS.
  rewrite S', M. replace (length (a ++ z :: b)) with (length (a ++ y :: b)) by (rewrite !app_length; reflexivity).
  assert (I : forall q, items (map (fun z => pg_send1 (num_means n z)) (a ++ q :: b)) = items (map (fun z => pg_send1 (num_means n z)) a) ++
    be_signed 4 (Z.of_nat (N.to_nat (width n))) ++ pg_send1 (num_means n q) ++ items (map (fun z => pg_send1 (num_means n z)) b)).
  { intros q. rewrite map_app, items_app. f_equal. unfold items. cbn [map flat_map]. now rewrite <- app_assoc, send1_num_length. }
  rewrite !I. set (I1 := items _). set (I2 := items (map _ b)). set (h := head _ _). set (w := be_signed _ _).
  assert (Lp : length (h ++ I1 ++ w) = N.to_nat (24 + k * (4 + width n))).
  { unfold h, I1, w. rewrite !app_length, head_length, items_num_length, be_signed_length. lia. }
  assert (Z : be_set n z = pg_send1 (num_means n z)).
  { apply be_set_send. apply Forall_app in G1 as (_ & G1). now apply Forall_cons_iff in G1 as (G1 & _). }
  rewrite Z. assert (E : forall q, h ++ I1 ++ w ++ pg_send1 (num_means n q) ++ I2 = (h ++ I1 ++ w) ++ pg_send1 (num_means n q) ++ I2) by (intros; now rewrite <- !app_assoc).
  rewrite !E. rewrite !map_app with (l := h ++ I1 ++ w). rewrite <- Lp, <- (map_length Some (h ++ I1 ++ w)), firstn_own. f_equal.
  rewrite skipn_app, skipn_all2 by (rewrite map_length; lia). cbn [app]. rewrite !map_length, map_app. f_equal.
  replace (length (h ++ I1 ++ w) + length (pg_send1 (num_means n z)) - length (h ++ I1 ++ w))%nat with (length (pg_send1 (num_means n z))) by lia.
  rewrite map_app, !send1_num_length, skipn_app, skipn_all2 by (rewrite map_length, send1_num_length; lia).
  now rewrite map_length, send1_num_length, Nat.sub_diag.
Qed.

(** * The object stands for the values *)
Definition inv (strict : bool) (vs : vals_t) (p : params) : Prop :=
  length (o_slots p) = length vs /\ forall i v, nth_error vs i = Some v -> exists s, nth_error (o_slots p) i = Some s /\ slot_ok strict v s.

Lemma inv_replace : forall strict vs p i v s, inv strict vs p -> slot_ok strict v s -> (i < length vs)%nat ->
  length (replace i s (o_slots p)) = length (replace i v vs) /\
  forall j w, nth_error (replace i v vs) j = Some w -> exists s', nth_error (replace i s (o_slots p)) j = Some s' /\ slot_ok strict w s'.
Proof.
  intros strict vs p i v s (L & I) O R. split; [now rewrite !replace_length|]. intros j w H.
  destruct (Nat.eq_dec i j) as [<-|N].
  - rewrite replace_same in H by exact R. injection H as <-. exists s. split; [apply replace_same; lia|exact O].
  - rewrite replace_other in H by exact N. rewrite replace_other by exact N. now apply I.
Qed.
Lemma inv_slot : forall strict vs p i s, inv strict vs p -> nth_error (o_slots p) i = Some s -> exists v, nth_error vs i = Some v /\ slot_ok strict v s.
Proof.
  intros strict vs p i s (L & I) H. destruct (nth_error vs i) as [v|] eqn:V.
  - exists v. split; [reflexivity|]. destruct (I i v V) as (s' & E & O). congruence.
  - apply nth_error_None in V. apply nth_lt in H. lia.
Qed.
Lemma inv_step : forall strict a vs p p', pstep strict a p = Some p' -> inv strict vs p -> Forall (proper strict) vs -> Forall (proper strict) (value_after vs a) ->
  inv strict (value_after vs a) p'.
Proof.
  intros strict a vs p p' H I F G. destruct a as [i t v mv|i k z|i|]; cbn [pstep value_after] in *.
  - destruct (nth_error (o_slots p) i) as [s|] eqn:E; [|discriminate]. destruct (sqlty_eqb t (s_ty s)) eqn:T; [|discriminate]. apply sqlty_eqb_eq in T.
    destruct (param strict t v) as [m|] eqn:P; [|discriminate]. injection H as <-. rewrite <- replace_set.
    destruct (inv_slot _ _ _ _ _ I E) as (w & W & (Wt & _ & _ & _ & _ & _ & Wb)).
    apply inv_replace; [exact I| |now apply nth_lt in W].
    apply assign_ok; [now symmetry| | |exact P]; intros K B; rewrite (Wb B) in Wt; cbn [projT1] in Wt; rewrite T, Wt in K; discriminate.
  - destruct (nth_error (o_slots p) i) as [[ty me si bl]|] eqn:E; [|discriminate]; destruct ty as [|q0| | | | | | |n| |]; try discriminate. destruct (set_at n me k z) as [m|] eqn:Z; [|discriminate]. injection H as <-.
    destruct (inv_slot _ _ _ _ _ I E) as (w & W & (Wt & m0 & Wp & Ws & Wf & Wk & Wb)). rewrite W in G |- *. rewrite <- replace_set in G |- *.
    apply inv_replace; [exact I| |now apply nth_lt in W]. destruct w as [t w]. cbn [s_ty s_mem s_size s_block projT1 projT2] in *. subst t. cbn [with_element] in *.
    cbn [param] in Wp. rewrite (Wk eq_refl) in Z.
    assert (F1 : proper strict (existT val (ARRAY n) w)) by (rewrite Forall_forall in F; apply F; now apply nth_error_In in W).
    assert (F2 : proper strict (existT val (ARRAY n) (set_nth (N.to_nat k) z w))).
    { rewrite Forall_forall in G; apply G. apply nth_error_In with (n := i). apply replace_same. now apply nth_lt in W. }
    destruct F1 as (F1 & _), F2 as (F2 & _). cbn [projT1 projT2] in F1, F2.
    split; [reflexivity|]. exists m. cbn [s_ty s_mem s_size s_block projT1 projT2 param]. split; [now apply (set_element n w m0 k z)|].
    assert (L : length m = length m0) by (unfold set_at in Z; now apply put_length in Z as (Z & _)).
    split; [rewrite L; exact Ws|]. split; [apply firstn_all|]. split; [reflexivity|].
    intros B. specialize (Wb B). apply (f_equal (@projT1 _ _)) in Wb. discriminate.
  - destruct (Nat.ltb i (length (o_nulls p))); [|discriminate]. injection H as <-. exact I.
  - injection H as <-. exact I.
Qed.
Lemma inv_run : forall strict l vs p p', prun strict l p = Some p' -> inv strict vs p -> always strict vs l -> inv strict (values vs l) p'.
Proof.
  intros strict l; induction l as [|a l IH]; intros vs p p' H I A; cbn [prun] in H; [injection H as <-; exact I|].
  destruct (pstep strict a p) as [q|] eqn:S; [|discriminate]. rewrite values_cons. apply (IH _ q); [exact H| |].
  - apply (inv_step strict a vs p); [exact S|exact I|exact (A [] (a :: l) eq_refl)|exact (A [a] l eq_refl)].
  - intros x y E. apply (A (a :: x) y). now rewrite E.
Qed.
Lemma inv_make : forall strict vals p, make strict vals = Some p -> inv strict vals p /\ length (o_nulls p) = length vals /\
  (forall i b, nth_error (o_nulls p) i = Some b -> b = false) /\ o_next p = length vals /\
  (forall i s b, nth_error (o_slots p) i = Some s -> s_block s = Some b -> (b < o_next p)%nat) /\ (forall i b, nth_error (o_raws p) i = Some b -> b = None).
Proof.
  intros strict vals p H. unfold make in H. destruct (new_slots strict 0 vals) as [s|] eqn:N; [|discriminate]. injection H as <-.
  apply new_all in N as (L & N). cbn [o_slots o_nulls o_next o_raws]. split; [|split; [|split; [|split; [|split]]]].
  - split; [exact L|]. intros i v V. destruct (N i v V) as (x & A & B & _). now exists x.
  - apply map_length.
  - intros i b B. rewrite nth_error_map in B. destruct (nth_error vals i); [|discriminate]. cbn in B. congruence.
  - reflexivity.
  - intros i x b X B. destruct (nth_error vals i) as [v|] eqn:V; [|apply nth_error_None in V; apply nth_lt in X; lia].
    destruct (N i v V) as (x' & A & _ & C). apply (C b). congruence.
  - intros i b B. rewrite nth_error_map in B. destruct (nth_error vals i); [|discriminate]. cbn in B. congruence.
Qed.

(** * Nulls *)
Lemma nulls_step : forall strict a p p', pstep strict a p = Some p' -> length (o_nulls p') = length (o_nulls p) /\
  forall i b, nth_error (o_nulls p) i = Some b -> exists b', nth_error (o_nulls p') i = Some b' /\ (b' = true <-> b = true \/ a = PNull i).
Proof.
  intros strict a p p' H.
  assert (K : o_nulls p' = o_nulls p -> (forall i, a <> PNull i) -> length (o_nulls p') = length (o_nulls p) /\
    forall i b, nth_error (o_nulls p) i = Some b -> exists b', nth_error (o_nulls p') i = Some b' /\ (b' = true <-> b = true \/ a = PNull i)).
  { intros -> N. split; [reflexivity|]. intros i b B. exists b. split; [exact B|]. split; [now left|]. intros [X|X]; [exact X|now elim (N i)]. }
  destruct a as [i t v mv|i k z|i|]; cbn [pstep] in H.
  - apply K; [|discriminate]. destruct (nth_error (o_slots p) i); [|discriminate]. destruct (sqlty_eqb _ _); [|discriminate]. destruct (param _ _ _); [|discriminate]. now injection H as <-.
  - apply K; [|discriminate]. destruct (nth_error (o_slots p) i) as [[ty me si bl]|]; [|discriminate]; destruct ty as [|q0| | | | | | |n| |]; try discriminate. destruct (set_at _ _ _ _); [|discriminate]. now injection H as <-.
  - clear K. destruct (Nat.ltb_spec i (length (o_nulls p))) as [L|L]; [|discriminate]. injection H as <-. cbn [o_nulls]. split; [apply replace_length|].
    intros j b B. destruct (Nat.eq_dec i j) as [<-|N].
    + exists true. split; [now apply replace_same|]. split; [now right|reflexivity].
    + exists b. split; [now rewrite replace_other|]. split; [now left|]. intros [X|X]; [exact X|]. injection X as X. now elim N.
  - apply K; [|discriminate]. now injection H as <-.
Qed.
Lemma nulls_run : forall strict l p p', prun strict l p = Some p' -> length (o_nulls p') = length (o_nulls p) /\
  forall i b, nth_error (o_nulls p) i = Some b -> exists b', nth_error (o_nulls p') i = Some b' /\ (b' = true <-> b = true \/ In (PNull i) l).
Proof.
  intros strict l; induction l as [|a l IH]; intros p p' H; cbn [prun] in H.
  - injection H as <-. split; [reflexivity|]. intros i b B. exists b. split; [exact B|]. cbn. tauto.
  - destruct (pstep strict a p) as [q|] eqn:S; [|discriminate]. apply nulls_step in S as (L1 & S). apply IH in H as (L2 & H). split; [congruence|].
    intros i b B. destruct (S i b B) as (c & C & CE). destruct (H i c C) as (d & D & DE). exists d. split; [exact D|]. cbn [In].
    rewrite DE, CE. tauto.
Qed.

(** * From the queue to the server *)
Lemma raws_nth : forall l n i s b, nth_error l i = Some s -> nth_error n i = Some b -> nth_error (raws_of l n) i = Some (raw_of s b).
Proof.
  induction l as [|x l IH]; intros [|y n] [|i] s b H N; try discriminate; cbn [nth_error raws_of] in *; [congruence|]. now apply IH.
Qed.
Lemma raws_length : forall l n, length l = length n -> length (raws_of l n) = length l.
Proof. induction l as [|x l IH]; intros [|y n] H; try discriminate; [reflexivity|]; cbn [raws_of length] in *; rewrite IH; congruence. Qed.
Lemma slots_step : forall strict a p p', pstep strict a p = Some p' -> length (o_slots p') = length (o_slots p) /\
  forall i s, nth_error (o_slots p) i = Some s -> exists s', nth_error (o_slots p') i = Some s' /\ s_ty s' = s_ty s.
Proof.
  intros strict a p p' H. destruct a as [i t v mv|i k z|i|]; cbn [pstep] in H.
  - destruct (nth_error (o_slots p) i) as [s|] eqn:E; [|discriminate]. destruct (sqlty_eqb t (s_ty s)); [|discriminate]. destruct (param _ _ _) as [m|]; [|discriminate].
    injection H as <-. cbn [o_slots]. split; [apply replace_length|]. intros j x X. destruct (Nat.eq_dec i j) as [<-|N].
    + exists (assign s m mv (o_next p)). split; [apply replace_same; now apply nth_lt in X|]. assert (x = s) as -> by congruence.
      unfold assign. destruct (keeping_of (s_ty s)); try reflexivity; [destruct mv; reflexivity|]. destruct (s_block s); [destruct mv|]; reflexivity.
    + exists x. split; [now rewrite replace_other|reflexivity].
  - destruct (nth_error (o_slots p) i) as [[ty me si bl]|] eqn:E; [|discriminate]; destruct ty as [|q0| | | | | | |n| |]; try discriminate. destruct (set_at _ _ _ _) as [m|]; [|discriminate]. injection H as <-. cbn [o_slots].
    split; [apply replace_length|]. intros j x X. destruct (Nat.eq_dec i j) as [<-|N].
    + eexists. split; [apply replace_same; now apply nth_lt in X|]. assert (x = mkSlot (ARRAY n) me si bl) as -> by congruence. reflexivity.
    + exists x. split; [now rewrite replace_other|reflexivity].
  - destruct (Nat.ltb _ _); [|discriminate]. injection H as <-. split; [reflexivity|]. intros j x X. now exists x.
  - injection H as <-. split; [reflexivity|]. intros j x X. now exists x.
Qed.
Lemma slots_run : forall strict l p p', prun strict l p = Some p' -> length (o_slots p') = length (o_slots p).
Proof.
  intros strict l; induction l as [|a l IH]; intros p p' H; cbn [prun] in H; [now injection H as <-|].
  destruct (pstep strict a p) as [q|] eqn:S; [|discriminate]. apply slots_step in S as (S & _). apply IH in H. congruence.
Qed.
Lemma quiet_step : forall strict a p p', pstep strict a p = Some p' -> a <> PQueue -> o_raws p' = o_raws p /\ o_sizes p' = o_sizes p.
Proof.
  intros strict a p p' H N. destruct a as [i t v mv|i k z|i|]; cbn [pstep] in H; [| | |contradiction].
  - destruct (nth_error (o_slots p) i) as [s|]; [|discriminate]. destruct (sqlty_eqb t (s_ty s)); [|discriminate]. destruct (param _ _ _); [|discriminate]. now injection H as <-.
  - destruct (nth_error (o_slots p) i) as [[ty me si bl]|]; [|discriminate]; destruct ty as [|q0| | | | | | |n| |]; try discriminate. destruct (set_at _ _ _ _); [|discriminate]. now injection H as <-.
  - destruct (Nat.ltb _ _); [|discriminate]. now injection H as <-.
Qed.
Lemma quiet_run : forall strict l p p', prun strict l p = Some p' -> ~ In PQueue l -> o_raws p' = o_raws p /\ o_sizes p' = o_sizes p.
Proof.
  intros strict l; induction l as [|a l IH]; intros p p' H N; cbn [prun] in H; [now injection H as <-|].
  destruct (pstep strict a p) as [q|] eqn:S; [|discriminate]. cbn [In] in N. apply quiet_step in S as (S1 & S2); [|intros ->; tauto].
  apply IH in H as (H1 & H2); [|tauto]. split; congruence.
Qed.

(** A parameter of which only the value changes. *)
Lemma stay_step : forall strict a vs p p' i s, pstep strict a p = Some p' -> inv strict vs p -> Forall (proper strict) vs -> Forall (proper strict) (value_after vs a) ->
  (forall t v mv, a = PAssign i t v mv -> in_place t = true) -> nth_error (o_slots p) i = Some s ->
  exists s', nth_error (o_slots p') i = Some s' /\ s_block s' = s_block s /\ s_size s' = s_size s.
Proof.
  intros strict a vs p p' i s H I F G Q E. destruct a as [j t v mv|j k z|j|]; cbn [pstep value_after] in *.
  - destruct (nth_error (o_slots p) j) as [x|] eqn:X; [|discriminate]. destruct (sqlty_eqb t (s_ty x)) eqn:T; [|discriminate]. apply sqlty_eqb_eq in T.
    destruct (param strict t v) as [m|] eqn:P; [|discriminate]. injection H as <-. cbn [o_slots]. destruct (Nat.eq_dec j i) as [->|N].
    + assert (x = s) as -> by congruence. exists (assign s m mv (o_next p)). split; [apply replace_same; now apply nth_lt in E|].
      specialize (Q t v mv eq_refl). pose proof Q as K. apply place_keeping in K. unfold assign. rewrite <- T, K. cbn [s_block s_size]. split; [reflexivity|].
      destruct (inv_slot _ _ _ _ _ I E) as ([u w] & W & (Wt & m0 & Wp & Ws & _)). cbn [projT1 projT2] in *. rewrite <- T in Wt. subst u.
      rewrite Ws. f_equal. apply (fixed_size strict t v w); [exact Q| | |exact P|exact Wp].
      * rewrite Forall_forall in G. assert (Y : proper strict (existT val t v)); [|exact (proj1 Y)]. apply G. rewrite <- replace_set. apply nth_error_In with (n := i). apply replace_same. now apply nth_lt in W.
      * rewrite Forall_forall in F. assert (Y : proper strict (existT val t w)); [|exact (proj1 Y)]. apply F. now apply nth_error_In in W.
    + exists s. split; [now rewrite replace_other|now split].
  - destruct (nth_error (o_slots p) j) as [[ty me si bl]|] eqn:X; [|discriminate]; destruct ty as [|q0| | | | | | |n| |]; try discriminate. destruct (set_at _ _ _ _) as [m|]; [|discriminate]. injection H as <-. cbn [o_slots]. destruct (Nat.eq_dec j i) as [->|N].
    + eexists. split; [apply replace_same; now apply nth_lt in E|]. assert (s = mkSlot (ARRAY n) me si bl) as -> by congruence. now split.
    + exists s. split; [now rewrite replace_other|now split].
  - destruct (Nat.ltb _ _); [|discriminate]. injection H as <-. exists s. now split.
  - injection H as <-. exists s. now split.
Qed.
Lemma stay_run : forall strict l vs p p' i s, prun strict l p = Some p' -> inv strict vs p -> always strict vs l ->
  (forall t v mv, In (PAssign i t v mv) l -> in_place t = true) -> nth_error (o_slots p) i = Some s ->
  exists s', nth_error (o_slots p') i = Some s' /\ s_block s' = s_block s /\ s_size s' = s_size s.
Proof.
  intros strict l; induction l as [|a l IH]; intros vs p p' i s H I A Q E; cbn [prun] in H; [injection H as <-; exists s; now split|].
  destruct (pstep strict a p) as [q|] eqn:S; [|discriminate].
  assert (F : Forall (proper strict) vs) by exact (A [] (a :: l) eq_refl). assert (G : Forall (proper strict) (value_after vs a)) by exact (A [a] l eq_refl).
  destruct (stay_step strict a vs p q i s S I F G) as (s1 & E1 & B1 & C1); [intros t v mv ->; apply (Q t v mv); now left|exact E|].
  destruct (IH (value_after vs a) q p' i s1 H) as (s2 & E2 & B2 & C2); [now apply (inv_step strict a vs p)|intros x y X; apply (A (a :: x) y); now rewrite X|intros t v mv X; apply (Q t v mv); now right|exact E1|].
  exists s2. split; [exact E2|]. split; congruence.
Qed.

(** Reading them all. *)
Lemma read_all : forall l r z, length r = length l -> length z = length l ->
  (forall i s x y, nth_error l i = Some s -> nth_error r i = Some x -> nth_error z i = Some y -> exists q, read_param s x y = Val q) ->
  exists out, read_params l r z = Val out /\ length out = length l /\
    forall i s x y, nth_error l i = Some s -> nth_error r i = Some x -> nth_error z i = Some y -> exists q, nth_error out i = Some q /\ read_param s x y = Val q.
Proof.
  induction l as [|s l IH]; intros [|x r] [|y z] L1 L2 H; try discriminate; [exists []; split; [reflexivity|]; split; [reflexivity|]; intros [|i]; discriminate|].
  destruct (H O s x y eq_refl eq_refl eq_refl) as (q & Q). destruct (IH r z) as (out & R & L & N); [now injection L1|now injection L2|intros i; exact (H (S i))|].
  exists (q :: out). cbn [read_params]. rewrite Q. cbn [obind]. rewrite R. cbn [obind]. split; [reflexivity|]. split; [cbn [length]; congruence|].
  intros [|i] s' x' y' A B C; cbn [nth_error] in *; [exists q; split; [reflexivity|congruence]|now apply (N i)].
Qed.
Lemma read_inv : forall l r z out i s x y, read_params l r z = Val out -> nth_error l i = Some s -> nth_error r i = Some x -> nth_error z i = Some y ->
  exists q, nth_error out i = Some q /\ read_param s x y = Val q.
Proof.
  induction l as [|s l IH]; intros [|x r] [|y z] out [|i] s' x' y' H A B C; try discriminate; cbn [read_params nth_error] in *;
    destruct (read_param s x y) as [q|] eqn:Q; try discriminate; cbn [obind] in H; destruct (read_params l r z) as [o|] eqn:O; try discriminate; cbn [obind] in H; injection H as <-.
  - exists q. split; [reflexivity|congruence].
  - cbn [nth_error]. now apply (IH r z o i s' x' y').
Qed.
Lemma read_ub : forall l r z i s x y, nth_error l i = Some s -> nth_error r i = Some x -> nth_error z i = Some y -> read_param s x y = UB -> read_params l r z = UB.
Proof.
  induction l as [|s l IH]; intros [|x r] [|y z] [|i] s' x' y' A B C U; try discriminate; cbn [read_params nth_error] in *.
  - assert (read_param s x y = UB) as -> by congruence. reflexivity.
  - destruct (read_param s x y); [|reflexivity]. cbn [obind]. now rewrite (IH r z i s' x' y' A B C U).
Qed.

(** * What the server is given *)
Lemma size_small : forall n, N.of_nat n < 2 ^ 31 -> of_base 32 (trunc 32 (N.of_nat n)) = Z.of_nat n.
Proof.
  intros n L. unfold trunc. rewrite N.mod_small by lia. unfold of_base. destruct (N.ltb_spec (N.of_nat n) (2 ^ (32 - 1))); [apply nat_N_Z|cbn in *; lia].
Qed.
Lemma oid_number : forall t, oid t = type_number t.
Proof. intros [|[]| | | | | | |[]| |]; reflexivity. Qed.

Lemma sent_values : forall strict vals p0 l1 l2 p, make strict vals = Some p0 -> prun strict (l1 ++ PQueue :: l2) p0 = Some p -> ~ In PQueue l2 ->
  always strict vals (l1 ++ l2) -> (forall i t v mv, In (PAssign i t v mv) l2 -> in_place t = true \/ In (PNull i) l1) ->
  exists r, send_params p = Val r /\ length r = length vals /\
    forall i v, nth_error (values vals (l1 ++ l2)) i = Some v -> exists q, nth_error r i = Some q /\
      (In (PNull i) l1 -> arrives (v, true) q) /\ (~ In (PNull i) l1 -> given v q).
Proof.
  intros strict vals p0 l1 l2 p M H NQ AL Q. apply inv_make in M as (I0 & LN & NF & _ & _ & _).
  apply prun_app in H as (p1 & H1 & H). cbn [prun pstep] in H. set (pq := mkPs _ _ _ _ _) in H.
  assert (A1 : always strict vals l1) by (intros a b ->; apply (AL a (b ++ l2)); now rewrite <- app_assoc).
  assert (I1 : inv strict (values vals l1) p1) by now apply (inv_run strict l1 vals p0).
  assert (A2 : always strict (values vals l1) l2) by (intros a b ->; rewrite <- values_app; apply (AL (l1 ++ a) b); now rewrite <- app_assoc).
  assert (Iq : inv strict (values vals l1) pq) by exact I1.
  assert (I2 : inv strict (values vals (l1 ++ l2)) p) by (rewrite values_app; now apply (inv_run strict l2 _ pq)).
  pose proof (quiet_run strict l2 pq p H NQ) as (R & Z). cbn [pq o_raws o_sizes] in R, Z.
  pose proof (nulls_run strict l1 p0 p1 H1) as (LN1 & N1). pose proof (slots_run strict l2 pq p H) as LS. cbn [pq o_slots] in LS.
  assert (LV : length (o_slots p1) = length (o_nulls p1)).
  { rewrite LN1, LN. rewrite (slots_run strict l1 p0 p1 H1). apply I0. }
  assert (PV : Forall (proper strict) (values vals (l1 ++ l2))) by (apply (AL (l1 ++ l2) []); now rewrite app_nil_r).
  assert (X : forall i s, nth_error (o_slots p) i = Some s -> exists v raw z q, nth_error (values vals (l1 ++ l2)) i = Some v /\ nth_error (o_raws p) i = Some raw /\
    nth_error (o_sizes p) i = Some z /\ read_param s raw z = Val q /\ (In (PNull i) l1 -> arrives (v, true) q) /\ (~ In (PNull i) l1 -> given v q)).
  { intros i s E. destruct (inv_slot _ _ _ _ _ I2 E) as (v & V & (Vt & m & Vp & Vs & Vf & Vk & Vb)).
    assert (Li : (i < length (o_slots p1))%nat) by (apply nth_lt in E; lia).
    destruct (nth_error (o_slots p1) i) as [s1|] eqn:E1; [|apply nth_error_None in E1; lia].
    destruct (nth_error (o_nulls p0) i) as [b0|] eqn:B0; [|apply nth_error_None in B0; lia].
    destruct (N1 i b0 B0) as (b & B & BE). apply NF in B0. subst b0.
    exists v, (raw_of s1 b), (size_of s1). rewrite R, Z, (raws_nth _ _ i s1 b E1 B), nth_error_map, E1. cbn [option_map].
    assert (ARN : forall z, arrives (v, true) (mkSent (oid (s_ty s)) None z 1)).
    { intros z. split; [cbn; rewrite Vt; apply oid_number|]. split; reflexivity. }
    destruct b.
    - eexists. split; [exact V|]. split; [reflexivity|]. split; [reflexivity|]. split; [reflexivity|]. split; [intros _; apply ARN|].
      intros NN. elim NN. destruct (proj1 BE eq_refl) as [D|D]; [discriminate|exact D].
    - assert (NN : ~ In (PNull i) l1) by (intros D; assert (false = true); [apply BE; now right|discriminate]).
      destruct (stay_run strict l2 (values vals l1) pq p i s1 H Iq A2) as (s' & E' & EB & ES); [|exact E1|].
      { intros t w mv T. destruct (Q i t w mv T) as [U|U]; [exact U|contradiction]. }
      assert (s' = s) as -> by congruence. cbn [raw_of]. rewrite <- EB. unfold size_of. rewrite <- ES, Vs.
      assert (PR : proper strict v) by (rewrite Forall_forall in PV; apply PV; now apply nth_error_In in V). destruct PR as (FI & LE). specialize (LE m Vp).
      rewrite size_small by exact LE. unfold read_param. destruct (s_block s) as [k|] eqn:K.
      + assert (LM : (length m <= length (s_mem s))%nat) by (rewrite <- Vf, firstn_length; lia).
        rewrite Nat.eqb_refl. destruct (Z.leb_spec 0 (Z.of_nat (length m))); [|lia]. destruct (Z.leb_spec (Z.of_nat (length m)) (Z.of_nat (length (s_mem s)))); [|lia].
        cbn [andb]. rewrite Nat2Z.id, Vf. eexists. split; [exact V|]. split; [reflexivity|]. split; [reflexivity|]. split; [reflexivity|]. split; [contradiction|].
        intros _. left. destruct (sent_ok strict (projT1 v) (projT2 v) FI) as (c & C & Bo & Re).
        assert (m = map Some c) as -> by congruence. split; [cbn; rewrite Vt; apply oid_number|]. split; [reflexivity|]. cbn [snd fst q_raw q_size].
        exists c. rewrite map_length. now repeat split.
      + eexists. split; [exact V|]. split; [reflexivity|]. split; [reflexivity|]. split; [reflexivity|]. split; [contradiction|].
        intros _. right. split; [now apply Vb|apply ARN]. }
  assert (LR : length (o_raws p) = length (o_slots p)) by (rewrite R, raws_length, LS by exact LV; reflexivity).
  assert (LZ : length (o_sizes p) = length (o_slots p)) by (rewrite Z, map_length; congruence).
  destruct (read_all (o_slots p) (o_raws p) (o_sizes p) LR LZ) as (out & O & LO & N).
  { intros i s x y E E1 E2. destruct (X i s E) as (v & raw & z & q & V & A & B & C & _). exists q. congruence. }
  exists out. split; [exact O|]. split; [rewrite LO, LS, (slots_run strict l1 p0 p1 H1); apply I0|].
  intros i v V. destruct I2 as (L2 & I2). destruct (I2 i v V) as (s & E & _). destruct (X i s E) as (v' & raw & z & q & V' & A & B & C & D1 & D2).
  assert (v' = v) as -> by congruence. destruct (N i s raw z E A B) as (q' & Q1 & Q2). exists q'. split; [exact Q1|]. assert (q' = q) as -> by congruence. now split.
Qed.

(** * Nulls stay *)
Lemma null_stays : forall strict vals p0 l1 l2 p r i, make strict vals = Some p0 -> prun strict (l1 ++ PQueue :: l2) p0 = Some p -> ~ In PQueue l2 ->
  In (PNull i) l1 -> send_params p = Val r -> exists q, nth_error r i = Some q /\ q_raw q = None.
Proof.
  intros strict vals p0 l1 l2 p r i M H NQ IN SE. apply inv_make in M as (I0 & LN & _).
  apply prun_app in H as (p1 & H1 & H). cbn [prun pstep] in H. set (pq := mkPs _ _ _ _ _) in H.
  pose proof (quiet_run strict l2 pq p H NQ) as (R & Z). cbn [pq o_raws o_sizes] in R, Z.
  pose proof (nulls_run strict l1 p0 p1 H1) as (LN1 & N1). pose proof (slots_run strict l2 pq p H) as LS. cbn [pq o_slots] in LS.
  pose proof (slots_run strict l1 p0 p1 H1) as LS1. destruct I0 as (L0 & _).
  assert (Li : (i < length (o_nulls p1))%nat).
  { clear - IN H1. revert p0 H1. induction l1 as [|a l IH]; intros p0 H; [contradiction|]. cbn [prun] in H. destruct (pstep strict a p0) as [q|] eqn:S; [|discriminate].
    destruct IN as [->|IN]; [|now apply (IH IN q)]. cbn [pstep] in S. destruct (Nat.ltb_spec i (length (o_nulls p0))) as [L|L]; [|discriminate].
    apply nulls_run in H as (H & _). rewrite H. injection S as <-. cbn [o_nulls]. now rewrite replace_length. }
  destruct (nth_error (o_nulls p0) i) as [b0|] eqn:B0; [|apply nth_error_None in B0; lia].
  destruct (N1 i b0 B0) as (b & B & BE). assert (b = true) as -> by (apply BE; now right).
  destruct (nth_error (o_slots p1) i) as [s1|] eqn:E1; [|apply nth_error_None in E1; lia].
  destruct (nth_error (o_slots p) i) as [s|] eqn:E; [|apply nth_error_None in E; lia].
  destruct (read_inv (o_slots p) (o_raws p) (o_sizes p) r i s None (size_of s1) SE E) as (q & Q1 & Q2).
  - rewrite R. now rewrite (raws_nth _ _ i s1 true E1 B).
  - rewrite Z. now rewrite nth_error_map, E1.
  - exists q. split; [exact Q1|]. cbn in Q2. injection Q2 as <-. reflexivity.
Qed.

(** * Memory that is gone *)
Definition old (p : params) : Prop :=
  (forall i s b, nth_error (o_slots p) i = Some s -> s_block s = Some b -> (b < o_next p)%nat).
Lemma next_step : forall strict a p p', pstep strict a p = Some p' -> (o_next p <= o_next p')%nat.
Proof.
  intros strict a p p' H. destruct a as [j t v mv|j k z|j|]; cbn [pstep] in H.
  - destruct (nth_error (o_slots p) j) as [x|]; [|discriminate]. destruct (sqlty_eqb _ _); [|discriminate]. destruct (param _ _ _); [|discriminate]. injection H as <-. cbn. lia.
  - destruct (nth_error (o_slots p) j) as [[ty me si bl]|]; [|discriminate]; destruct ty as [|q0| | | | | | |n| |]; try discriminate. destruct (set_at _ _ _ _); [|discriminate]. injection H as <-. cbn. lia.
  - destruct (Nat.ltb _ _); [|discriminate]. injection H as <-. cbn. lia.
  - injection H as <-. cbn. lia.
Qed.
Lemma old_step : forall strict a p p', pstep strict a p = Some p' -> old p -> old p'.
Proof.
  intros strict a p p' H O i s b E B. pose proof (next_step _ _ _ _ H) as NX. destruct a as [j t v mv|j k z|j|]; cbn [pstep] in H.
  - destruct (nth_error (o_slots p) j) as [x|] eqn:X; [|discriminate]. destruct (sqlty_eqb _ _); [|discriminate]. destruct (param _ _ _) as [m|]; [|discriminate]. injection H as <-.
    cbn [o_slots o_next] in *. destruct (Nat.eq_dec j i) as [->|N].
    + rewrite replace_same in E by now apply nth_lt in X. injection E as <-. unfold assign in B.
      destruct (keeping_of (s_ty x)); [|destruct mv| |]; cbn [s_block] in B; try (specialize (O i x b X B); lia); try (injection B as <-; lia).
      destruct (s_block x) as [c|] eqn:C; [destruct mv|]; cbn [s_block] in B; try (destruct (null_data _ _); [discriminate|]); injection B as <-; try lia.
      specialize (O i x c X C). lia.
    + rewrite replace_other in E by exact N. specialize (O i s b E B). lia.
  - destruct (nth_error (o_slots p) j) as [[ty me si bl]|] eqn:X; [|discriminate]; destruct ty as [|q0| | | | | | |n| |]; try discriminate. destruct (set_at _ _ _ _) as [m|]; [|discriminate]. injection H as <-.
    cbn [o_slots o_next] in *. destruct (Nat.eq_dec j i) as [->|N].
    + rewrite replace_same in E by now apply nth_lt in X. injection E as <-. exact (O i _ b X B).
    + rewrite replace_other in E by exact N. exact (O i s b E B).
  - destruct (Nat.ltb _ _); [|discriminate]. injection H as <-. exact (O i s b E B).
  - injection H as <-. exact (O i s b E B).
Qed.
Lemma old_run : forall strict l p p', prun strict l p = Some p' -> old p -> old p' /\ (o_next p <= o_next p')%nat.
Proof.
  intros strict l; induction l as [|a l IH]; intros p p' H O; cbn [prun] in H; [injection H as <-; now split|].
  destruct (pstep strict a p) as [q|] eqn:S; [|discriminate]. pose proof (old_step _ _ _ _ S O) as O'. apply next_step in S.
  destruct (IH q p' H O') as (A & B). split; [exact A|lia].
Qed.
(** Its memory is newer than [k] from then on. *)
Definition newer (k : nat) (i : nat) (p : params) : Prop := exists s, nth_error (o_slots p) i = Some s /\ match s_block s with Some b => (k <= b)%nat | None => True end.
Lemma newer_step : forall strict a k i p p', pstep strict a p = Some p' -> (k <= o_next p)%nat -> newer k i p -> newer k i p'.
Proof.
  intros strict a k i p p' H L (s & E & B). destruct a as [j t v mv|j k' z|j|]; cbn [pstep] in H.
  - destruct (nth_error (o_slots p) j) as [x|] eqn:X; [|discriminate]. destruct (sqlty_eqb _ _); [|discriminate]. destruct (param _ _ _) as [m|]; [|discriminate]. injection H as <-.
    unfold newer. cbn [o_slots]. destruct (Nat.eq_dec j i) as [->|N].
    + exists (assign x m mv (o_next p)). split; [apply replace_same; now apply nth_lt in X|]. assert (x = s) as -> by congruence. unfold assign.
      destruct (keeping_of (s_ty s)); [exact B|destruct mv; [exact L|exact B]| |exact L].
      destruct (s_block s) as [c|]; [destruct mv|]; cbn [s_block]; try (destruct (null_data _ _); [exact Logic.I|exact L]). exact B.
    + exists s. split; [now rewrite replace_other|exact B].
  - destruct (nth_error (o_slots p) j) as [[ty me si bl]|] eqn:X; [|discriminate]; destruct ty as [|q0| | | | | | |n| |]; try discriminate. destruct (set_at _ _ _ _) as [m|]; [|discriminate]. injection H as <-.
    unfold newer. cbn [o_slots]. destruct (Nat.eq_dec j i) as [->|N].
    + eexists. split; [apply replace_same; now apply nth_lt in X|]. assert (s = mkSlot (ARRAY n) me si bl) as -> by congruence. exact B.
    + exists s. split; [now rewrite replace_other|exact B].
  - destruct (Nat.ltb _ _); [|discriminate]. injection H as <-. now exists s.
  - injection H as <-. now exists s.
Qed.
Lemma newer_run : forall strict l k i p p', prun strict l p = Some p' -> (k <= o_next p)%nat -> newer k i p -> newer k i p'.
Proof.
  intros strict l; induction l as [|a l IH]; intros k i p p' H L B; cbn [prun] in H; [now injection H as <-|].
  destruct (pstep strict a p) as [q|] eqn:S; [|discriminate]. pose proof (newer_step _ _ _ _ _ _ S L B) as B'. apply next_step in S. apply (IH k i q p' H); [lia|exact B'].
Qed.
(** Every type but BYTEA always has memory. *)
Definition had (p : params) : Prop := forall i s, nth_error (o_slots p) i = Some s -> s_block s = None -> s_ty s = BYTEA.
Lemma had_step : forall strict a p p', pstep strict a p = Some p' -> had p -> had p'.
Proof.
  intros strict a p p' H O i s E B. destruct a as [j t v mv|j k z|j|]; cbn [pstep] in H.
  - destruct (nth_error (o_slots p) j) as [x|] eqn:X; [|discriminate]. destruct (sqlty_eqb _ _); [|discriminate]. destruct (param _ _ _) as [m|]; [|discriminate]. injection H as <-.
    cbn [o_slots] in E. destruct (Nat.eq_dec j i) as [->|N]; [|rewrite replace_other in E by exact N; exact (O i s E B)].
    rewrite replace_same in E by now apply nth_lt in X. injection E as <-. specialize (O i x X). unfold assign in B |- *.
    destruct (keeping_of (s_ty x)) eqn:K; [exact (O B)|destruct mv; [discriminate|exact (O B)]| |discriminate].
    assert (s_ty x = BYTEA) as T by (destruct (s_ty x); try discriminate; reflexivity). rewrite T. destruct (s_block x); [destruct mv|]; reflexivity.
  - destruct (nth_error (o_slots p) j) as [[ty me si bl]|] eqn:X; [|discriminate]; destruct ty as [|q0| | | | | | |n| |]; try discriminate. destruct (set_at _ _ _ _) as [m|]; [|discriminate]. injection H as <-.
    cbn [o_slots] in E. destruct (Nat.eq_dec j i) as [->|N]; [|rewrite replace_other in E by exact N; exact (O i s E B)].
    rewrite replace_same in E by now apply nth_lt in X. injection E as <-. exact (O i _ X B).
  - destruct (Nat.ltb _ _); [|discriminate]. injection H as <-. exact (O i s E B).
  - injection H as <-. exact (O i s E B).
Qed.
Lemma had_run : forall strict l p p', prun strict l p = Some p' -> had p -> had p'.
Proof.
  intros strict l; induction l as [|a l IH]; intros p p' H O; cbn [prun] in H; [now injection H as <-|].
  destruct (pstep strict a p) as [q|] eqn:S; [|discriminate]. apply (IH q); [exact H|]. now apply (had_step strict a p).
Qed.

Lemma gone : forall strict vals p0 l1 l2 i t v mv l3 p, make strict vals = Some p0 ->
  prun strict (l1 ++ PQueue :: l2 ++ PAssign i t v mv :: l3) p0 = Some p -> ~ In PQueue (l2 ++ l3) -> ~ In (PNull i) l1 ->
  in_place t = false -> t <> BYTEA -> (t = TEXT \/ t = WTEXT -> mv = true) -> send_params p = UB.
Proof.
  intros strict vals p0 l1 l2 i t v mv l3 p M H NQ NN IP NB MV. apply inv_make in M as (I0 & LN & NF & NX & OL & _).
  assert (HA : had p0).
  { intros j s E B. destruct (inv_slot _ _ _ _ _ I0 E) as (w & W & (Wt & m & _ & _ & _ & _ & Wb)). rewrite (Wb B) in Wt. exact Wt. }
  apply prun_app in H as (p1 & H1 & H). cbn [prun] in H. destruct (pstep strict PQueue p1) as [pq|] eqn:PQ; [|discriminate].
  pose proof H as HALL. apply prun_app in H as (p2 & H2 & H). cbn [prun] in H. destruct (pstep strict (PAssign i t v mv) p2) as [p3|] eqn:PA; [|discriminate].
  destruct (old_run strict l1 p0 p1 H1 OL) as (O1 & _). pose proof (had_run strict l1 p0 p1 H1 HA) as HA1.
  pose proof (nulls_run strict l1 p0 p1 H1) as (LN1 & N1). pose proof (slots_run strict l1 p0 p1 H1) as LS1.
  cbn [pstep] in PQ. assert (PQ' : pq = mkPs (o_slots p1) (o_nulls p1) (raws_of (o_slots p1) (o_nulls p1)) (map size_of (o_slots p1)) (o_next p1)) by congruence. clear PQ.
  assert (Oq : old pq) by (rewrite PQ'; exact O1).
  destruct (old_run strict l2 pq p2 H2 Oq) as (O2 & L2). assert (Lq : o_next pq = o_next p1) by now rewrite PQ'.
  pose proof PA as PA2. cbn [pstep] in PA. destruct (nth_error (o_slots p2) i) as [x|] eqn:X; [|discriminate]. destruct (sqlty_eqb t (s_ty x)) eqn:T; [|discriminate].
  apply sqlty_eqb_eq in T. destruct (param strict t v) as [m|] eqn:P; [|discriminate]. assert (PA' : p3 = mkPs (replace i (assign x m mv (o_next p2)) (o_slots p2)) (o_nulls p2) (o_raws p2) (o_sizes p2) (S (o_next p2))) by congruence. clear PA.
  assert (N3 : newer (o_next p1) i p3).
  { exists (assign x m mv (o_next p2)). rewrite PA'. cbn [o_slots]. split; [apply replace_same; now apply nth_lt in X|]. unfold assign. rewrite <- T.
    destruct (keeping_of t) eqn:K; [apply place_keeping in K; congruence| | |cbn [s_block]; lia].
    - rewrite MV by (destruct t; try discriminate; tauto). cbn [s_block]. lia.
    - destruct t; try discriminate. contradiction. }
  assert (N4 : newer (o_next p1) i p) by (apply (newer_run strict l3 (o_next p1) i p3 p H); [rewrite PA'; cbn [o_next]; lia|exact N3]).
  destruct N4 as (s & E & B).
  assert (NQ2 : ~ In PQueue (l2 ++ PAssign i t v mv :: l3)).
  { intros Y. apply NQ. rewrite in_app_iff in *. destruct Y as [Y|[Y|Y]]; [now left|discriminate|now right]. }
  destruct (quiet_run strict _ pq p HALL NQ2) as (R & Z). rewrite PQ' in R, Z. cbn [o_raws o_sizes] in R, Z.
  pose proof (slots_run strict _ pq p HALL) as LS. rewrite PQ' in LS. cbn [o_slots] in LS.
  assert (Li : (i < length (o_slots p1))%nat) by (apply nth_lt in E; lia).
  destruct (nth_error (o_slots p1) i) as [s1|] eqn:E1; [|apply nth_error_None in E1; lia].
  destruct I0 as (L0 & _). destruct (nth_error (o_nulls p0) i) as [b0|] eqn:B0; [|apply nth_error_None in B0; lia].
  destruct (N1 i b0 B0) as (b & Bn & BE). apply NF in B0. subst b0.
  destruct b; [destruct (proj1 BE eq_refl) as [D|D]; [discriminate|contradiction]|].
  assert (TY : s_ty s1 = t).
  { assert (exists s', nth_error (o_slots p2) i = Some s' /\ s_ty s' = s_ty s1) as (s' & S1 & S2); [|rewrite <- S2, T; congruence].
    assert (Eq : nth_error (o_slots pq) i = Some s1) by (rewrite PQ'; exact E1). clear - H2 Eq. revert pq s1 H2 Eq.
    induction l2 as [|a l IH]; intros pq s1 H E; cbn [prun] in H; [injection H as <-; now exists s1|]. destruct (pstep strict a pq) as [q|] eqn:S; [|discriminate].
    apply slots_step in S as (_ & S). destruct (S i s1 E) as (s' & A & B). destruct (IH q s' H A) as (s'' & C & D). exists s''. split; [exact C|congruence]. }
  destruct (s_block s1) as [k|] eqn:K; [|specialize (HA1 i s1 E1 K); congruence].
  apply (read_ub (o_slots p) (o_raws p) (o_sizes p) i s (Some k) (size_of s1) E).
  - rewrite R, (raws_nth _ _ i s1 false E1 Bn). unfold raw_of. now rewrite K.
  - rewrite Z. now rewrite nth_error_map, E1.
  - specialize (O1 i s1 k E1 K). unfold read_param. destruct (s_block s) as [c|]; [|reflexivity].
    destruct (Nat.eqb_spec c k); [lia|reflexivity].
Qed.

(** * Two texts in one *)
Lemma mixed : forall strict (s s' : list N), N.of_nat (length s) < 2 ^ 31 -> exists p0 p q, make strict [existT val TEXT s] = Some p0 /\
  prun strict [PQueue; PAssign 0 TEXT s' false] p0 = Some p /\ send_params p = Val [q] /\ q_size q = Z.of_nat (length s) /\
  q_raw q = Some (map Some (firstn (length s) (s' ++ [0] ++ skipn (S (length s')) (s ++ [0])))).
Proof.
  intros strict s s' L. eexists; eexists; eexists. split; [reflexivity|]. split; [reflexivity|].
  unfold send_params. cbn [o_slots o_raws o_sizes replace assign s_ty keeping_of s_block s_mem raws_of raw_of map size_of s_size read_params projT1 projT2 stored null_data o_nulls].
  unfold size_of. cbn [s_size]. rewrite !map_length, size_small by exact L. unfold raw_of, read_param. cbn [s_block s_mem s_ty]. rewrite Nat.eqb_refl.
  destruct (Z.leb_spec 0 (Z.of_nat (length s))); [|lia].
  destruct (Z.leb_spec (Z.of_nat (length s)) (Z.of_nat (length (map Some s' ++ [Some 0] ++ skipn (length s' + 1) (map Some s ++ [Some 0]))))) as [G|G].
  - cbn [andb obind]. split; [reflexivity|]. split; [reflexivity|]. cbn [q_raw]. f_equal. rewrite Nat2Z.id, <- firstn_map, !map_app, <- skipn_map, map_app.
    now rewrite Nat.add_1_r.
  - rewrite !app_length, skipn_length, app_length, !map_length in G. cbn [length] in G. lia.
Qed.
Lemma always_firstn : forall strict vals l, (forall n, (n <= length l)%nat -> Forall (proper strict) (values vals (firstn n l))) -> always strict vals l.
Proof. intros strict vals l H a b ->. specialize (H (length a)). rewrite firstn_own, app_length in H. apply H. lia. Qed.
