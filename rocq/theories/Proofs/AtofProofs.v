From Coq Require Import List NArith ZArith Bool Lia Floats.SpecFloat.
From Verif Require Import Model.Atof Spec.FloatSpec.
Import ListNotations.
Open Scope Z_scope.

Lemma digits2_bounds : forall p, 2 ^ (Zpos (digits2_pos p) - 1) <= Zpos p < 2 ^ Zpos (digits2_pos p).
Proof.
  induction p; cbn [digits2_pos]; rewrite ?Pos2Z.inj_succ.
  - replace (Z.succ (Zpos (digits2_pos p)) - 1) with (Z.succ (Zpos (digits2_pos p) - 1)) by lia.
    rewrite !Z.pow_succ_r by lia. lia.
  - replace (Z.succ (Zpos (digits2_pos p)) - 1) with (Z.succ (Zpos (digits2_pos p) - 1)) by lia.
    rewrite !Z.pow_succ_r by lia. lia.
  - cbn. lia.
Qed.

Lemma digits2_unique : forall p d, 0 < d -> 2 ^ (d - 1) <= Zpos p < 2 ^ d -> Zpos (digits2_pos p) = d.
Proof.
  intros p d D H. pose proof (digits2_bounds p) as B.
  assert (X : Zpos (digits2_pos p) - 1 < d) by (apply (Z.pow_lt_mono_r_iff 2); lia).
  assert (Y : d - 1 < Zpos (digits2_pos p)) by (apply (Z.pow_lt_mono_r_iff 2); lia). lia.
Qed.

Lemma digits2_shift : forall p q k, 0 <= k -> Zpos q = Zpos p * 2 ^ k -> Zpos (digits2_pos q) = Zpos (digits2_pos p) + k.
Proof.
  intros p q k K E. pose proof (digits2_bounds p) as B. apply digits2_unique; [lia|]. rewrite E.
  replace (Zpos (digits2_pos p) + k - 1) with (Zpos (digits2_pos p) - 1 + k) by lia.
  rewrite !Z.pow_add_r by lia. assert (0 < 2 ^ k) by (apply Z.pow_pos_nonneg; lia). nia.
Qed.

Lemma digits2_le : forall p d, 0 <= d -> Zpos p < 2 ^ d -> Zpos (digits2_pos p) <= d.
Proof.
  intros p d D H. pose proof (digits2_bounds p) as B.
  assert (X : Zpos (digits2_pos p) - 1 < d) by (apply (Z.pow_lt_mono_r_iff 2); lia). lia.
Qed.

Lemma iter_shr : forall n p q, Zpos q = Zpos p * 2 ^ Zpos n ->
  iter_pos shr_1 n (Build_shr_record (Zpos q) false false) = Build_shr_record (Zpos p) false false.
Proof.
  induction n; intros p q E; cbn [iter_pos].
  - rewrite Pos2Z.inj_xI in E. replace (2 * Zpos n + 1) with (Z.succ (Zpos n + Zpos n)) in E by lia.
    rewrite Z.pow_succ_r, Z.pow_add_r in E by lia.
    assert (X : exists r, Zpos r = Zpos p * 2 ^ Zpos n) by (exists (p * 2 ^ n)%positive; now rewrite Pos2Z.inj_mul, Pos2Z.inj_pow).
    destruct X as (r & R).
    destruct q as [q|q|]; [exfalso; rewrite Pos2Z.inj_xI in E; lia| |exfalso; lia].
    cbn [shr_1 orb]. rewrite (IHn r q); [now apply IHn|]. rewrite (Pos2Z.inj_xO q) in E. nia.
  - rewrite (Pos2Z.inj_xO n) in E. replace (2 * Zpos n) with (Zpos n + Zpos n) in E by lia. rewrite Z.pow_add_r in E by lia.
    assert (X : exists r, Zpos r = Zpos p * 2 ^ Zpos n) by (exists (p * 2 ^ n)%positive; now rewrite Pos2Z.inj_mul, Pos2Z.inj_pow).
    destruct X as (r & R). rewrite (IHn r q); [now apply IHn|]. rewrite R. lia.
  - change (2 ^ 1) with 2 in E. destruct q as [q|q|]; [exfalso; rewrite Pos2Z.inj_xI in E; lia| |exfalso; lia].
    cbn. rewrite (Pos2Z.inj_xO q) in E. assert (X : q = p) by lia. now rewrite X.
Qed.

(** [x] is the positive integer [k], with all of the [prec] bits. *)
Definition exactly (prec : Z) (s : bool) (x : spec_float) (k : positive) : Prop :=
  exists m e, x = S754_finite s m e /\ e <= 0 /\ Zpos m = Zpos k * 2 ^ (- e) /\ Zpos (digits2_pos m) = prec.

Section Exact.
Variable prec emax : Z.
Hypothesis P : 1 < prec.
Hypothesis E : prec < emax.

Lemma aux_exact : forall s mx ex k, ex <= 0 -> Zpos mx = Zpos k * 2 ^ (- ex) -> Zpos (digits2_pos k) <= prec ->
  prec <= Zpos (digits2_pos mx) -> exactly prec s (binary_round_aux prec emax s (Zpos mx) ex loc_Exact) k.
Proof.
  intros s mx ex k EX MX K D. pose proof (digits2_shift k mx (- ex) ltac:(lia) MX) as DM.
  set (dk := Zpos (digits2_pos k)) in *. assert (DK : 1 <= dk) by (unfold dk; lia).
  assert (M : exists m, Zpos m = Zpos k * 2 ^ (prec - dk)).
  { exists (k * Z.to_pos (2 ^ (prec - dk)))%positive. rewrite Pos2Z.inj_mul, Z2Pos.id; [reflexivity|apply Z.pow_pos_nonneg; lia]. }
  destruct M as (m & M). pose proof (digits2_shift k m (prec - dk) ltac:(lia) M) as Dm. fold dk in Dm.
  assert (FE : fexp prec emax dk = dk - prec) by (unfold fexp, emin; lia).
  assert (SH : shr (Build_shr_record (Zpos mx) false false) ex (dk - prec - ex) = (Build_shr_record (Zpos m) false false, dk - prec)).
  { unfold shr. destruct (dk - prec - ex) as [|n|n] eqn:Y; [|f_equal; [|lia]|lia].
    - assert (X : mx = m); [|subst; f_equal; lia]. replace (- ex) with (prec - dk) in MX by lia. lia.
    - apply iter_shr. rewrite M, MX, <- Z.mul_assoc, <- Z.pow_add_r by lia. f_equal. f_equal. lia. }
  exists m, (dk - prec). split; [|split; [lia|split; [rewrite M; f_equal; f_equal; lia|lia]]].
  unfold binary_round_aux, shr_fexp. cbn [Zdigits2 shr_record_of_loc]. rewrite DM. replace (dk + - ex + ex) with dk by lia.
  rewrite FE, SH. cbn [loc_of_shr_record shr_m round_nearest_even Zdigits2 shr_record_of_loc].
  rewrite Dm. replace (dk + (prec - dk) + (dk - prec)) with dk by lia. rewrite FE, Z.sub_diag. cbn [shr shr_m].
  replace (dk - prec <=? emax - prec) with true; [reflexivity|]. symmetry. apply Z.leb_le. lia.
Qed.

Lemma round_exact : forall s mx ex k, ex <= 0 -> Zpos mx = Zpos k * 2 ^ (- ex) -> Zpos (digits2_pos k) <= prec ->
  exactly prec s (binary_round prec emax s mx ex) k.
Proof.
  intros s mx ex k EX MX K. pose proof (digits2_shift k mx (- ex) ltac:(lia) MX) as DM. unfold binary_round, shl_align.
  set (dk := Zpos (digits2_pos k)) in *. assert (DK : 1 <= dk) by (unfold dk; lia).
  rewrite DM. replace (dk + - ex + ex) with dk by lia.
  assert (FE : fexp prec emax dk = dk - prec) by (unfold fexp, emin; lia). rewrite FE.
  destruct (dk - prec - ex) as [|n|n] eqn:Y.
  - apply aux_exact; auto. lia.
  - apply aux_exact; auto. lia.
  - assert (S1 : Zpos (shift_pos n mx) = Zpos k * 2 ^ (- (dk - prec))).
    { rewrite shift_pos_correct, MX. rewrite Z.pow_pos_fold. 
      replace (- (dk - prec)) with (Zpos n + - ex) by lia. rewrite Z.pow_add_r by lia. ring. }
    apply aux_exact; auto; [lia|]. rewrite (digits2_shift k _ (- (dk - prec)) ltac:(lia) S1). fold dk. lia.
Qed.
End Exact.

Definition number (x : spec_float) (n : Z) : Prop :=
  match n with Z0 => x = S754_zero false | Zpos k => exactly 53 false x k | Zneg _ => False end.

Lemma of_int_number : forall n, Z.of_N n < 2 ^ 53 -> number (of_int n) (Z.of_N n).
Proof.
  intros [|p] H; [reflexivity|]. cbn [Z.of_N number of_int]. unfold of_int, binary_normalize. cbn [Z.of_N].
  apply round_exact; try lia. apply digits2_le; [lia|exact H].
Qed.

Lemma mul_number : forall x y a b, number x a -> number y b -> a * b < 2 ^ 53 -> number (mul64 x y) (a * b).
Proof.
  intros x y [|a|a] [|b|b] X Y L; cbn in X, Y; try contradiction.
  - subst. reflexivity.
  - destruct Y as (m & e & -> & _). subst. reflexivity.
  - destruct X as (m & e & -> & _). subst. reflexivity.
  - destruct X as (m & e & -> & E1 & E2 & E3), Y as (m' & e' & -> & F1 & F2 & F3). change (Zpos a * Zpos b) with (Zpos (a * b)) in *. cbn [number].
    unfold mul64, SFmul. cbn [xorb]. apply aux_exact; try lia.
    + rewrite !Pos2Z.inj_mul, E2, F2. replace (- (e + e')) with (- e + - e') by lia. rewrite Z.pow_add_r by lia. ring.
    + apply digits2_le; lia.
    + pose proof (digits2_bounds m) as B1. pose proof (digits2_bounds m') as B2. pose proof (digits2_bounds (m * m')) as B3.
      assert (X : 53 - 1 < Zpos (digits2_pos (m * m'))); [|lia]. rewrite E3 in B1. rewrite F3 in B2.
      apply (Z.pow_lt_mono_r_iff 2); [lia|lia|]. rewrite Pos2Z.inj_mul in B3. change (2 ^ (53 - 1)) with 4503599627370496 in *. nia.
Qed.

Lemma align : forall m e ez, ez <= e -> Zpos (fst (shl_align m e ez)) = Zpos m * 2 ^ (e - ez).
Proof.
  intros m e ez H. unfold shl_align. destruct (ez - e) as [|n|n] eqn:Y; cbn [fst].
  - replace (e - ez) with 0 by lia. cbn. lia.
  - lia.
  - rewrite shift_pos_correct, Z.pow_pos_fold. replace (e - ez) with (Zpos n) by lia. ring.
Qed.

Lemma add_number : forall x y a b, number x a -> number y b -> a + b < 2 ^ 53 -> number (add64 x y) (a + b).
Proof.
  intros x y [|a|a] [|b|b] X Y L; cbn in X, Y; try contradiction.
  - subst. reflexivity.
  - destruct Y as (m & e & -> & Y). subst. exists m, e. auto.
  - destruct X as (m & e & -> & X). subst. exists m, e. auto.
  - destruct X as (m & e & -> & E1 & E2 & E3), Y as (m' & e' & -> & F1 & F2 & F3). change (Zpos a + Zpos b) with (Zpos (a + b)) in *. cbn [number].
    unfold add64, SFadd. cbn [cond_Zopp].
    pose proof (align m e (Z.min e e') ltac:(lia)) as A1. pose proof (align m' e' (Z.min e e') ltac:(lia)) as A2.
    destruct (shl_align m e (Z.min e e')) as (p & pe), (shl_align m' e' (Z.min e e')) as (q & qe). cbn [fst] in *.
    change (Zpos p + Zpos q) with (Zpos (p + q)). unfold binary_normalize. apply round_exact; try lia.
    + rewrite !Pos2Z.inj_add, A1, A2, E2, F2, <- !Z.mul_assoc, <- !Z.pow_add_r by lia.
      replace (- e + (e - Z.min e e')) with (- Z.min e e') by lia. replace (- e' + (e' - Z.min e e')) with (- Z.min e e') by lia. ring.
    + apply digits2_le; lia.
Qed.

Lemma digit_land : forall c, (48 <= c <= 57)%N -> Z.of_N (N.land c 15) = Z.of_N c - 48.
Proof.
  intros c H. assert (X : exists d, (d < 10)%nat /\ c = (48 + N.of_nat d)%N) by (exists (N.to_nat (c - 48)); split; lia).
  destruct X as (d & D & ->). do 10 (destruct d as [|d]; [reflexivity|]). lia.
Qed.

Definition ends (text : list N) : Prop := match text with [] => True | c :: _ => ~ (48 <= c <= 57)%N /\ c <> 46%N end.

Lemma decimal_from : forall text n, 0 <= n -> all_digits text -> n <= fold_left (fun n c => 10 * n + (Z.of_N c - 48)) text n.
Proof.
  induction text as [|c text IH]; intros n N H; cbn [fold_left]; [lia|]. inversion H as [|? ? A B]; subst.
  specialize (IH (10 * n + (Z.of_N c - 48)) ltac:(lia) B). lia.
Qed.

Lemma loop_number : forall text rest r n, all_digits text -> ends rest -> 0 <= n -> number r n ->
  fold_left (fun n c => 10 * n + (Z.of_N c - 48)) text n < 2 ^ 53 ->
  number (atof_loop r zero (text ++ rest)) (fold_left (fun n c => 10 * n + (Z.of_N c - 48)) text n).
Proof.
  induction text as [|c text IH]; intros rest r n H EN N R L; cbn [fold_left app] in *.
  - destruct rest as [|c rest]; [exact R|]. destruct EN as [E1 E2]. cbn [atof_loop].
    destruct ((48 <=? c)%N && (c <=? 57)%N) eqn:X; [apply andb_true_iff in X; destruct X as [X Y]; apply N.leb_le in X, Y; lia|].
    apply N.eqb_neq in E2. now rewrite E2.
  - inversion H as [|? ? A B]; subst. cbn [atof_loop].
    replace ((48 <=? c)%N && (c <=? 57)%N) with true by (symmetry; apply andb_true_iff; split; apply N.leb_le; lia).
    replace (SFeqb zero zero) with true by reflexivity.
    pose proof (decimal_from text (10 * n + (Z.of_N c - 48)) ltac:(lia) B) as M.
    apply IH; auto; [lia|]. rewrite <- digit_land by exact A. rewrite (Z.mul_comm 10 n).
    apply add_number; [apply mul_number; [exact R|exact (of_int_number 10 ltac:(reflexivity))|lia]|apply of_int_number|].
    + rewrite digit_land by exact A. lia.
    + rewrite digit_land by exact A. lia.
Qed.

Lemma float_of : forall s x n, number x n -> n < 2 ^ 24 -> 
  stands_for (to_float (if s : bool then SFopp x else x)) (if s then - n else n) 1.
Proof.
  intros s x [|k|k] X L; cbn in X; try contradiction.
  - subst. destruct s; reflexivity.
  - destruct X as (m & e & -> & E1 & E2 & E3).
    replace (if s then SFopp (S754_finite false m e) else S754_finite false m e) with (S754_finite s m e) by (destruct s; reflexivity).
    unfold to_float. destruct (round_exact 24 128 ltac:(lia) ltac:(lia) s m e k E1 E2) as (m1 & e1 & -> & F1 & F2 & _).
    { apply digits2_le; [lia|exact L]. }
    cbn [stands_for]. destruct (0 <=? e1) eqn:Z0.
    + apply Z.leb_le in Z0. assert (e1 = 0) by lia. subst e1. cbn [Z.opp Z.pow] in *. destruct s; lia.
    + destruct s; [|lia]. change (Zneg m1) with (- Zpos m1). lia.
Qed.

Lemma atof_integer : forall text rest, text <> [] -> all_digits text -> ends rest -> decimal text < 2 ^ 24 ->
  stands_for (atof (text ++ rest)) (decimal text) 1 /\ stands_for (atof (45%N :: text ++ rest)) (- decimal text) 1.
Proof.
  intros text rest NE H EN L.
  assert (X : number (atof_loop zero zero (text ++ rest)) (decimal text)).
  { apply loop_number; auto; [lia|reflexivity|]. unfold decimal in L. lia. }
  split; [|exact (float_of true _ _ X L)].
  destruct text as [|c text]; [contradiction|]. cbn [app atof] in *.
  replace (c =? 45)%N with false; [exact (float_of false _ _ X L)|].
  symmetry. apply N.eqb_neq. inversion H; subst. lia.
Qed.

Definition near (x : spec_float) (num : Z) (den : positive) : bool :=
  match x with
  | S754_zero _ => num =? 0
  | S754_finite s m e =>
      let n := if s then Zneg m else Zpos m in
      (2 ^ 23 <=? Zpos m) && (Zpos m <? 2 ^ 24) &&
      if 0 <=? e then 2 * Z.abs (n * 2 ^ e * Zpos den - num) <=? 2 ^ e * Zpos den
      else 2 * Z.abs (n * Zpos den - num * 2 ^ (- e)) <=? Zpos den
  | _ => false
  end.
Lemma near_ok : forall x num den, near x num den = true -> nearest x num den.
Proof.
  intros [s|s| |s m e] num den H; cbn [near nearest] in *; try discriminate; [lia|].
  apply andb_true_iff in H. destruct H as [H1 H2]. apply andb_true_iff in H1. destruct H1 as [H1 H3].
  apply Z.leb_le in H1. apply Z.ltb_lt in H3. split; [split; [exact H1|exact H3]|].
  destruct (0 <=? e); apply Z.leb_le; exact H2.
Qed.
Definition cents_ok (n : nat) : bool :=
  forallb (fun c => near (atof (digits 2 (N.of_nat n) ++ 46%N :: digits 2 (N.of_nat c))) (Z.of_nat (100 * n + c)) 100) (seq 0 100).
Lemma cents_all : forallb cents_ok (seq 0 100) = true.
Proof. vm_cast_no_check (eq_refl true). Qed.
Lemma cents : forall n c, (n < 100)%nat -> (c < 100)%nat ->
  nearest (atof (digits 2 (N.of_nat n) ++ 46%N :: digits 2 (N.of_nat c))) (Z.of_nat (100 * n + c)) 100.
Proof.
  intros n c H K. apply near_ok. pose proof cents_all as X. rewrite forallb_forall in X.
  specialize (X n ltac:(apply in_seq; lia)). unfold cents_ok in X. rewrite forallb_forall in X. apply X. apply in_seq. lia.
Qed.

Lemma long_zeros : stands_for (atof ([49; 46] ++ repeat 48 324)%N) 10 1.
Proof. vm_compute. reflexivity. Qed.
Lemma two_points : stands_for (atof [49; 46; 53; 46; 53]%N) 2 1.
Proof. vm_compute. reflexivity. Qed.
