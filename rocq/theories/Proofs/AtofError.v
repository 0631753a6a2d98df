(** How far [atof] can be off. *)
From Coq Require Import List NArith ZArith QArith Qabs Qpower Bool Lia Lqa Floats.SpecFloat.
From Verif Require Import Model.Atof Spec.FloatSpec Proofs.AtofProofs Proofs.FloatError.
Import ListNotations.
Local Open Scope Q_scope.

Definition u : Q := b2 (-53).
Lemma u_small : 0 < u /\ u <= 1 # 1000.
Proof. split; [apply b2_pos|]. vm_compute. discriminate. Qed.

Lemma inject_pos : forall p, 1 <= inject_Z (Zpos p).
Proof. intros p. change 1 with (inject_Z 1). rewrite <- Zle_Qle. lia. Qed.
Lemma digits_value : forall m e, b2 (Zpos (digits2_pos m) - 1 + e) <= inject_Z (Zpos m) * b2 e.
Proof.
  intros m e. rewrite b2_add, b2_Z by lia. destruct (digits2_bounds m) as (B & _). rewrite Zle_Qle in B. pose proof (b2_pos e). nra.
Qed.
Lemma b2_lt_inv : forall a b, b2 a < b2 b -> (a < b)%Z.
Proof. intros a b H. destruct (Z_lt_le_dec a b) as [|C]; [assumption|]. apply b2_le in C. lra. Qed.

Lemma relative : forall x q, b2 (-1022) <= q -> off (mag x) q (b2 (-53) * q) \/ off (mag x) q (b2 (emin 53 1024 - 1)) -> off (mag x) q (u * q).
Proof.
  intros x q L [H|H]; [exact H|]. change (emin 53 1024 - 1)%Z with (-53 + -1022)%Z in H. unfold off in H. rewrite b2_add in H.
  pose proof (b2_pos (-53)). unfold off, u in *. split; nra.
Qed.

Lemma mul_off : forall x y p, plain false x -> plain false y -> p == mag x * mag y -> p == 0 \/ b2 (-1022) <= p -> p < b2 970 ->
  plain false (mul64 x y) /\ off (mag (mul64 x y)) p (u * p).
Proof.
  intros x y p [->|(m & e & ->)] [->|(m' & e' & ->)] E L U; unfold mul64, SFmul; cbn [xorb mag] in *;
    try (split; [now left|]; cbn [mag]; unfold off; rewrite E; split; ring_simplify; apply Qle_refl).
  assert (EP : p == inject_Z (Zpos (m * m')) * b2 (e + e')) by (rewrite E, b2_add, Pos2Z.inj_mul, inject_Z_mult; ring).
  pose proof (digits_value (m * m') (e + e')) as DV. rewrite <- EP in DV.
  assert (D : (Zpos (digits2_pos (m * m')) - 1 + (e + e') < 970)%Z) by (apply b2_lt_inv; lra).
  destruct (aux_error 53 1024 ltac:(lia) ltac:(lia) false (m * m') (e + e') ltac:(lia) ltac:(lia)) as (A & B).
  split; [exact A|].
  assert (G : b2 (-1022) <= p).
  { destruct L as [L|L]; [|exact L]. exfalso. pose proof (b2_pos (Zpos (digits2_pos (m * m')) - 1 + (e + e'))). lra. }
  assert (R : forall v w d, v == w -> off d v (u * v) -> off d w (u * w)) by (intros v w d VW; unfold off; rewrite VW; auto).
  apply (R (inject_Z (Zpos (m * m')) * b2 (e + e'))); [now rewrite EP|]. apply relative; [now rewrite <- EP|exact B].
Qed.

Lemma add_off : forall x y p, plain false x -> plain false y -> p == mag x + mag y -> p == 0 \/ b2 (-1022) <= p -> p < b2 970 ->
  plain false (add64 x y) /\ off (mag (add64 x y)) p (u * p).
Proof.
  intros x y p X Y E L U. destruct u_small as (U1 & U2).
  assert (Z0 : forall z, plain false z -> p == mag z -> plain false z /\ off (mag z) p (u * p)).
  { intros z PZ PE. split; [exact PZ|]. pose proof (mag_nonneg z). unfold off. rewrite <- PE. nra. }
  destruct X as [->|(m & e & ->)], Y as [->|(m' & e' & ->)].
  - apply (Z0 (S754_zero false)); [now left|]. cbn [mag] in *. lra.
  - apply (Z0 (S754_finite false m' e')); [right; eauto|]. cbn [mag] in *. lra.
  - apply (Z0 (S754_finite false m e)); [right; eauto|]. cbn [mag] in *. lra.
  - unfold add64, SFadd. cbn [cond_Zopp].
    pose proof (align m e (Z.min e e') ltac:(lia)) as A1. pose proof (align m' e' (Z.min e e') ltac:(lia)) as A2.
    destruct (shl_align m e (Z.min e e')) as (a & ae), (shl_align m' e' (Z.min e e')) as (b & be). cbn [fst] in *.
    change (Zpos a + Zpos b)%Z with (Zpos (a + b)). unfold binary_normalize. set (z := Z.min e e') in *.
    assert (EP : p == inject_Z (Zpos (a + b)) * b2 z).
    { rewrite E. cbn [mag]. rewrite Pos2Z.inj_add, A1, A2, inject_Z_plus, !inject_Z_mult.
      rewrite (b2_split e z), (b2_split e' z) by lia. ring. }
    pose proof (digits_value (a + b) z) as DV. rewrite <- EP in DV.
    assert (D : (Zpos (digits2_pos (a + b)) - 1 + z < 970)%Z) by (apply b2_lt_inv; lra).
    destruct (round_error 53 1024 ltac:(lia) ltac:(lia) false (a + b) z ltac:(lia)) as (A & B).
    split; [exact A|].
    assert (G : b2 (-1022) <= p).
    { destruct L as [L|L]; [|exact L]. exfalso. pose proof (b2_pos (Zpos (digits2_pos (a + b)) - 1 + z)). lra. }
    assert (R : forall v w d, v == w -> off d v (u * v) -> off d w (u * w)) by (intros v w d VW; unfold off; rewrite VW; auto).
    apply (R (inject_Z (Zpos (a + b)) * b2 z)); [now rewrite EP|]. apply relative; [now rewrite <- EP|exact B].
Qed.

(** ** Errors that add up *)
Fixpoint qpow (a : Q) (n : nat) : Q := match n with O => 1 | S n => a * qpow a n end.
Lemma qpow_add : forall a n m, qpow a (n + m) == qpow a n * qpow a m.
Proof. intros a n m. induction n as [|n IH]; cbn [Nat.add qpow]; [ring|rewrite IH; ring]. Qed.

Definition lo (k : nat) : Q := qpow (1 - u) k.
Definition hi (k : nat) : Q := qpow (1 + u) k.
Lemma lo_range : forall k, 0 < lo k /\ lo k <= 1.
Proof. destruct u_small as (A & B). induction k as [|k (I1 & I2)]; [unfold lo; cbn [qpow]; lra|]. unfold lo in *. cbn [qpow]. split; nra. Qed.
Lemma hi_range : forall k, 1 <= hi k.
Proof. destruct u_small as (A & B). induction k as [|k I]; [unfold hi; cbn [qpow]; lra|]. unfold hi in *. cbn [qpow]. nra. Qed.
Lemma lo_mono : forall k l, (k <= l)%nat -> lo l <= lo k.
Proof.
  intros k l H. replace l with (k + (l - k))%nat by lia. unfold lo. rewrite qpow_add. fold (lo k). fold (lo (l - k)).
  destruct (lo_range k), (lo_range (l - k)). nra.
Qed.
Lemma hi_mono : forall k l, (k <= l)%nat -> hi k <= hi l.
Proof.
  intros k l H. replace l with (k + (l - k))%nat by lia. unfold hi. rewrite qpow_add. fold (hi k). fold (hi (l - k)).
  pose proof (hi_range k). pose proof (hi_range (l - k)). nra.
Qed.
Lemma lo_bound : forall k, 1 - inject_Z (Z.of_nat k) * u <= lo k.
Proof.
  destruct u_small as (A & B). induction k as [|k I]; [unfold lo; cbn [qpow]; change (inject_Z (Z.of_nat 0)) with 0; lra|]. unfold lo in *. cbn [qpow].
  rewrite Nat2Z.inj_succ. unfold Z.succ. rewrite inject_Z_plus. change (inject_Z 1) with 1.
  assert (0 <= inject_Z (Z.of_nat k)) by (change 0 with (inject_Z 0); rewrite <- Zle_Qle; lia).
  assert (0 <= inject_Z (Z.of_nat k) * u * u) by (apply Qmult_le_0_compat; [apply Qmult_le_0_compat|]; lra). nra.
Qed.
Lemma hi_bound : forall k, (Z.of_nat k < 2 ^ 40)%Z -> hi k <= 1 + inject_Z (Z.of_nat k) * u * (1 + b2 (-12)).
Proof.
  destruct u_small as (A & B). induction k as [|k I]; intros K; [unfold hi; cbn [qpow]; change (inject_Z (Z.of_nat 0)) with 0; lra|]. specialize (I ltac:(lia)). unfold hi in *. cbn [qpow].
  rewrite Nat2Z.inj_succ. unfold Z.succ. rewrite inject_Z_plus. change (inject_Z 1) with 1.
  assert (K1 : 0 <= inject_Z (Z.of_nat k)) by (change 0 with (inject_Z 0); rewrite <- Zle_Qle; lia).
  assert (K2 : inject_Z (Z.of_nat k) <= b2 40) by (rewrite b2_Z by lia; rewrite <- Zle_Qle; lia).
  assert (K3 : inject_Z (Z.of_nat k) * u <= b2 (-13)).
  { change (-13)%Z with (40 + -53)%Z. rewrite b2_add. fold u. nra. }
  assert (K4 : b2 (-12) == 2 * b2 (-13)) by (change (-12)%Z with (1 + -13)%Z; rewrite b2_add; reflexivity).
  assert (K5 : 0 < b2 (-13) /\ b2 (-12) <= 1) by (split; [apply b2_pos|vm_compute; discriminate]).
  set (t := inject_Z (Z.of_nat k) * u) in *. assert (K6 : 0 <= t) by (unfold t; nra).
  rewrite K4 in *. set (w := b2 (-13)) in *.
  assert (G : t * (1 + 2 * w) <= 2 * w) by nra.
  assert (G2 : u * (t * (1 + 2 * w)) <= u * (2 * w)) by nra.
  assert (G3 : (1 + u) * qpow (1 + u) k <= (1 + u) * (1 + t * (1 + 2 * w))) by nra.
  assert (G4 : 1 + (inject_Z (Z.of_nat k) + 1) * u * (1 + 2 * w) == 1 + (t + u) * (1 + 2 * w)) by (unfold t; ring).
  rewrite G4. nra.
Qed.

(** [x] stands for [q], after [k] roundings. *)
Definition about (k : nat) (x : spec_float) (q : Q) : Prop := plain false x /\ q * lo k <= mag x /\ mag x <= q * hi k.

Lemma about_more : forall k l x q, 0 <= q -> (k <= l)%nat -> about k x q -> about l x q.
Proof. intros k l x q Q0 H (A & B & C). split; [exact A|]. pose proof (lo_mono k l H). pose proof (hi_mono k l H). nra. Qed.

Lemma rounded : forall k x p q, 0 <= p -> q * lo k <= p -> p <= q * hi k -> off (mag x) p (u * p) -> q * lo (S k) <= mag x /\ mag x <= q * hi (S k).
Proof.
  intros k x p q P0 L H (O1 & O2). destruct u_small. unfold lo, hi in *. cbn [qpow].
  set (a := qpow (1 - u) k) in *. set (b := qpow (1 + u) k) in *.
  assert (p * (1 - u) <= mag x) by nra. assert (mag x <= p * (1 + u)) by nra.
  assert (q * a * (1 - u) <= p * (1 - u)) by nra. assert (p * (1 + u) <= q * b * (1 + u)) by nra. split; lra.
Qed.

(** Nothing, or neither too small nor too large. *)
Definition fair (q : Q) : Prop := (q == 0 \/ b2 (-1000) <= q) /\ q <= b2 900.
Lemma fair_nonneg : forall q, fair q -> 0 <= q.
Proof. intros q ([A|A] & _); pose proof (b2_pos (-1000)); lra. Qed.

Lemma fair_round : forall k q p, (Z.of_nat k < 2 ^ 40)%Z -> fair q -> q * lo k <= p -> p <= q * hi k ->
  0 <= p /\ (p == 0 \/ b2 (-1022) <= p) /\ p < b2 970.
Proof.
  intros k q p K F L H. pose proof (fair_nonneg q F) as Q0. destruct F as (F1 & F2). destruct (lo_range k) as (L1 & L2). pose proof (hi_range k) as H1.
  assert (K1 : 0 <= inject_Z (Z.of_nat k)) by (change 0 with (inject_Z 0); rewrite <- Zle_Qle; lia).
  assert (K2 : inject_Z (Z.of_nat k) <= b2 40) by (rewrite b2_Z by lia; rewrite <- Zle_Qle; lia).
  destruct u_small as (U1 & U2).
  assert (K3 : inject_Z (Z.of_nat k) * u <= b2 (-13)).
  { change (-13)%Z with (40 + -53)%Z. rewrite b2_add. fold u. nra. }
  assert (S1 : b2 (-13) <= 1 # 4) by (vm_compute; discriminate). assert (S2 : b2 (-12) <= 1 # 4) by (vm_compute; discriminate).
  pose proof (lo_bound k) as LB. pose proof (hi_bound k K) as HB. pose proof (b2_pos (-12)) as S3.
  assert (LO : 1 # 2 <= lo k) by lra.
  assert (HI : hi k <= 2) by nra.
  assert (X1 : b2 (-1022) <= b2 (-1001)) by (apply b2_le; lia).
  assert (X2 : b2 (-1000) == 2 * b2 (-1001)) by (change (-1000)%Z with (1 + -1001)%Z; rewrite b2_add; reflexivity).
  assert (X3 : b2 901 <= b2 969) by (apply b2_le; lia).
  assert (X4 : b2 901 == 2 * b2 900) by (change 901%Z with (1 + 900)%Z; rewrite b2_add; reflexivity).
  assert (X5 : b2 970 == 2 * b2 969) by (change 970%Z with (1 + 969)%Z; rewrite b2_add; reflexivity).
  pose proof (b2_pos 969). pose proof (b2_pos 900). split; [nra|]. split; [|nra].
  destruct F1 as [F1|F1]; [left|right]; [|nra]. assert (q * lo k == 0) by (rewrite F1; ring). assert (q * hi k == 0) by (rewrite F1; ring). lra.
Qed.

Lemma mul_about : forall k l x y a b, about k x a -> about l y b -> 0 <= a -> 0 <= b -> fair (a * b) -> (Z.of_nat (k + l) < 2 ^ 40)%Z ->
  about (S (k + l)) (mul64 x y) (a * b).
Proof.
  intros k l x y a b (A1 & A2 & A3) (B1 & B2 & B3) A0 B0 F K.
  destruct (lo_range k), (lo_range l). pose proof (hi_range k). pose proof (hi_range l).
  assert (L : a * b * lo (k + l) <= mag x * mag y).
  { unfold lo. rewrite qpow_add. fold (lo k). fold (lo l). assert (E : a * b * (lo k * lo l) == (a * lo k) * (b * lo l)) by ring. rewrite E.
    assert (0 <= a * lo k) by nra. assert (0 <= b * lo l) by nra. nra. }
  assert (H' : mag x * mag y <= a * b * hi (k + l)).
  { unfold hi. rewrite qpow_add. fold (hi k). fold (hi l). assert (E : a * b * (hi k * hi l) == (a * hi k) * (b * hi l)) by ring. rewrite E.
    pose proof (mag_nonneg x). pose proof (mag_nonneg y). nra. }
  destruct (fair_round _ _ _ K F L H') as (P0 & P1 & P2).
  destruct (mul_off x y (mag x * mag y) A1 B1 ltac:(reflexivity) P1 P2) as (M1 & M2).
  split; [exact M1|]. apply (rounded (k + l) _ (mag x * mag y)); assumption.
Qed.

Lemma add_about : forall k x y a b, about k x a -> about k y b -> fair (a + b) -> (Z.of_nat k < 2 ^ 40)%Z ->
  about (S k) (add64 x y) (a + b).
Proof.
  intros k x y a b (A1 & A2 & A3) (B1 & B2 & B3) F K.
  assert (L : (a + b) * lo k <= mag x + mag y) by lra. assert (H : mag x + mag y <= (a + b) * hi k) by lra.
  destruct (fair_round _ _ _ K F L H) as (P0 & P1 & P2).
  destruct (add_off x y (mag x + mag y) A1 B1 ltac:(reflexivity) P1 P2) as (M1 & M2).
  split; [exact M1|]. apply (rounded k _ (mag x + mag y)); assumption.
Qed.

Lemma about_eq : forall k x a b, a == b -> about k x a -> about k x b.
Proof. intros k x a b E (A & B & C). split; [exact A|]. now rewrite <- E. Qed.

(** ** The constants *)
Lemma number_about : forall x n, number x n -> about 0 x (inject_Z n).
Proof.
  intros x [|p|p] H; cbn [number] in H; [|destruct H as (m & e & -> & E1 & E2 & _)|contradiction].
  - subst. split; [now left|]. cbn [mag]. unfold lo, hi. cbn [qpow]. change (inject_Z 0) with 0. lra.
  - split; [right; eauto|]. cbn [mag]. unfold lo, hi. cbn [qpow].
    assert (E : inject_Z (Zpos m) * b2 e == inject_Z (Zpos p)).
    { rewrite E2, inject_Z_mult, <- b2_Z by lia. rewrite <- Qmult_assoc, <- b2_add. replace (- e + e)%Z with 0%Z by lia. change (b2 0) with 1. ring. }
    rewrite E. lra.
Qed.

Lemma tenth_about : about 1 tenth (1 # 10).
Proof. split; [right; eexists; eexists; reflexivity|]. split; vm_compute; discriminate. Qed.

Definition p10 (j : nat) : Q := qpow (1 # 10) j.
Lemma p10_pos : forall j, 0 < p10 j.
Proof. induction j as [|j IH]; unfold p10 in *; cbn [qpow]; lra. Qed.
Lemma p10_le : forall j l, (j <= l)%nat -> p10 l <= p10 j.
Proof.
  intros j l H. induction H as [|l H IH]; [apply Qle_refl|]. pose proof (p10_pos l). unfold p10 in *. cbn [qpow]. lra.
Qed.
Lemma p10_fair : forall j, (j <= 301)%nat -> b2 (-1000) <= p10 j.
Proof. intros j H. apply (Qle_trans _ (p10 301)); [vm_compute; discriminate|now apply p10_le]. Qed.

(** ** The loop *)
Definition from (n : Z) (text : list N) : Z := fold_left (fun n c => (10 * n + (Z.of_N c - 48))%Z) text n.

Lemma digit_about : forall c, (48 <= c <= 57)%N -> about 0 (of_int (N.land c 15)) (inject_Z (Z.of_N c - 48)).
Proof.
  intros c H. rewrite <- digit_land by exact H. apply number_about, of_int_number. rewrite digit_land by exact H. lia.
Qed.

Lemma whole_fair : forall n, (0 <= n < 2 ^ 800)%Z -> fair (inject_Z n).
Proof.
  intros n H. split.
  - destruct (Z.eq_dec n 0) as [->|NE]; [left; reflexivity|right].
    apply (Qle_trans _ 1); [vm_compute; discriminate|]. change 1 with (inject_Z 1). rewrite <- Zle_Qle. lia.
  - apply (Qle_trans _ (b2 800)); [|apply b2_le; lia]. rewrite b2_Z by lia. rewrite <- Zle_Qle. lia.
Qed.

Lemma whole_loop : forall text rest k r n, all_digits text -> (0 <= n)%Z -> about k r (inject_Z n) -> (from n text < 2 ^ 700)%Z ->
  (Z.of_nat (k + 2 * length text) < 2 ^ 39)%Z ->
  exists r', atof_loop r zero (text ++ rest) = atof_loop r' zero rest /\ about (k + 2 * length text) r' (inject_Z (from n text)).
Proof.
  induction text as [|c text IH]; intros rest k r n AD N A L K.
  - exists r. split; [reflexivity|]. now rewrite Nat.add_0_r.
  - inversion AD as [|? ? A1 A2]; subst. cbn [length] in K. unfold from in *. cbn [fold_left app] in *.
    pose proof (decimal_from text (10 * n + (Z.of_N c - 48)) ltac:(lia) A2) as M.
    assert (M1 : about (S k) (mul64 r ten) (inject_Z (n * 10))).
    { apply (about_eq _ _ (inject_Z n * inject_Z 10)); [now rewrite inject_Z_mult|]. rewrite <- (Nat.add_0_r k).
      apply mul_about; [exact A|exact (number_about _ _ (of_int_number 10 ltac:(reflexivity)))| | | |lia].
      - change 0 with (inject_Z 0). rewrite <- Zle_Qle. exact N.
      - discriminate.
      - rewrite <- inject_Z_mult. apply whole_fair. lia. }
    assert (M2 : about (S (S k)) (add64 (mul64 r ten) (of_int (N.land c 15))) (inject_Z (10 * n + (Z.of_N c - 48)))).
    { apply (about_eq _ _ (inject_Z (n * 10) + inject_Z (Z.of_N c - 48))).
      - rewrite <- inject_Z_plus. now replace (n * 10 + (Z.of_N c - 48))%Z with (10 * n + (Z.of_N c - 48))%Z by lia.
      - apply add_about; [exact M1| | |lia].
        + apply (about_more 0); [|lia|now apply digit_about]. change 0 with (inject_Z 0). rewrite <- Zle_Qle. lia.
        + rewrite <- inject_Z_plus. apply whole_fair. lia. }
    destruct (IH rest (S (S k)) _ (10 * n + (Z.of_N c - 48))%Z A2 ltac:(lia) M2 L ltac:(lia)) as (r' & E & B).
    exists r'. split.
    + rewrite <- E. cbn [atof_loop].
      replace ((48 <=? c)%N && (c <=? 57)%N) with true by (symmetry; apply andb_true_iff; split; apply N.leb_le; lia). reflexivity.
    + replace (k + 2 * length (c :: text))%nat with (S (S k) + 2 * length text)%nat by (cbn [length]; lia). exact B.
Qed.

(** What digits behind the point count. *)
Fixpoint frac (text : list N) (j : nat) : Q :=
  match text with [] => 0 | c :: text => inject_Z (Z.of_N c - 48) * p10 j + frac text (S j) end.

Lemma frac_nonneg : forall text j, all_digits text -> 0 <= frac text j.
Proof.
  induction text as [|c text IH]; intros j AD; [apply Qle_refl|]. inversion AD as [|? ? A1 A2]; subst. cbn [frac].
  specialize (IH (S j) A2). assert (0 <= inject_Z (Z.of_N c - 48)) by (change 0 with (inject_Z 0); rewrite <- Zle_Qle; lia).
  pose proof (p10_pos j). nra.
Qed.
Lemma frac_less : forall text j, all_digits text -> frac text (S j) <= p10 j.
Proof.
  induction text as [|c text IH]; intros j AD; [cbn [frac]; apply Qlt_le_weak, p10_pos|]. inversion AD as [|? ? A1 A2]; subst. cbn [frac].
  specialize (IH (S j) A2). assert (inject_Z (Z.of_N c - 48) <= 9) by (change 9 with (inject_Z 9); rewrite <- Zle_Qle; lia).
  pose proof (p10_pos j). unfold p10 in *. cbn [qpow] in *. set (t := qpow (1 # 10) j) in *. nra.
Qed.
Lemma frac_from : forall text n j, inject_Z (from n text) * p10 (j + length text) == inject_Z n * p10 j + frac text (S j).
Proof.
  induction text as [|c text IH]; intros n j; unfold from in *; cbn [fold_left length frac].
  - rewrite Nat.add_0_r. ring.
  - replace (j + S (length text))%nat with (S j + length text)%nat by lia. rewrite IH.
    rewrite inject_Z_plus, inject_Z_mult. unfold p10. cbn [qpow]. change (inject_Z 10) with 10. ring.
Qed.

Lemma frac_loop : forall text rest k r q m j, all_digits text -> (1 <= j)%nat -> (j + length text <= 301)%nat ->
  about (2 * j - 1) m (p10 j) -> (q == 0 \/ b2 (-1000) <= q) -> q + frac text j <= b2 800 ->
  about k r q -> (2 * j <= k)%nat -> (Z.of_nat (k + 2 * length text) < 2 ^ 39)%Z ->
  exists r' m', atof_loop r m (text ++ rest) = atof_loop r' m' rest /\ about (k + 2 * length text) r' (q + frac text j).
Proof.
  induction text as [|c text IH]; intros rest k r q m j AD J JT M Q0 U A KJ K.
  - exists r, m. split; [reflexivity|]. rewrite Nat.add_0_r. apply (about_eq _ _ q); [cbn [frac]; ring|exact A].
  - inversion AD as [|? ? A1 A2]; subst. cbn [length app frac] in *.
    pose proof (p10_pos j) as PJ. pose proof (p10_fair j ltac:(lia)) as PF. pose proof (frac_nonneg text (S j) A2) as FN.
    pose proof (b2_pos (-1000)) as BP. assert (QN : 0 <= q) by (destruct Q0; lra).
    set (d := (Z.of_N c - 48)%Z) in *. assert (D : (0 <= d <= 9)%Z) by (unfold d; lia).
    assert (DQ : inject_Z d == 0 \/ 1 <= inject_Z d).
    { destruct (Z.eq_dec d 0) as [->|NE]; [left; reflexivity|right]. change 1 with (inject_Z 1). rewrite <- Zle_Qle. lia. }
    assert (DQ9 : 0 <= inject_Z d /\ inject_Z d <= 9).
    { split; [change 0 with (inject_Z 0)|change 9 with (inject_Z 9)]; rewrite <- Zle_Qle; lia. }
    assert (PJ1 : p10 j <= 1) by (change 1 with (p10 0); apply p10_le; lia).
    assert (NINE : 9 <= b2 800) by (vm_compute; discriminate). assert (BB : b2 800 <= b2 900) by (apply b2_le; lia).
    assert (DP : inject_Z d * p10 j == 0 \/ b2 (-1000) <= inject_Z d * p10 j).
    { destruct DQ as [X|X]; [left; rewrite X; ring|right; nra]. }
    assert (DU : 0 <= inject_Z d * p10 j <= 9) by nra.
    assert (M1 : about (2 * j) (mul64 (of_int (N.land c 15)) m) (inject_Z d * p10 j)).
    { replace (2 * j)%nat with (S (0 + (2 * j - 1))) by lia. apply mul_about; [now apply digit_about|exact M| | | |lia].
      - lra.
      - lra.
      - split; [exact DP|lra]. }
    assert (M2 : about (S k) (add64 r (mul64 (of_int (N.land c 15)) m)) (q + inject_Z d * p10 j)).
    { apply add_about; [exact A|apply (about_more (2 * j)); [lra|lia|exact M1]| |lia].
      split; [|lra]. destruct Q0 as [Q0|Q0], DP as [DP|DP]; [left; lra| right; lra..]. }
    assert (M3 : about (2 * S j - 1) (mul64 m tenth) (p10 (S j))).
    { replace (2 * S j - 1)%nat with (S ((2 * j - 1) + 1)) by lia.
      apply (about_eq _ _ (p10 j * (1 # 10))); [unfold p10; cbn [qpow]; ring|].
      apply mul_about; [exact M|exact tenth_about|lra|discriminate| |lia].
      pose proof (p10_fair (S j) ltac:(lia)) as PS. unfold p10 in PS. cbn [qpow] in PS. fold (p10 j) in PS.
      split; [right; lra|lra]. }
    destruct (IH rest (S (S k)) (add64 r (mul64 (of_int (N.land c 15)) m)) (q + inject_Z d * p10 j) (mul64 m tenth) (S j)) as (r' & m' & E & B);
      try assumption; try lia.
    + destruct Q0 as [Q0|Q0], DP as [DP|DP]; [left; lra| right; lra..].
    + lra.
    + apply (about_more (S k)); [lra|lia|exact M2].
    + exists r', m'. split.
      * rewrite <- E. cbn [atof_loop].
        replace ((48 <=? c)%N && (c <=? 57)%N) with true by (symmetry; apply andb_true_iff; split; apply N.leb_le; lia).
        replace (SFeqb m zero) with false; [reflexivity|].
        destruct M as ([->|(mm & e & ->)] & ML & _); [|reflexivity]. exfalso. cbn [mag] in ML. destruct (lo_range (2 * j - 1)). nra.
      * replace (k + 2 * S (length text))%nat with (S (S k) + 2 * length text)%nat by lia.
        apply (about_eq _ _ (q + inject_Z d * p10 j + frac text (S j))); [ring|exact B].
Qed.

(** ** The result *)
Definition few (k : nat) : Prop := (k <= 4000)%nat.

Lemma close_float : forall s k r v, few k -> about k r v -> 0 <= v -> v <= b2 126 ->
  close (to_float (if s : bool then SFopp r else r)) (if s then - v else v).
Proof.
  intros s k r v K (P & L & H) V0 VU. unfold few in K.
  assert (K1 : inject_Z (Z.of_nat k) <= 4000) by (change 4000 with (inject_Z 4000); rewrite <- Zle_Qle; lia).
  assert (K0 : 0 <= inject_Z (Z.of_nat k)) by (change 0 with (inject_Z 0); rewrite <- Zle_Qle; lia).
  pose proof (lo_bound k) as LB. pose proof (hi_bound k ltac:(lia)) as HB. destruct u_small as (U1 & U2).
  assert (C1 : 4000 * u * (1 + b2 (-12)) <= b2 (-41)) by (vm_compute; discriminate).
  assert (C2 : 4000 * u <= b2 (-41)) by (vm_compute; discriminate).
  pose proof (b2_pos (-12)) as C3. pose proof (b2_pos (-41)) as C4.
  assert (T : inject_Z (Z.of_nat k) * u <= 4000 * u) by nra.
  assert (T2 : inject_Z (Z.of_nat k) * u * (1 + b2 (-12)) <= 4000 * u * (1 + b2 (-12))) by nra.
  assert (R1 : v * (1 - b2 (-41)) <= mag r) by (assert (1 - b2 (-41) <= lo k) by lra; nra).
  assert (R2 : mag r <= v * (1 + b2 (-41))) by (assert (hi k <= 1 + b2 (-41)) by lra; nra).
  set (w := b2 (-41)) in *. assert (W1 : w <= 1 # 4) by (vm_compute; discriminate).
  (* the rounding to float *)
  assert (F : exists x, to_float (if s then SFopp r else r) = x /\ plain s x /\
    (off (mag x) (mag r) (b2 (-24) * mag r) \/ off (mag x) (mag r) (b2 (-150)))).
  { eexists. split; [reflexivity|]. destruct P as [->|(m & e & ->)].
    - split; [left; destruct s; reflexivity|]. left. destruct s; cbn [SFopp to_float mag]; unfold off; lra.
    - replace (if s then SFopp (S754_finite false m e) else S754_finite false m e) with (S754_finite s m e) by (destruct s; reflexivity).
      cbn [to_float]. apply (round_error 24 128); try lia.
      pose proof (digits_value m e) as DV. cbn [mag] in R2.
      assert (X : (Zpos (digits2_pos m) - 1 + e < 127)%Z); [|lia]. apply b2_lt_inv.
      assert (Y : b2 127 == 2 * b2 126) by (change 127%Z with (1 + 126)%Z; rewrite b2_add; reflexivity).
      pose proof (b2_pos 126). nra. }
  destruct F as (x & -> & PX & O).
  assert (RX : rational x == if s then - mag x else mag x).
  { destruct PX as [->|(m & e & ->)]; cbn [rational mag]; [destruct s; reflexivity|]. fold (b2 e).
    destruct s; [|reflexivity]. change (Zneg m) with (- Zpos m)%Z. rewrite inject_Z_opp. ring. }
  assert (B : Qabs (mag x - v) <= (b2 (-24) + b2 (-40)) * v \/ Qabs (mag x - v) <= b2 (-149)).
  { assert (Y40 : b2 (-40) == 2 * w) by (unfold w; change (-40)%Z with (1 + -41)%Z; rewrite b2_add; reflexivity).
    assert (Y49 : b2 (-149) == 2 * b2 (-150)) by (change (-149)%Z with (1 + -150)%Z; rewrite b2_add; reflexivity).
    assert (Y50 : b2 (-150) == w * b2 (-109)) by (unfold w; rewrite <- b2_add; reflexivity).
    assert (Y24 : 0 < b2 (-24) /\ b2 (-24) <= 1 # 4) by (split; [apply b2_pos|vm_compute; discriminate]).
    destruct O as [(O1 & O2)|(O1 & O2)].
    - left. apply Qabs_Qle_condition. rewrite Y40. set (z := b2 (-24)) in *.
      assert (Z1 : z * mag r <= z * (v * (1 + w))) by nra. assert (Z2 : z * (v * w) <= v * w) by (assert (0 <= v * w) by nra; nra).
      split; nra.
    - destruct (Qlt_le_dec (b2 (-109)) v) as [G|G].
      + left. apply Qabs_Qle_condition. rewrite Y40. assert (b2 (-150) <= w * v) by (rewrite Y50; nra). split; nra.
      + right. apply Qabs_Qle_condition. assert (w * v <= b2 (-150)) by (rewrite Y50; nra). split; nra. }
  split; [destruct PX as [->|(m & e & ->)]; exact I|].
  fold (b2 (-24)) (b2 (-40)) (b2 (-149)).
  assert (AV : Qabs (if s then - v else v) == v) by (destruct s; [rewrite Qabs_opp|]; apply Qabs_pos; exact V0).
  assert (AX : Qabs (rational x - (if s then - v else v)) == Qabs (mag x - v)).
  { rewrite RX. destruct s; [|reflexivity]. rewrite <- (Qabs_opp (mag x - v)). apply Qabs_wd. ring. }
  rewrite AX, AV. exact B.
Qed.

Lemma decimal_app : forall a b, decimal (a ++ b) = from (decimal a) b.
Proof. intros a b. unfold decimal, from. apply fold_left_app. Qed.
Lemma ten_power : forall n, 10 ^ Z.of_nat n * p10 n == 1.
Proof.
  induction n as [|n IH]; [reflexivity|]. rewrite Nat2Z.inj_succ. unfold Z.succ. rewrite Qpower_plus by discriminate.
  unfold p10 in *. cbn [qpow]. change (10 ^ 1) with 10. transitivity (10 ^ Z.of_nat n * qpow (1 # 10) n); [ring|exact IH].
Qed.
Lemma fraction_frac : forall a b, fraction a b == inject_Z (decimal a) + frac b 1.
Proof.
  intros a b. unfold fraction. rewrite decimal_app. pose proof (frac_from b (decimal a) 0) as F. change (p10 0) with 1 in F.
  cbn [Nat.add] in F. pose proof (ten_power (length b)) as T.
  assert (NZ : ~ 10 ^ Z.of_nat (length b) == 0) by (apply Qpower_not_0; discriminate).
  assert (D : inject_Z (from (decimal a) b) / 10 ^ Z.of_nat (length b) == inject_Z (from (decimal a) b) * p10 (length b)).
  { apply (Qmult_inj_r _ _ _ NZ). rewrite <- (Qmult_assoc _ (p10 _)), (Qmult_comm (p10 _)), T. field. exact NZ. }
  rewrite D, F. ring.
Qed.

Lemma loop_ends : forall rest r m, ends rest -> atof_loop r m rest = r.
Proof.
  intros [|c rest] r m E; [reflexivity|]. destruct E as (E1 & E2). cbn [atof_loop].
  destruct ((48 <=? c)%N && (c <=? 57)%N) eqn:X; [apply andb_true_iff in X; destruct X as [X Y]; apply N.leb_le in X, Y; lia|].
  apply N.eqb_neq in E2. now rewrite E2.
Qed.

Lemma zero_about : about 0 zero (inject_Z 0).
Proof. apply number_about. reflexivity. Qed.

Lemma atof_sign : forall c text, c <> 45%N -> atof (c :: text) = to_float (atof_loop zero zero (c :: text)).
Proof. intros c text H. unfold atof. apply N.eqb_neq in H. now rewrite H. Qed.

(** With a point. *)
Lemma atof_fraction : forall a b rest, all_digits a -> all_digits b -> ends rest -> (length a <= 1000)%nat -> (length b <= 300)%nat ->
  (decimal a < 2 ^ 126)%Z ->
  close (atof (a ++ 46%N :: b ++ rest)) (fraction a b) /\ close (atof (45%N :: a ++ 46%N :: b ++ rest)) (- fraction a b).
Proof.
  intros a b rest A B EN LA LB D.
  assert (P700 : (2 ^ 126 < 2 ^ 700)%Z) by (apply Z.pow_lt_mono_r; lia).
  destruct (whole_loop a (46%N :: b ++ rest) 0 zero 0 A ltac:(lia) zero_about) as (r & E & R); [change (from 0 a) with (decimal a); lia|lia|].
  change (from 0 a) with (decimal a) in R. cbn [Nat.add] in R.
  assert (D0 : (0 <= decimal a)%Z) by (unfold decimal; apply decimal_from; [lia|exact A]).
  assert (Q0 : 0 <= inject_Z (decimal a)) by (change 0 with (inject_Z 0); rewrite <- Zle_Qle; exact D0).
  pose proof (frac_less b 0 B) as FL. change (p10 0) with 1 in FL. pose proof (frac_nonneg b 1 B) as FN.
  assert (QU : inject_Z (decimal a) + 1 <= b2 126).
  { rewrite b2_Z by lia. change 1 with (inject_Z 1). rewrite <- inject_Z_plus, <- Zle_Qle. lia. }
  assert (BB : b2 126 <= b2 800) by (apply b2_le; lia).
  destruct (frac_loop b rest (2 * length a + 2) r (inject_Z (decimal a)) tenth 1 B ltac:(lia) ltac:(lia)) as (r' & m' & E' & R').
  - apply (about_eq _ _ (1 # 10)); [reflexivity|exact tenth_about].
  - apply whole_fair. lia.
  - lra.
  - apply (about_more (2 * length a)); [exact Q0|lia|exact R].
  - lia.
  - lia.
  - assert (L : atof_loop zero zero (a ++ 46%N :: b ++ rest) = r').
    { rewrite E. cbn [atof_loop]. change ((48 <=? 46)%N && (46 <=? 57)%N) with false. change (46 =? 46)%N with true. cbn iota.
      rewrite E'. apply loop_ends. exact EN. }
    apply (about_eq _ _ _ (fraction a b) (Qeq_sym _ _ (fraction_frac a b))) in R'.
    assert (F0 : 0 <= fraction a b) by (rewrite fraction_frac; lra). assert (FU : fraction a b <= b2 126) by (rewrite fraction_frac; lra).
    assert (FEW : few (2 * length a + 2 + 2 * length b)) by (unfold few; lia).
    split.
    + replace (atof (a ++ 46%N :: b ++ rest)) with (to_float r'); [exact (close_float false _ _ _ FEW R' F0 FU)|].
      rewrite <- L. destruct a as [|c a]; [reflexivity|]. inversion A; subst. symmetry. apply atof_sign. lia.
    + replace (atof (45%N :: a ++ 46%N :: b ++ rest)) with (to_float (SFopp r')); [exact (close_float true _ _ _ FEW R' F0 FU)|].
      rewrite <- L. reflexivity.
Qed.

(** Without. *)
Lemma atof_whole : forall a rest, a <> [] -> all_digits a -> ends rest -> (length a <= 1000)%nat -> (decimal a < 2 ^ 126)%Z ->
  close (atof (a ++ rest)) (inject_Z (decimal a)) /\ close (atof (45%N :: a ++ rest)) (- inject_Z (decimal a)).
Proof.
  intros a rest NE A EN LA D.
  assert (P700 : (2 ^ 126 < 2 ^ 700)%Z) by (apply Z.pow_lt_mono_r; lia).
  destruct (whole_loop a rest 0 zero 0 A ltac:(lia) zero_about) as (r & E & R); [change (from 0 a) with (decimal a); lia|lia|].
  change (from 0 a) with (decimal a) in R. cbn [Nat.add] in R.
  assert (D0 : (0 <= decimal a)%Z) by (unfold decimal; apply decimal_from; [lia|exact A]).
  assert (Q0 : 0 <= inject_Z (decimal a)) by (change 0 with (inject_Z 0); rewrite <- Zle_Qle; exact D0).
  assert (QU : inject_Z (decimal a) <= b2 126) by (rewrite b2_Z by lia; rewrite <- Zle_Qle; lia).
  assert (L : atof_loop zero zero (a ++ rest) = r) by (rewrite E; apply loop_ends; exact EN).
  assert (FEW : few (2 * length a)) by (unfold few; lia).
  split.
  - replace (atof (a ++ rest)) with (to_float r); [exact (close_float false _ _ _ FEW R Q0 QU)|].
    rewrite <- L. destruct a as [|c a]; [contradiction|]. inversion A; subst. symmetry. apply atof_sign. lia.
  - replace (atof (45%N :: a ++ rest)) with (to_float (SFopp r)); [exact (close_float true _ _ _ FEW R Q0 QU)|].
    rewrite <- L. reflexivity.
Qed.
