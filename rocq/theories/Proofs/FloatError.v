(** Rounding errors of the arithmetic in [SpecFloat]. *)
From Coq Require Import List NArith ZArith QArith Qabs Qpower Bool Lia Lqa Floats.SpecFloat.
From Verif Require Import Proofs.AtofProofs.
Import ListNotations.
Local Open Scope Z_scope.

(** ** Shifting to the right *)
Lemma iter_pos_nat : forall A (f : A -> A) p x, iter_pos f p x = Nat.iter (Pos.to_nat p) f x.
Proof.
  assert (X : forall A (f : A -> A) n m x, Nat.iter n f (Nat.iter m f x) = Nat.iter (n + m) f x).
  { intros A f n m x. induction n as [|n IH]; [reflexivity|]. change (f (Nat.iter n f (Nat.iter m f x)) = f (Nat.iter (n + m) f x)). now rewrite IH. }
  assert (Y : forall A (f : A -> A) n x, Nat.iter n f (f x) = Nat.iter (S n) f x).
  { intros A f n x. change (f x) with (Nat.iter 1 f x). rewrite X. f_equal. lia. }
  intros A f p. induction p as [p IH|p IH|]; intros x; cbn [iter_pos].
  - rewrite !IH, X, Y. f_equal. lia.
  - rewrite !IH, X. f_equal. lia.
  - reflexivity.
Qed.

(** What [n] steps have done to [m]: the quotient, and where the rest lies. *)
Definition shifted (m : Z) (n : nat) (r : shr_record) : Prop :=
  exists rho, m = shr_m r * 2 ^ Z.of_nat n + rho /\ 0 <= rho < 2 ^ Z.of_nat n /\ 0 <= shr_m r /\
  match shr_r r, shr_s r with
  | false, false => rho = 0
  | false, true => 0 < rho /\ 2 * rho < 2 ^ Z.of_nat n
  | true, false => 2 * rho = 2 ^ Z.of_nat n
  | true, true => 2 ^ Z.of_nat n < 2 * rho
  end.

Lemma shift_step : forall m n r, shifted m n r -> shifted m (S n) (shr_1 r).
Proof.
  intros m n [q r s] (rho & E & R & Q & L). cbn [shr_m shr_r shr_s] in *. unfold shifted.
  replace (Z.of_nat (S n)) with (Z.succ (Z.of_nat n)) by lia. rewrite Z.pow_succ_r by lia.
  set (P := 2 ^ Z.of_nat n) in *. assert (PP : 0 < P) by (apply Z.pow_pos_nonneg; lia).
  destruct q as [|p|p]; [| |lia].
  - cbn [shr_1 shr_m shr_r shr_s]. exists rho. repeat split; try lia; destruct r, s; cbn [orb]; lia.
  - destruct p as [p|p|]; cbn [shr_1 shr_m shr_r shr_s].
    + exists (P + rho). rewrite Pos2Z.inj_xI in E. repeat split; try lia; destruct r, s; cbn [orb]; nia.
    + exists rho. rewrite (Pos2Z.inj_xO p) in E. repeat split; try lia; destruct r, s; cbn [orb]; lia.
    + exists (P + rho). repeat split; try lia; destruct r, s; cbn [orb]; lia.
Qed.

Lemma shift_many : forall n m, 0 <= m -> shifted m n (Nat.iter n shr_1 (Build_shr_record m false false)).
Proof.
  induction n as [|n IH]; intros m M; [exists 0; cbn; lia|]. change (shifted m (S n) (shr_1 (Nat.iter n shr_1 (Build_shr_record m false false)))). apply shift_step. apply IH. exact M.
Qed.

(** Rounding to nearest: at most half a unit off. *)
Lemma round_half : forall m n r, shifted m (S n) r ->
  let k := round_nearest_even (shr_m r) (loc_of_shr_record r) in
  Z.abs (k * 2 ^ Z.of_nat (S n) - m) <= 2 ^ Z.of_nat n /\ (k = shr_m r \/ k = shr_m r + 1).
Proof.
  intros m n [q r s] (rho & E & R & Q & L) k. cbn [shr_m shr_r shr_s] in *.
  replace (Z.of_nat (S n)) with (Z.succ (Z.of_nat n)) in * by lia. rewrite Z.pow_succ_r in * by lia.
  set (P := 2 ^ Z.of_nat n) in *. assert (PP : 0 < P) by (apply Z.pow_pos_nonneg; lia). unfold k.
  destruct r, s; cbn [loc_of_shr_record round_nearest_even]; try destruct (Z.even q); split; try lia; nia.
Qed.

(** ** Values *)
Local Open Scope Q_scope.
Definition b2 (e : Z) : Q := 2 ^ e.
Lemma b2_pos : forall e, 0 < b2 e.
Proof. intros e. apply Qpower_0_lt. reflexivity. Qed.
Lemma b2_add : forall a b, b2 (a + b) == b2 a * b2 b.
Proof. intros a b. apply Qpower_plus. discriminate. Qed.
Lemma b2_le : forall a b, (a <= b)%Z -> b2 a <= b2 b.
Proof. intros a b H. apply Qpower_le_compat_l; [exact H|discriminate]. Qed.
Lemma b2_Z : forall n, (0 <= n)%Z -> b2 n == inject_Z (2 ^ n).
Proof. intros n H. unfold b2. rewrite Zpower_Qpower by exact H. reflexivity. Qed.
Lemma b2_split : forall a b, (b <= a)%Z -> b2 a == inject_Z (2 ^ (a - b)) * b2 b.
Proof. intros a b H. rewrite <- b2_Z by lia. rewrite <- b2_add. now replace (a - b + b)%Z with a by lia. Qed.

(** What a number stands for but for its sign; it has none beyond its place. *)
Definition mag (x : spec_float) : Q := match x with S754_finite _ m e => inject_Z (Zpos m) * b2 e | _ => 0 end.
Definition plain (s : bool) (x : spec_float) : Prop := x = S754_zero s \/ exists m e, x = S754_finite s m e.
Lemma mag_nonneg : forall x, 0 <= mag x.
Proof.
  intros [s|s| |s m e]; cbn [mag]; try apply Qle_refl. apply Qmult_le_0_compat; [|apply Qlt_le_weak, b2_pos].
  change 0 with (inject_Z 0). rewrite <- Zle_Qle. lia.
Qed.

(** [v] is at most [d] off [q]. *)
Definition off (v q d : Q) : Prop := q - d <= v /\ v <= q + d.
Local Close Scope Q_scope.

(** ** Rounding *)
Section Rounding.
Variable prec emax : Z.
Hypothesis P : 1 < prec.
Hypothesis E : prec < emax.

Lemma shr_exact : forall m e n, n <= 0 -> shr (Build_shr_record m false false) e n = (Build_shr_record m false false, e).
Proof. intros m e [|n|n] H; cbn; [reflexivity|lia|reflexivity]. Qed.

Lemma aux_still : forall s m e, e <= emax - prec -> fexp prec emax (Zpos (digits2_pos m) + e) <= e ->
  binary_round_aux prec emax s (Zpos m) e loc_Exact = S754_finite s m e.
Proof.
  intros s m e L F. unfold binary_round_aux, shr_fexp. cbn [Zdigits2 shr_record_of_loc].
  rewrite shr_exact by lia. cbn [shr_m loc_of_shr_record round_nearest_even Zdigits2 shr_record_of_loc].
  rewrite shr_exact by lia. cbn [shr_m]. replace (e <=? emax - prec) with true; [reflexivity|]. symmetry. apply Z.leb_le. lia.
Qed.

Lemma aux_moved : forall s m e, let d := Zpos (digits2_pos m) + e in let f := fexp prec emax d in
  d < emax -> e < f ->
  exists k, 2 * Z.abs (k * 2 ^ (f - e) - Zpos m) <= 2 ^ (f - e) /\ 0 <= k /\
    (k = 0 /\ binary_round_aux prec emax s (Zpos m) e loc_Exact = S754_zero s \/
     exists m' e', binary_round_aux prec emax s (Zpos m) e loc_Exact = S754_finite s m' e' /\ f <= e' /\ k = Zpos m' * 2 ^ (e' - f)).
Proof.
  intros s m e d f D F. pose proof (digits2_bounds m) as B. set (dm := Zpos (digits2_pos m)) in *.
  assert (DM : 1 <= dm) by (unfold dm; lia).
  destruct (f - e) as [|n|n] eqn:FE; [lia| |lia].
  destruct (Pos.to_nat n) as [|n'] eqn:N; [lia|]. assert (NZ : Zpos n = Z.of_nat (S n')) by lia.
  pose proof (shift_many (S n') (Zpos m) ltac:(lia)) as SH.
  set (r := Nat.iter (S n') shr_1 (Build_shr_record (Zpos m) false false)) in *.
  assert (SR : shr (Build_shr_record (Zpos m) false false) e (f - e) = (r, f)).
  { rewrite FE. cbn [shr]. rewrite iter_pos_nat, N. f_equal. lia. }
  destruct (round_half _ _ _ SH) as (H & K). set (k := round_nearest_even (shr_m r) (loc_of_shr_record r)) in *.
  destruct SH as (rho & M & RR & QQ & _). rewrite NZ. exists k.
  assert (P2 : 0 < 2 ^ Z.of_nat (S n')) by (apply Z.pow_pos_nonneg; lia).
  split; [replace (Z.of_nat (S n')) with (Z.succ (Z.of_nat n')) in * by lia; rewrite Z.pow_succ_r in * by lia; lia|].
  split; [lia|].
  assert (F1 : d - f <= prec /\ emin prec emax <= f) by (unfold f, fexp; lia). destruct F1 as (F1 & F2).
  (* how many bits [k] has *)
  assert (U : shr_m r < 2 ^ Z.max 0 (d - f)).
  { destruct (Z_lt_le_dec (shr_m r) (2 ^ Z.max 0 (d - f))) as [|C]; [assumption|exfalso].
    destruct (Z_lt_le_dec (d - f) 0) as [C1|C1].
    - rewrite Z.max_l in C by lia. change (2 ^ 0) with 1 in C.
      assert (2 ^ dm <= 2 ^ Z.of_nat (S n')) by (apply Z.pow_le_mono_r; lia).
      assert (1 * 2 ^ Z.of_nat (S n') <= shr_m r * 2 ^ Z.of_nat (S n')) by (apply Z.mul_le_mono_nonneg_r; lia). lia.
    - rewrite Z.max_r in C by lia.
      assert (X : 2 ^ dm = 2 ^ (d - f) * 2 ^ Z.of_nat (S n')) by (rewrite <- Z.pow_add_r by lia; f_equal; lia).
      assert (2 ^ (d - f) * 2 ^ Z.of_nat (S n') <= shr_m r * 2 ^ Z.of_nat (S n')) by (apply Z.mul_le_mono_nonneg_r; lia). lia. }
  assert (KU : k <= 2 ^ Z.max 0 (d - f)) by lia.
  assert (KP : 2 ^ Z.max 0 (d - f) <= 2 ^ prec) by (apply Z.pow_le_mono_r; lia).
  unfold binary_round_aux, shr_fexp. cbn [Zdigits2 shr_record_of_loc]. fold dm. fold d. fold f. rewrite SR. fold k.
  assert (K0 : 0 <= k) by lia. destruct k as [|kp|kp] eqn:KE; [left| |lia].
  - split; [reflexivity|]. cbn [Zdigits2]. rewrite shr_exact; [reflexivity|]. unfold fexp. lia.
  - right. cbn [Zdigits2]. pose proof (digits2_bounds kp) as BK.
    destruct (Z.eq_dec (Zpos kp) (2 ^ prec)) as [KX|KX].
    + assert (DK : Zpos (digits2_pos kp) = prec + 1).
      { apply digits2_unique; [lia|]. replace (prec + 1 - 1) with prec by lia. rewrite Z.pow_add_r by lia. change (2 ^ 1) with 2. lia. }
      assert (DF : d - f = prec).
      { destruct (Z.eq_dec (d - f) prec); [assumption|exfalso].
        assert (2 ^ Z.max 0 (d - f) < 2 ^ prec) by (apply Z.pow_lt_mono_r; lia). lia. }
      exists (Z.to_pos (2 ^ (prec - 1))), (f + 1). 
      assert (PX : 0 < 2 ^ (prec - 1)) by (apply Z.pow_pos_nonneg; lia).
      assert (PD : 2 ^ prec = 2 * 2 ^ (prec - 1)) by (rewrite <- Z.pow_succ_r by lia; f_equal; lia).
      split; [|split; [lia|rewrite Z2Pos.id by lia; replace (f + 1 - f) with 1 by lia; change (2 ^ 1) with 2; lia]].
      rewrite DK. replace (fexp prec emax (prec + 1 + f) - f) with 1 by (unfold fexp; lia). cbn [shr iter_pos].
      destruct kp as [kp|kp|]; [rewrite Pos2Z.inj_xI in KX; lia| |lia]. cbn [shr_1 shr_m orb].
      rewrite (Pos2Z.inj_xO kp) in KX. replace (Z.to_pos (2 ^ (prec - 1))) with kp by (apply Pos2Z.inj; rewrite Z2Pos.id by lia; lia).
      replace (f + 1 <=? emax - prec) with true; [reflexivity|]. symmetry. apply Z.leb_le. lia.
    + assert (DK : Zpos (digits2_pos kp) <= prec) by (apply digits2_le; lia).
      exists kp, f. rewrite shr_exact by (unfold fexp; lia). cbn [shr_m].
      split; [|split; [lia|rewrite Z.sub_diag; cbn; lia]].
      replace (f <=? emax - prec) with true; [reflexivity|]. symmetry. apply Z.leb_le. unfold f, fexp, emin. lia.
Qed.

Local Open Scope Q_scope.
Lemma aux_error : forall s m e, (e <= emax - prec)%Z -> (Zpos (digits2_pos m) + e < emax)%Z ->
  let x := binary_round_aux prec emax s (Zpos m) e loc_Exact in
  let q := inject_Z (Zpos m) * b2 e in
  plain s x /\ (off (mag x) q (b2 (- prec) * q) \/ off (mag x) q (b2 (emin prec emax - 1))).
Proof.
  intros s m e L D x q. pose proof (digits2_bounds m) as B. set (d := (Zpos (digits2_pos m) + e)%Z) in *.
  assert (QP : 0 < q).
  { unfold q. assert (0 < inject_Z (Zpos m)) by (change 0 with (inject_Z 0); rewrite <- Zlt_Qlt; lia). pose proof (b2_pos e). nra. }
  set (f := fexp prec emax d). destruct (Z_le_gt_dec f e) as [F|F].
  - unfold x. rewrite aux_still by assumption. split; [right; eauto|]. left. cbn [mag]. fold q. unfold off.
    pose proof (b2_pos (- prec)). nra.
  - assert (F' : (e < f)%Z) by lia. destruct (aux_moved s m e D F') as (k & H & K & C). fold d in H, C. fold f in H, C.
    assert (V : plain s x /\ mag x == inject_Z k * b2 f).
    { destruct C as [(-> & C)|(m' & e' & C & C1 & ->)]; unfold x; rewrite C; split.
      - now left.
      - cbn [mag]. ring.
      - right. eauto.
      - cbn [mag]. rewrite (b2_split e' f) by exact C1. rewrite inject_Z_mult. ring. }
    destruct V as (V1 & V2). split; [exact V1|].
    assert (O : off (mag x) q (b2 (f - 1))).
    { assert (HH : (2 * (k * 2 ^ (f - e)) <= 2 * Zpos m + 2 ^ (f - e) /\ 2 * Zpos m <= 2 * (k * 2 ^ (f - e)) + 2 ^ (f - e))%Z) by lia.
      destruct HH as (H1 & H2). rewrite Zle_Qle in H1, H2. rewrite !inject_Z_plus, !inject_Z_mult in H1, H2.
      pose proof (b2_pos e) as PE. pose proof (b2_split f e ltac:(lia)) as SP.
      assert (HF : b2 f == 2 * b2 (f - 1)).
      { replace f with (f - 1 + 1)%Z at 1 by lia. rewrite b2_add. change (b2 1) with 2. ring. }
      unfold off. rewrite V2. unfold q. change (inject_Z 2) with 2 in *.
      set (T := inject_Z (2 ^ (f - e))) in *. set (M := inject_Z (Zpos m)) in *. set (KK := inject_Z k) in *.
      assert (G1 : 2 * (KK * b2 f) <= 2 * (M * b2 e) + b2 f) by (rewrite SP; nra).
      assert (G2 : 2 * (M * b2 e) <= 2 * (KK * b2 f) + b2 f) by (rewrite SP; nra). lra. }
    destruct (Z.eq_dec f (emin prec emax)) as [FE|FE]; [right; now rewrite <- FE|left].
    assert (FD : f = (d - prec)%Z) by (unfold f, fexp in *; lia).
    assert (G : b2 (f - 1) <= b2 (- prec) * q).
    { replace (f - 1)%Z with (- prec + (d - 1))%Z by lia. rewrite b2_add.
      assert (b2 (d - 1) <= q).
      { unfold q. replace (d - 1)%Z with (Zpos (digits2_pos m) - 1 + e)%Z by lia. rewrite b2_add, b2_Z by lia.
        destruct B as (B & _). rewrite Zle_Qle in B. pose proof (b2_pos e). nra. }
      pose proof (b2_pos (- prec)). nra. }
    unfold off in *. lra.
Qed.

(** The same for [binary_round], which makes room for all bits first. *)
Lemma round_error : forall s m e, (Zpos (digits2_pos m) + e < emax)%Z ->
  let x := binary_round prec emax s m e in
  let q := inject_Z (Zpos m) * b2 e in
  plain s x /\ (off (mag x) q (b2 (- prec) * q) \/ off (mag x) q (b2 (emin prec emax - 1))).
Proof.
  intros s m e D x q. unfold x, binary_round. set (f := fexp prec emax (Zpos (digits2_pos m) + e)).
  assert (FL : (f <= emax - prec)%Z) by (unfold f, fexp, emin; lia).
  unfold shl_align. destruct (f - e)%Z as [|n|n] eqn:FE.
  - apply aux_error; [lia|exact D].
  - apply aux_error; [lia|exact D].
  - assert (S1 : Zpos (shift_pos n m) = (Zpos m * 2 ^ Zpos n)%Z) by (rewrite shift_pos_correct, Z.pow_pos_fold; ring).
    assert (Q1 : inject_Z (Zpos (shift_pos n m)) * b2 f == q).
    { unfold q. rewrite S1, inject_Z_mult, <- b2_Z by lia. rewrite <- Qmult_assoc, <- b2_add. now replace (Zpos n + f)%Z with e by lia. }
    pose proof (digits2_shift m (shift_pos n m) (Zpos n) ltac:(lia) S1) as DS.
    destruct (aux_error s (shift_pos n m) f FL ltac:(lia)) as (A & B). split; [exact A|].
    unfold off in *. rewrite Q1 in B. exact B.
Qed.
Local Close Scope Q_scope.
End Rounding.
