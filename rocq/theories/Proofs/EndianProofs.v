From Coq Require Import List NArith ZArith Lia ZifyBool ZifyNat ZifyN.
From Verif Require Import Model.Base Model.Endian Spec.EndianSpec Proofs.Arith.
Import ListNotations.
Local Open Scope N_scope.
Ltac Zify.zify_post_hook ::= Z.div_mod_to_equations.

Lemma to16_digits : forall v, v < 2 ^ 16 -> to16 v = be_digits 2 v.
Proof.
  intros v Hv. unfold to16. cbn [be_digits app].
  change 0xff00 with (N.shiftl 255 8). change 0x00ff with (N.shiftl 255 0).
  rewrite !mask_byte. change (2 ^ 8) with 256. change (2^0) with 1.
  rewrite N.div_1_r. reflexivity.
Qed.

Lemma div_div_pow : forall v a, v / 256 ^ a / 256 = v / 256 ^ (a + 1).
Proof.
  intros. rewrite N.div_div by (try apply N.pow_nonzero; lia).
  rewrite N.pow_add_r. reflexivity.
Qed.

Ltac digits :=
  rewrite ?N.div_1_r;
  repeat (rewrite N.div_div by lia);
  repeat (match goal with |- context [256 * ?x] =>
            let y := eval compute in (256 * x) in change (256 * x) with y end);
  repeat (match goal with |- context [?x * 256] =>
            let y := eval compute in (x * 256) in change (x * 256) with y end).

Lemma to32_digits : forall v, v < 2 ^ 32 -> to32 v = be_digits 4 v.
Proof.
  intros v Hv. unfold to32. cbn [be_digits app].
  change 0xff000000 with (N.shiftl 255 24). change 0x00ff0000 with (N.shiftl 255 16).
  change 0x0000ff00 with (N.shiftl 255 8). change 0x000000ff with (N.shiftl 255 0).
  rewrite !mask_byte. 
  change (2^24) with 16777216. change (2^16) with 65536.
  change (2 ^ 8) with 256. change (2^0) with 1.
  digits. reflexivity.
Qed.

Lemma to64_digits : forall v, v < 2 ^ 64 -> to64 v = be_digits 8 v.
Proof.
  intros v Hv. unfold to64. cbn [be_digits app].
  change 0xff00000000000000 with (N.shiftl 255 56).
  change 0x00ff000000000000 with (N.shiftl 255 48).
  change 0x0000ff0000000000 with (N.shiftl 255 40).
  change 0x000000ff00000000 with (N.shiftl 255 32).
  change 0x00000000ff000000 with (N.shiftl 255 24).
  change 0x0000000000ff0000 with (N.shiftl 255 16).
  change 0x000000000000ff00 with (N.shiftl 255 8).
  change 0x00000000000000ff with (N.shiftl 255 0).
  rewrite !mask_byte.
  change (2^56) with 72057594037927936. change (2^48) with 281474976710656.
  change (2^40) with 1099511627776. change (2^32) with 4294967296.
  change (2^24) with 16777216. change (2^16) with 65536.
  change (2 ^ 8) with 256. change (2^0) with 1.
  digits. reflexivity.
Qed.

Ltac bytes_inv :=
  repeat match goal with
  | H : Forall is_byte (_ :: _) |- _ => inversion H; clear H; subst
  | H : bytes_ok _ |- _ => unfold bytes_ok in H
  | H : is_byte _ |- _ => unfold is_byte in H
  end.

Lemma from16_value : forall a0 a1 rest, bytes_ok [a0;a1] ->
  from16 (a0 :: a1 :: rest) = Some (be_value [a0;a1]).
Proof.
  intros a0 a1 rest H. bytes_inv. unfold from16, be_value. cbn [fold_left].
  f_equal. rewrite N.shiftl_0_r, N.shiftl_mul_pow2, lor_add by (change (2^8) with 256; lia).
  rewrite trunc_small; change (2^8) with 256; change (2^16) with 65536; lia.
Qed.

Lemma shl_small : forall w a k, a * 2 ^ k < 2 ^ w -> trunc w (N.shiftl a k) = a * 2 ^ k.
Proof. intros. rewrite N.shiftl_mul_pow2. apply trunc_small. assumption. Qed.

Lemma lor_add' : forall n x y z, y < 2 ^ n -> z = x * 2 ^ n -> N.lor z y = z + y.
Proof. intros. subst. apply lor_add. assumption. Qed.

Lemma from32_value : forall a0 a1 a2 a3 rest, bytes_ok [a0;a1;a2;a3] ->
  from32 (a0 :: a1 :: a2 :: a3 :: rest) = Some (be_value [a0;a1;a2;a3]).
Proof.
  intros a0 a1 a2 a3 rest H. bytes_inv. unfold from32, be_value. cbn [fold_left].
  f_equal.
  assert (E24 : 2^24 = 16777216) by reflexivity.
  assert (E32 : 2^32 = 4294967296) by reflexivity.
  assert (E16 : 2^16 = 65536) by reflexivity.
  assert (E8 : 2^8 = 256) by reflexivity.
  assert (E0 : 2^0 = 1) by reflexivity.
  rewrite !shl_small by lia.
  rewrite (lor_add' 24 (a0) (a1*2^16)) by lia.
  rewrite (lor_add' 16 (a0*256+a1) (a2*2^8)) by lia.
  rewrite (lor_add' 8 (a0*65536+a1*256+a2) (a3*2^0)) by lia.
  rewrite trunc_small by lia. lia.
Qed.

Lemma from64_value : forall a0 a1 a2 a3 a4 a5 a6 a7 rest,
  bytes_ok [a0;a1;a2;a3;a4;a5;a6;a7] ->
  from64 (a0 :: a1 :: a2 :: a3 :: a4 :: a5 :: a6 :: a7 :: rest)
    = Some (be_value [a0;a1;a2;a3;a4;a5;a6;a7]).
Proof.
  intros a0 a1 a2 a3 a4 a5 a6 a7 rest H. bytes_inv. unfold from64, be_value. cbn [fold_left].
  f_equal.
  assert (E56 : 2^56 = 72057594037927936) by reflexivity.
  assert (E48 : 2^48 = 281474976710656) by reflexivity.
  assert (E40 : 2^40 = 1099511627776) by reflexivity.
  assert (E32 : 2^32 = 4294967296) by reflexivity.
  assert (E24 : 2^24 = 16777216) by reflexivity.
  assert (E64 : 2^64 = 18446744073709551616) by reflexivity.
  assert (E16 : 2^16 = 65536) by reflexivity.
  assert (E8 : 2^8 = 256) by reflexivity.
  assert (E0 : 2^0 = 1) by reflexivity.
  rewrite !shl_small by lia.
  rewrite (lor_add' 56 (a0) (a1*2^48)) by lia.
  rewrite (lor_add' 48 (a0*256+a1) (a2*2^40)) by lia.
  rewrite (lor_add' 40 (a0*65536+a1*256+a2) (a3*2^32)) by lia.
  rewrite (lor_add' 32 (a0*16777216+a1*65536+a2*256+a3) (a4*2^24)) by lia.
  rewrite (lor_add' 24 (a0*4294967296+a1*16777216+a2*65536+a3*256+a4) (a5*2^16)) by lia.
  rewrite (lor_add' 16 (a0*1099511627776+a1*4294967296+a2*16777216+a3*65536+a4*256+a5) (a6*2^8)) by lia.
  rewrite (lor_add' 8 (a0*281474976710656+a1*1099511627776+a2*4294967296+a3*16777216+a4*65536+a5*256+a6) (a7*2^0)) by lia.
  rewrite trunc_small by lia. lia.
Qed.

Lemma be_value_app : forall l b, be_value (l ++ [b]) = be_value l * 256 + b.
Proof. intros. unfold be_value. rewrite fold_left_app. reflexivity. Qed.

Lemma be_value_digits : forall n v, v < 256 ^ N.of_nat n -> be_value (be_digits n v) = v.
Proof.
  induction n; intros v H.
  - cbn in *. lia.
  - cbn [be_digits]. rewrite be_value_app, IHn.
    + lia.
    + rewrite Nnat.Nat2N.inj_succ, N.pow_succ_r' in H.
      apply N.div_lt_upper_bound; lia.
Qed.

Lemma be_digits_bytes : forall n v, bytes_ok (be_digits n v).
Proof.
  induction n; intros; cbn [be_digits]; unfold bytes_ok in *.
  - constructor.
  - apply Forall_app. split; auto. constructor; [|constructor].
    unfold is_byte. apply N.mod_lt. lia.
Qed.

Lemma be_digits_length : forall n v, length (be_digits n v) = n.
Proof.
  induction n; intros; cbn [be_digits]; auto.
  rewrite app_length, IHn. cbn. lia.
Qed.

Lemma be_digits_value : forall l, bytes_ok l -> be_digits (length l) (be_value l) = l.
Proof.
  induction l as [|x l IH] using rev_ind; intros H; auto.
  apply Forall_app in H as [H1 H2]. inversion H2; subst. unfold is_byte in *.
  rewrite app_length, Nat.add_comm. cbn [length Nat.add be_digits].
  rewrite be_value_app.
  replace ((be_value l * 256 + x) / 256) with (be_value l) by lia.
  replace ((be_value l * 256 + x) mod 256) with x by lia.
  rewrite IH; auto.
Qed.

Lemma be_value_lt : forall l, bytes_ok l -> be_value l < 256 ^ N.of_nat (length l).
Proof.
  induction l as [|x l IH] using rev_ind; intros H.
  - cbn. lia.
  - apply Forall_app in H as [H1 H2]. inversion H2; subst. unfold is_byte in *.
    rewrite be_value_app, app_length, Nat.add_comm. cbn [length Nat.add].
    rewrite Nnat.Nat2N.inj_succ, N.pow_succ_r'. specialize (IH H1). lia.
Qed.

Lemma list2 : forall (A:Type) (l : list A), length l = 2%nat -> exists a b, l = [a;b].
Proof. intros A [|a [|b [|c l]]] H; try discriminate. eauto. Qed.
Lemma list4 : forall (A:Type) (l : list A), length l = 4%nat -> exists a b c d, l = [a;b;c;d].
Proof. intros A [|a [|b [|c [|d [|e l]]]]] H; try discriminate. eauto 6. Qed.
Lemma list8 : forall (A:Type) (l : list A), length l = 8%nat ->
  exists a b c d e f g h, l = [a;b;c;d;e;f;g;h].
Proof.
  intros A [|a [|b [|c [|d [|e [|f [|g [|h [|i l]]]]]]]]] H; try discriminate.
  do 8 eexists. reflexivity.
Qed.

(** Reading back digits. *)
Lemma from16_value_l : forall l rest, length l = 2%nat -> bytes_ok l ->
  from16 (l ++ rest) = Some (be_value l).
Proof.
  intros l rest HL HB. apply list2 in HL as (a & b & ->). apply from16_value; auto.
Qed.
Lemma from32_value_l : forall l rest, length l = 4%nat -> bytes_ok l ->
  from32 (l ++ rest) = Some (be_value l).
Proof.
  intros l rest HL HB. apply list4 in HL as (a & b & c & d & ->). apply from32_value; auto.
Qed.
Lemma from64_value_l : forall l rest, length l = 8%nat -> bytes_ok l ->
  from64 (l ++ rest) = Some (be_value l).
Proof.
  intros l rest HL HB. apply list8 in HL as (a & b & c & d & e & f & g & h & ->).
  apply from64_value; auto.
Qed.

Lemma rt16 : forall v rest, v < 2 ^ 16 -> from16 (to16 v ++ rest) = Some v.
Proof.
  intros. rewrite to16_digits by assumption.
  rewrite from16_value_l by (try apply be_digits_length; apply be_digits_bytes).
  rewrite be_value_digits; auto.
Qed.
Lemma rt32 : forall v rest, v < 2 ^ 32 -> from32 (to32 v ++ rest) = Some v.
Proof.
  intros. rewrite to32_digits by assumption.
  rewrite from32_value_l by (try apply be_digits_length; apply be_digits_bytes).
  rewrite be_value_digits; auto.
Qed.
Lemma rt64 : forall v rest, v < 2 ^ 64 -> from64 (to64 v ++ rest) = Some v.
Proof.
  intros. rewrite to64_digits by assumption.
  rewrite from64_value_l by (try apply be_digits_length; apply be_digits_bytes).
  rewrite be_value_digits; auto.
Qed.

Lemma to_base_lt : forall w z, to_base w z < 2 ^ w.
Proof.
  intros. unfold to_base.
  assert (0 < 2 ^ Z.of_N w)%Z by (apply Z.pow_pos_nonneg; lia).
  pose proof (Z.mod_pos_bound z (2 ^ Z.of_N w) H).
  apply N2Z.inj_lt. rewrite Z2N.id by lia. rewrite N2Z.inj_pow. lia.
Qed.

Lemma of_to_base : forall w z, 0 < w ->
  (- 2 ^ (Z.of_N w - 1) <= z < 2 ^ (Z.of_N w - 1))%Z -> of_base w (to_base w z) = z.
Proof.
  intros w z Hw Hz. unfold of_base, to_base.
  assert (E : (2 ^ Z.of_N w = 2 * 2 ^ (Z.of_N w - 1))%Z).
  { rewrite <- Z.pow_succ_r by lia. f_equal. lia. }
  assert (P : (0 < 2 ^ (Z.of_N w - 1))%Z) by (apply Z.pow_pos_nonneg; lia).
  set (h := (2 ^ (Z.of_N w - 1))%Z) in *. rewrite E.
  assert (Eh : Z.of_N (2 ^ (w - 1)) = h).
  { unfold h. rewrite N2Z.inj_pow, N2Z.inj_sub by lia. reflexivity. }
  destruct (Z.lt_ge_cases z 0) as [Hn|Hn].
  - replace (z mod (2*h))%Z with (z + 2*h)%Z.
    2:{ apply Z.mod_unique with (q := (-1)%Z); lia. }
    destruct (N.ltb_spec (Z.to_N (z+2*h)) (2^(w-1))) as [L|L].
    + apply N2Z.inj_lt in L. rewrite Z2N.id in L by lia. lia.
    + rewrite Z2N.id by lia. lia.
  - rewrite Z.mod_small by lia.
    destruct (N.ltb_spec (Z.to_N z) (2^(w-1))) as [L|L].
    + rewrite Z2N.id by lia. lia.
    + apply N2Z.inj_le in L. rewrite Z2N.id in L by lia. lia.
Qed.

Lemma rt_i16 : forall z rest, (-32768 <= z < 32768)%Z -> read_i16 (set_i16 z ++ rest) = Some z.
Proof.
  intros. unfold read_i16, set_i16. rewrite rt16 by apply to_base_lt. cbn [option_map].
  rewrite of_to_base by (cbn; lia). reflexivity.
Qed.
Lemma rt_i32 : forall z rest, (-2^31 <= z < 2^31)%Z -> read_i32 (set_i32 z ++ rest) = Some z.
Proof.
  intros. unfold read_i32, set_i32. rewrite rt32 by apply to_base_lt. cbn [option_map].
  rewrite of_to_base by (cbn in *; lia). reflexivity.
Qed.
Lemma rt_i64 : forall z rest, (-2^63 <= z < 2^63)%Z -> read_i64 (set_i64 z ++ rest) = Some z.
Proof.
  intros. unfold read_i64, set_i64. rewrite rt64 by apply to_base_lt. cbn [option_map].
  rewrite of_to_base by (cbn in *; lia). reflexivity.
Qed.

Lemma of_base_twos : forall w v, 0 < w -> of_base w v = twos (Z.of_N w) (Z.of_N v).
Proof.
  intros w v Hw. unfold of_base, twos.
  assert (E : Z.of_N (2 ^ (w - 1)) = (2 ^ (Z.of_N w - 1))%Z).
  { rewrite N2Z.inj_pow, N2Z.inj_sub by lia. reflexivity. }
  destruct (N.ltb_spec v (2^(w-1))); destruct (Z.ltb_spec (Z.of_N v) (2 ^ (Z.of_N w - 1))); lia.
Qed.

Lemma load_store : forall l, bytes_ok l ->
  (forall v, length l = 2%nat -> from16 l = Some v -> to16 v = l) /\
  (forall v, length l = 4%nat -> from32 l = Some v -> to32 v = l) /\
  (forall v, length l = 8%nat -> from64 l = Some v -> to64 v = l).
Proof.
  intros l HB. pose proof (be_value_lt l HB) as HV.
  repeat split; intros v HL HF; rewrite HL in HV; rewrite <- (app_nil_r l) in HF;
    first [ rewrite from16_value_l in HF by assumption
          | rewrite from32_value_l in HF by assumption
          | rewrite from64_value_l in HF by assumption ]; injection HF as <-;
    first [ rewrite to16_digits by exact HV | rewrite to32_digits by exact HV
          | rewrite to64_digits by exact HV ];
    rewrite <- HL; apply be_digits_value; assumption.
Qed.

Lemma signed_value : forall l rest, bytes_ok l ->
  (length l = 2%nat -> read_i16 (l ++ rest) = Some (twos 16 (Z.of_N (be_value l)))) /\
  (length l = 4%nat -> read_i32 (l ++ rest) = Some (twos 32 (Z.of_N (be_value l)))) /\
  (length l = 8%nat -> read_i64 (l ++ rest) = Some (twos 64 (Z.of_N (be_value l)))).
Proof.
  intros l rest HB. repeat split; intros HL; unfold read_i16, read_i32, read_i64.
  - rewrite from16_value_l by assumption. cbn [option_map]. f_equal. apply (of_base_twos 16). lia.
  - rewrite from32_value_l by assumption. cbn [option_map]. f_equal. apply (of_base_twos 32). lia.
  - rewrite from64_value_l by assumption. cbn [option_map]. f_equal. apply (of_base_twos 64). lia.
Qed.
