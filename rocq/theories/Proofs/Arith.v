(** Arithmetic facts about masks and shifts. *)
From Coq Require Import List NArith ZArith Lia ZifyBool ZifyNat ZifyN.
From Verif Require Import Model.Base.
Import ListNotations.
Local Open Scope N_scope.

Lemma lor_add : forall n x y, y < 2 ^ n -> N.lor (x * 2 ^ n) y = x * 2 ^ n + y.
Proof.
  intros n x y Hy.
  rewrite <- N.lxor_lor, <- N.add_nocarry_lxor; try reflexivity.
  all: apply N.bits_inj; intros k; rewrite N.land_spec, N.bits_0;
    destruct (N.lt_ge_cases k n) as [H|H];
    [ rewrite N.mul_pow2_bits_low by assumption; reflexivity
    | replace (N.testbit y k) with false; [ apply Bool.andb_false_r | ] ].
  all: symmetry; destruct (N.eq_dec y 0) as [->|Hz]; [ apply N.bits_0 | ];
    apply N.bits_above_log2; apply N.log2_lt_pow2 in Hy; lia.
Qed.

Lemma trunc_lt : forall w v, trunc w v < 2 ^ w.
Proof. intros. unfold trunc. apply N.mod_lt. apply N.pow_nonzero. lia. Qed.

Lemma trunc_small : forall w v, v < 2 ^ w -> trunc w v = v.
Proof. intros. unfold trunc. apply N.mod_small. assumption. Qed.

(** Extraction of byte [k] with a shifted mask. *)
Lemma mask_byte : forall v k,
  trunc 8 (N.shiftr (N.land v (N.shiftl 255 k)) k) = (v / 2 ^ k) mod 256.
Proof.
  intros. unfold trunc. rewrite N.shiftr_land.
  rewrite N.shiftr_shiftl_l by lia. rewrite N.sub_diag, N.shiftl_0_r.
  change 255 with (N.ones 8). rewrite N.land_ones.
  rewrite N.shiftr_div_pow2. change (2 ^ 8) with 256.
  apply N.mod_mod. lia.
Qed.
