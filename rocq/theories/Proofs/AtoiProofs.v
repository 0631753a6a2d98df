(** [Http::atoi] for every integer type. *)
From Coq Require Import String List NArith ZArith Bool Arith Lia ZifyBool ZifyNat ZifyN.
From Verif Require Import Model.Base Model.HttpCodec Spec.EnvironmentSpec Proofs.EnvironmentProofs.
From Verif Require Proofs.ProtocolProofs.
Import ListNotations.
Local Open Scope N_scope.

Notation value l acc := (fold_left (fun a d => 10 * a + (d - 48)) l acc).

(** The digits, up to the first character that is none or up to the end. *)
Lemma loop_value : forall w v p after f acc, (after <> [] \/ digits_prefix v <> v) -> (length v <= f)%nat ->
  (Z.of_N (value (digits_prefix v) acc) < 2 ^ (w - 1))%Z ->
  atoi_loop f w (p ++ v ++ after) (length p) (length p + length v) (Z.of_N acc) = Done (Z.of_N (value (digits_prefix v) acc)).
Proof.
  induction v as [|x v IH]; intros p after f acc NE LF LT.
  - cbn [digits_prefix fold_left]. destruct NE as [NE|NE]; [|now contradiction NE]. destruct after as [|c after]; [congruence|].
    cbn [app length]. rewrite Nat.add_0_r.
    destruct f; cbn [atoi_loop]; rewrite ProtocolProofs.rd_at by auto; rewrite Nat.ltb_irrefl, andb_false_r; reflexivity.
  - cbn [length app digits_prefix] in *. destruct f as [|f]; [lia|]. cbn [atoi_loop].
    rewrite ProtocolProofs.rd_at by auto.
    replace (length p <? length p + S (length v))%nat with true by (symmetry; apply Nat.ltb_lt; lia).
    rewrite andb_true_r. destruct ((48 <=? x) && (x <=? 57)) eqn:D; [|reflexivity].
    cbn [fold_left] in *. rewrite land_digit by auto.
    pose proof (fold_ge (digits_prefix v) (10 * acc + (x - 48))).
    replace (2 ^ (w - 1) <=? Z.of_N acc * 10 + Z.of_N (x - 48))%Z with false by (symmetry; apply Z.leb_gt; lia).
    replace (Z.of_N acc * 10 + Z.of_N (x - 48))%Z with (Z.of_N (10 * acc + (x - 48))) by lia.
    assert (NE' : after <> [] \/ digits_prefix v <> v) by (destruct NE as [NE|NE]; [auto|right; congruence]).
    specialize (IH (p ++ [x]) after f (10 * acc + (x - 48)) NE' ltac:(lia) LT).
    rewrite <- app_assoc, app_length in IH. cbn [app length] in IH.
    replace (length p + 1)%nat with (S (length p)) in IH by lia.
    replace (S (length p) + length v)%nat with (length p + S (length v))%nat in IH by lia. exact IH.
Qed.

Lemma loop_overflow : forall w v p after f acc, (length v <= f)%nat -> (Z.of_N acc < 2 ^ (w - 1))%Z ->
  (2 ^ (w - 1) <= Z.of_N (value (digits_prefix v) acc))%Z ->
  atoi_loop f w (p ++ v ++ after) (length p) (length p + length v) (Z.of_N acc) = Undef.
Proof.
  induction v as [|x v IH]; intros p after f acc LF LA LT.
  - cbn in LT. lia.
  - cbn [length app digits_prefix] in *. destruct f as [|f]; [lia|]. cbn [atoi_loop].
    rewrite ProtocolProofs.rd_at by auto.
    replace (length p <? length p + S (length v))%nat with true by (symmetry; apply Nat.ltb_lt; lia).
    rewrite andb_true_r. destruct ((48 <=? x) && (x <=? 57)) eqn:D; [|cbn in LT; lia].
    cbn [fold_left] in *. rewrite land_digit by auto.
    destruct (Z.leb_spec (2 ^ (w - 1)) (Z.of_N acc * 10 + Z.of_N (x - 48))); auto.
    replace (Z.of_N acc * 10 + Z.of_N (x - 48))%Z with (Z.of_N (10 * acc + (x - 48))) in * by lia.
    specialize (IH (p ++ [x]) after f (10 * acc + (x - 48)) ltac:(lia) H LT).
    rewrite <- app_assoc, app_length in IH. cbn [app length] in IH.
    replace (length p + 1)%nat with (S (length p)) in IH by lia.
    replace (S (length p) + length v)%nat with (length p + S (length v))%nat in IH by lia. exact IH.
Qed.

(** Only digits, and nothing behind. *)
Lemma loop_outside : forall w v p f acc, digits_prefix v = v -> (length v <= f)%nat ->
  atoi_loop f w (p ++ v) (length p) (length p + length v) (Z.of_N acc) = Undef.
Proof.
  induction v as [|x v IH]; intros p f acc D LF.
  - assert (X : rd (p ++ []) (length p) = None) by (unfold rd; rewrite app_nil_r; apply nth_error_None; lia).
    destruct f; cbn [atoi_loop]; now rewrite X.
  - cbn [length digits_prefix] in *. destruct f as [|f]; [lia|]. cbn [atoi_loop]. rewrite ProtocolProofs.rd_at by auto.
    replace (length p <? length p + S (length v))%nat with true by (symmetry; apply Nat.ltb_lt; lia).
    rewrite andb_true_r. destruct ((48 <=? x) && (x <=? 57)) eqn:E; [|discriminate]. injection D as D.
    destruct (_ <=? _)%Z; [reflexivity|]. rewrite land_digit by auto.
    replace (Z.of_N acc * 10 + Z.of_N (x - 48))%Z with (Z.of_N (10 * acc + (x - 48))) by lia.
    specialize (IH (p ++ [x]) f (10 * acc + (x - 48)) D ltac:(lia)).
    rewrite <- app_assoc, app_length in IH. cbn [app length] in IH.
    replace (length p + 1)%nat with (S (length p)) in IH by lia.
    replace (S (length p) + length v)%nat with (length p + S (length v))%nat in IH by lia. exact IH.
Qed.

Lemma sign_shift : forall (p v after : list N), p ++ (45 :: v) ++ after = (p ++ [45]) ++ v ++ after /\
  length (p ++ [45]) = S (length p) /\ (S (length p) + length v = length p + length (45%N :: v))%nat.
Proof. intros. split; [rewrite <- app_assoc; reflexivity|]. rewrite app_length. cbn. lia. Qed.

Theorem atoi_value : forall w v p after f, readable after -> (length v <= f)%nat -> (Z.of_N (magnitude v) < 2 ^ (w - 1))%Z ->
  atoi f w (p ++ v ++ after) (length p) (length p + length v) = Done (leading_int v).
Proof.
  intros w v p after f R LF M. unfold atoi.
  assert (NE : after <> []) by (destruct after; [destruct R|discriminate]).
  destruct v as [|x v].
  - cbn [app length]. rewrite Nat.add_0_r. destruct after as [|c after]; [congruence|].
    rewrite ProtocolProofs.rd_at by auto. destruct (N.eqb_spec c 45) as [->|NC].
    + destruct after as [|d after]; [cbn in R; congruence|].
      assert (X : rd (p ++ 45 :: d :: after) (S (length p)) = Some d).
      { replace (p ++ 45 :: d :: after) with ((p ++ [45]) ++ d :: after) by now rewrite <- app_assoc.
        apply ProtocolProofs.rd_at. rewrite app_length. cbn. lia. }
      destruct f; cbn [atoi_loop]; rewrite X;
        replace (S (length p) <? length p)%nat with false by (symmetry; apply Nat.ltb_ge; lia);
        rewrite andb_false_r; reflexivity.
    + destruct f; cbn [atoi_loop]; rewrite ProtocolProofs.rd_at by auto; rewrite Nat.ltb_irrefl, andb_false_r; reflexivity.
  - rewrite leading_cons. rewrite magnitude_cons in *. assert (RD : rd (p ++ (x :: v) ++ after) (length p) = Some x) by (cbn [app]; apply ProtocolProofs.rd_at; auto).
    rewrite RD. destruct (N.eqb_spec x 45) as [->|NX]; change 0%Z with (Z.of_N 0).
    + destruct (sign_shift p v after) as (-> & L1 & L2). rewrite <- L2, <- L1. cbn [length] in LF. rewrite loop_value; auto; lia.
    + rewrite loop_value; auto.
Qed.

(** With a character that is no digit behind the digits, what follows the text
    is not looked at. *)
Theorem atoi_inside : forall w sign d c rest p after f, (sign = [] \/ sign = [45]) -> digits_prefix d = d -> (c < 48 \/ 57 < c) ->
  (sign = [] -> d = [] -> c <> 45) ->
  (length (sign ++ d ++ c :: rest) <= f)%nat -> (Z.of_N (digits_value d) < 2 ^ (w - 1))%Z ->
  atoi f w (p ++ (sign ++ d ++ c :: rest) ++ after) (length p) (length p + length (sign ++ d ++ c :: rest)) =
  Done (match sign with [] => Z.of_N (digits_value d) | _ => - Z.of_N (digits_value d) end)%Z.
Proof.
  intros w sign d c rest p after f SG D C NC LF M.
  assert (PF : digits_prefix (d ++ c :: rest) = d).
  { clear - D C. induction d as [|x d IH]; cbn [app digits_prefix] in *.
    - destruct (_ && _) eqn:E; [lia|reflexivity].
    - destruct (_ && _); [|discriminate]. injection D as D. f_equal. auto. }
  assert (NE : digits_prefix (d ++ c :: rest) <> d ++ c :: rest).
  { rewrite PF. intro E. apply (f_equal (@length N)) in E. rewrite app_length in E. cbn in E. lia. }
  unfold atoi. destruct SG as [->| ->]; cbn [app] in *.
  - assert (X : exists y r, d ++ c :: rest = y :: r /\ (y =? 45) = false).
    { destruct d as [|y d]; cbn; [exists c, rest; split; [reflexivity|]; apply N.eqb_neq; auto|].
      exists y, (d ++ c :: rest). split; [reflexivity|]. cbn in D. destruct (_ && _) eqn:E; [|discriminate]. apply N.eqb_neq. lia. }
    destruct X as (y & r & E & Y). assert (RD : rd (p ++ (d ++ c :: rest) ++ after) (length p) = Some y) by (rewrite E; apply ProtocolProofs.rd_at; auto).
    rewrite RD, Y. change 0%Z with (Z.of_N 0). rewrite loop_value; auto; rewrite PF; [reflexivity|exact M].
  - assert (RD : rd (p ++ 45 :: (d ++ c :: rest) ++ after) (length p) = Some 45) by (apply ProtocolProofs.rd_at; auto).
    rewrite RD. cbn [N.eqb Pos.eqb]. destruct (sign_shift p (d ++ c :: rest) after) as (E & L1 & L2). cbn [app] in E. rewrite E, <- L2, <- L1.
    change 0%Z with (Z.of_N 0). cbn [length] in LF. rewrite loop_value; auto; try lia; rewrite PF; [reflexivity|exact M].
Qed.

Theorem atoi_too_large : forall w v p after f, (1 <= w)%Z -> (length v <= f)%nat -> (2 ^ (w - 1) <= Z.of_N (magnitude v))%Z ->
  atoi f w (p ++ v ++ after) (length p) (length p + length v) = Undef.
Proof.
  intros w v p after f W LF M. assert (W0 : (0 < 2 ^ (w - 1))%Z) by (apply Z.pow_pos_nonneg; lia). unfold atoi.
  destruct v as [|x v]; [cbn in M; lia|].
  assert (RD : rd (p ++ (x :: v) ++ after) (length p) = Some x) by (cbn [app]; apply ProtocolProofs.rd_at; auto).
  rewrite RD. rewrite magnitude_cons in *. destruct (N.eqb_spec x 45) as [->|NX]; change 0%Z with (Z.of_N 0).
  - destruct (sign_shift p v after) as (-> & L1 & L2). rewrite <- L2, <- L1. cbn [length] in LF. rewrite loop_overflow; auto; lia.
  - rewrite loop_overflow; auto.
Qed.

Theorem atoi_outside : forall w sign d p f, (sign = [] \/ sign = [45]) -> digits_prefix d = d -> (length (sign ++ d) <= f)%nat ->
  atoi f w (p ++ sign ++ d) (length p) (length p + length (sign ++ d)) = Undef.
Proof.
  intros w sign d p f SG D LF. unfold atoi. destruct SG as [->| ->]; cbn [app] in *.
  - destruct d as [|y d].
    + assert (X : rd (p ++ []) (length p) = None) by (unfold rd; rewrite app_nil_r; apply nth_error_None; lia). now rewrite X.
    + assert (RD : rd (p ++ y :: d) (length p) = Some y) by (apply ProtocolProofs.rd_at; auto). rewrite RD.
      assert (Y : (y =? 45) = false). { cbn in D. destruct (_ && _) eqn:E; [|discriminate]. apply N.eqb_neq. lia. }
      rewrite Y. change 0%Z with (Z.of_N 0). now rewrite loop_outside.
  - assert (RD : rd (p ++ 45 :: d) (length p) = Some 45) by (apply ProtocolProofs.rd_at; auto). rewrite RD. cbn [N.eqb Pos.eqb].
    replace (p ++ 45 :: d) with ((p ++ [45]) ++ d) by (rewrite <- app_assoc; reflexivity).
    assert (L1 : S (length p) = length (p ++ [45])) by (rewrite app_length; cbn; lia).
    replace (length p + length (45%N :: d))%nat with (length (p ++ [45%N]) + length d)%nat by (rewrite <- L1; cbn; lia). rewrite L1.
    change 0%Z with (Z.of_N 0). cbn [length] in LF. rewrite loop_outside; auto; lia.
Qed.

Theorem atoi_least : forall p after f, (20 <= f)%nat ->
  leading_int (lit "-2147483648") = (- 2 ^ (32 - 1))%Z /\ leading_int (lit "-9223372036854775808") = (- 2 ^ (64 - 1))%Z /\
  atoi f 32 (p ++ lit "-2147483648" ++ after) (length p) (length p + length (lit "-2147483648")) = Undef /\
  atoi f 64 (p ++ lit "-9223372036854775808" ++ after) (length p) (length p + length (lit "-9223372036854775808")) = Undef.
Proof.
  intros p after f LF. split; [reflexivity|]. split; [reflexivity|].
  split; (apply atoi_too_large; [lia|cbn; lia|vm_compute; congruence]).
Qed.
