(** C61: text to floating point numbers. *)
From Coq Require Import List NArith ZArith QArith Bool Floats.SpecFloat.
From Verif Require Import Model.Atof Spec.FloatSpec Proofs.AtofProofs Proofs.AtofError.
Import ListNotations.
Open Scope Z_scope.

(** C61.  A whole number below 2^24 (up to there [float] has them all), with
    or without a minus sign, whatever follows it as long as it is not a digit
    or a point, gives just this number. *)
Theorem C61_integers : forall text rest, text <> [] -> all_digits text ->
  match rest with [] => True | c :: _ => ~ (48 <= c <= 57)%N /\ c <> 46%N end -> decimal text < 2 ^ 24 ->
  stands_for (atof (text ++ rest)) (decimal text) 1 /\ stands_for (atof (45%N :: text ++ rest)) (- decimal text) 1.
Proof. exact atof_integer. Qed.
Print Assumptions C61_integers.

Example C61_integers_example : atof ([49; 50; 48] ++ [32; 49])%N = S754_finite false 15728640 (-17) /\ decimal [49; 50; 48]%N = 120.
Proof. split; reflexivity. Qed.

(** Larger ones, up to 2^126, give a [float] that is at most a little more than
    half of its last bit off. *)
Theorem C61_large : forall a rest, a <> [] -> all_digits a ->
  match rest with [] => True | c :: _ => ~ (48 <= c <= 57)%N /\ c <> 46%N end ->
  (length a <= 1000)%nat -> decimal a < 2 ^ 126 ->
  close (atof (a ++ rest)) (inject_Z (decimal a)) /\ close (atof (45%N :: a ++ rest)) (- inject_Z (decimal a)).
Proof. exact atof_whole. Qed.
Print Assumptions C61_large.

Example C61_large_example : decimal [49; 54; 55; 55; 55; 50; 49; 55]%N = 2 ^ 24 + 1 /\
  atof [49; 54; 55; 55; 55; 50; 49; 55]%N = S754_finite false 8388608 1.
Proof. split; reflexivity. Qed.

(** So does a number with up to 300 digits behind a point, or none. *)
Theorem C61_fraction : forall a b rest, all_digits a -> all_digits b ->
  match rest with [] => True | c :: _ => ~ (48 <= c <= 57)%N /\ c <> 46%N end ->
  (length a <= 1000)%nat -> (length b <= 300)%nat -> decimal a < 2 ^ 126 ->
  close (atof (a ++ 46%N :: b ++ rest)) (fraction a b) /\ close (atof (45%N :: a ++ 46%N :: b ++ rest)) (- fraction a b).
Proof. exact atof_fraction. Qed.
Print Assumptions C61_fraction.

Example C61_fraction_example : Qeq (fraction [51]%N [49; 52]%N) (157 # 50) /\
  atof [51; 46; 49; 52; 32]%N = S754_finite false 13170115 (-22).
Proof. split; reflexivity. Qed.

(** A number with two digits behind the point gives the [float] nearest to
    it, below one hundred. *)
Theorem C61_cents : forall n c, (n < 100)%nat -> (c < 100)%nat ->
  nearest (atof (digits 2 (N.of_nat n) ++ 46%N :: digits 2 (N.of_nat c))) (Z.of_nat (100 * n + c)) 100.
Proof. exact cents. Qed.
Print Assumptions C61_cents.

Example C61_cents_example : digits 2 7 ++ 46%N :: digits 2 30 = [48; 55; 46; 51; 48]%N.
Proof. reflexivity. Qed.

(** With 324 or more digits behind the point the value of the next digit
    underflows to zero, which is taken to mean that there was no point yet:
    "1.000...0" gives 10. *)
Theorem C61_long_refuted : stands_for (atof ([49; 46] ++ repeat 48 324)%N) 10 1.
Proof. exact long_zeros. Qed.
Print Assumptions C61_long_refuted.

(** A second point does not end the number, as the documentation says it
    does: what follows is added.  "1.5.5" gives 2. *)
Theorem C61_points_refuted : stands_for (atof [49; 46; 53; 46; 53]%N) 2 1.
Proof. exact two_points. Qed.
Print Assumptions C61_points_refuted.
