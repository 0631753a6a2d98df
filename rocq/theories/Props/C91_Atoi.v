(** C91: text to integers. *)
From Coq Require Import String List NArith ZArith Bool.
From Verif Require Import Model.Base Model.HttpCodec Spec.EnvironmentSpec Proofs.AtoiProofs.
Import ListNotations.
Local Open Scope N_scope.

(** [atoi] with any integer type, on a text [v] anywhere in memory: the number
    the text begins with, 0 if it begins with none, as long as that is less than
    the type's largest power of two and one character behind the text can be
    read (two if the text is empty and the first is a minus sign). *)
Theorem C91_value : forall w v p after f, readable after -> (length v <= f)%nat -> (Z.of_N (magnitude v) < 2 ^ (w - 1))%Z ->
  atoi f w (p ++ v ++ after) (length p) (length p + length v) = Done (leading_int v).
Proof. exact atoi_value. Qed.
Print Assumptions C91_value.

(** If something other than a digit follows the digits within the text, then
    what is behind the text does not matter, not even whether there is
    anything. *)
Theorem C91_inside : forall w sign d c rest p after f, (sign = [] \/ sign = [45]) -> digits_prefix d = d -> (c < 48 \/ 57 < c) ->
  (sign = [] -> d = [] -> c <> 45) ->
  (length (sign ++ d ++ c :: rest) <= f)%nat -> (Z.of_N (digits_value d) < 2 ^ (w - 1))%Z ->
  atoi f w (p ++ (sign ++ d ++ c :: rest) ++ after) (length p) (length p + length (sign ++ d ++ c :: rest)) =
  Done (match sign with [] => Z.of_N (digits_value d) | _ => - Z.of_N (digits_value d) end)%Z.
Proof. exact atoi_inside. Qed.
Print Assumptions C91_inside.

(** Larger numbers have no meaning. *)
Theorem C91_overflow : forall w v p after f, (1 <= w)%Z -> (length v <= f)%nat -> (2 ^ (w - 1) <= Z.of_N (magnitude v))%Z ->
  atoi f w (p ++ v ++ after) (length p) (length p + length v) = Undef.
Proof. exact atoi_too_large. Qed.
Print Assumptions C91_overflow.

(** The documentation says that the text needs no terminator and that
    conversion ends when [end] is reached.  But [*start] is read before
    [start<end] is tested: a number at the end of memory, whatever it is, makes
    the read behind it. *)
Theorem C91_end_refuted : forall w sign d p f, (sign = [] \/ sign = [45]) -> digits_prefix d = d -> (length (sign ++ d) <= f)%nat ->
  atoi f w (p ++ sign ++ d) (length p) (length p + length (sign ++ d)) = Undef.
Proof. exact atoi_outside. Qed.
Print Assumptions C91_end_refuted.

(** The least numbers of [int] and [int64_t], though they are values of the
    type, have no meaning either: the digits are summed up before the sign is
    applied. *)
Theorem C91_least_refuted : forall p after f, (20 <= f)%nat ->
  leading_int (lit "-2147483648") = (- 2 ^ (32 - 1))%Z /\ leading_int (lit "-9223372036854775808") = (- 2 ^ (64 - 1))%Z /\
  atoi f 32 (p ++ lit "-2147483648" ++ after) (length p) (length p + length (lit "-2147483648")) = Undef /\
  atoi f 64 (p ++ lit "-9223372036854775808" ++ after) (length p) (length p + length (lit "-9223372036854775808")) = Undef.
Proof. exact atoi_least. Qed.
Print Assumptions C91_least_refuted.

Example C91_example :
  readable (lit " ") /\ magnitude (lit "-123456789012x7") = 123456789012 /\ leading_int (lit "-123456789012x7") = (-123456789012)%Z /\
  atoi 40 64 (lit "id=" ++ lit "-123456789012x7" ++ lit " ") 3 18 = Done (-123456789012)%Z /\
  atoi 40 32 (lit "id=" ++ lit "-123456789012x7" ++ lit " ") 3 18 = Undef /\
  atoi 40 32 (lit "12;") 0 3 = Done 12%Z /\ atoi 40 32 (lit "12") 0 2 = Undef.
Proof. repeat split; vm_compute; congruence. Qed.
