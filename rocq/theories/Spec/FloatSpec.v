(** What a floating point number stands for. *)
From Coq Require Import List NArith ZArith QArith Qabs Bool Floats.SpecFloat.
Import ListNotations.
Open Scope Z_scope.

(** The number is the fraction [num]/[den]. *)
Definition stands_for (x : spec_float) (num : Z) (den : positive) : Prop :=
  match x with
  | S754_zero _ => num = 0
  | S754_finite s m e =>
      let n := if s then Zneg m else Zpos m in
      if 0 <=? e then n * 2 ^ e * Zpos den = num else n * Zpos den = num * 2 ^ (- e)
  | _ => False
  end.

(** The number has 24 significant bits and no number of 24 bits and the same
    magnitude is closer to the fraction [num]/[den]: the difference is at most
    half of the last bit. *)
Definition nearest (x : spec_float) (num : Z) (den : positive) : Prop :=
  match x with
  | S754_zero _ => num = 0
  | S754_finite s m e =>
      let n := if s then Zneg m else Zpos m in
      2 ^ 23 <= Zpos m < 2 ^ 24 /\
      if 0 <=? e then 2 * Z.abs (n * 2 ^ e * Zpos den - num) <= 2 ^ e * Zpos den
      else 2 * Z.abs (n * Zpos den - num * 2 ^ (- e)) <= Zpos den
  | _ => False
  end.

(** The number written by a text of digits. *)
Definition decimal (text : list N) : Z := fold_left (fun n c => 10 * n + (Z.of_N c - 48)) text 0.
Definition all_digits (text : list N) : Prop := Forall (fun c => (48 <= c <= 57)%N) text.
(** The text of [n] with [k] digits. *)
Fixpoint digits (k : nat) (n : N) : list N :=
  match k with O => [] | S k => digits k (n / 10)%N ++ [(48 + n mod 10)%N] end.

(** The rational number a float stands for, and that it is at most a little
    more than half of its last bit (in 24 bits, or of the smallest number there
    is) off [v]. *)
Definition rational (x : spec_float) : Q :=
  match x with S754_finite s m e => inject_Z (if s then Zneg m else Zpos m) * 2 ^ e | _ => 0 end%Q.
Definition close (x : spec_float) (v : Q) : Prop :=
  match x with S754_zero _ | S754_finite _ _ _ => True | _ => False end /\
  (Qabs (rational x - v) <= (2 ^ (-24) + 2 ^ (-40)) * Qabs v \/ Qabs (rational x - v) <= 2 ^ (-149))%Q.
(** The number written by the digits [a], a point and the digits [b]. *)
Definition fraction (a b : list N) : Q := (inject_Z (decimal (a ++ b)) / 10 ^ Z.of_nat (length b))%Q.
