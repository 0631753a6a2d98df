(** Model of [Http::atof] (src/http.cpp 79-117).

    [double] and [float] are IEEE 754 binary64 and binary32 with rounding to
    nearest even, every operation rounding to its type, as on x86-64 (no
    contraction to fused multiply-add, no extended precision); the arithmetic
    is the standard library's [SpecFloat]. *)
From Coq Require Import List NArith ZArith Bool Floats.SpecFloat.
Import ListNotations.

(** The multiplication and the addition of [double] at http.cpp 79-117. *)
Definition mul64 : spec_float -> spec_float -> spec_float := SFmul 53 1024.
Definition add64 : spec_float -> spec_float -> spec_float := SFadd 53 1024.
(** The conversion of a digit, an [int], to [double]. *)
Definition of_int (n : N) : spec_float := binary_normalize 53 1024 (Z.of_N n) 0 false.
(** The constants [0.1], [10] and [0] of type [double]. *)
Definition tenth : spec_float := S754_finite false 7205759403792794 (-56).
Definition ten : spec_float := of_int 10.
Definition zero : spec_float := S754_zero false.

(** The conversion from [double] to [float] of the [return] statement, 116. *)
Definition to_float (x : spec_float) : spec_float :=
  match x with
  | S754_finite s m e => binary_round 24 128 s m e
  | x => x
  end.

(** http.cpp 97-114: the loop.  Characters are numbers, of [char] or
    [wchar_t]. *)
Fixpoint atof_loop (result multiplier : spec_float) (text : list N) : spec_float :=
  match text with
  | [] => result
  | c :: text =>
      if ((48 <=? c) && (c <=? 57))%N then
        let digit := of_int (N.land c 15) in
        if SFeqb multiplier zero
        then atof_loop (add64 (mul64 result ten) digit) multiplier text
        else atof_loop (add64 result (mul64 digit multiplier)) (mul64 multiplier tenth) text
      else if (c =? 46)%N then atof_loop result tenth text
      else result
  end.

(** http.cpp 83-117.  [text] is the range from [start] to [end]. *)
Definition atof (text : list N) : spec_float :=
  match text with
  | [] => zero
  | c :: rest =>
      if (c =? 45)%N then to_float (SFopp (atof_loop zero zero rest)) else to_float (atof_loop zero zero text)
  end.
