(** Shared vocabulary of the model: bytes, outcomes, string literals. *)
From Coq Require Import String Ascii List NArith ZArith Bool.
Import ListNotations.

(** A [char] seen as unsigned.  Well-formedness is [is_byte]. *)
Definition byte := N.

(** Auxiliary, no counterpart in the code: a number a byte can hold. *)
Definition is_byte (b : N) : Prop := (b < 256)%N.

(** Auxiliary, no counterpart in the code: the list is one of bytes. *)
Definition bytes_ok (l : list N) : Prop := Forall is_byte l.

(** Outcome of C++ code that may perform an undefined operation (reading or
    writing outside an object, dereferencing null, signed overflow, use of an
    indeterminate value). *)
Inductive outcome (A : Type) : Type :=
| Val (a : A)
| UB.
Arguments Val {A} a.
Arguments UB {A}.

(** Auxiliary, no counterpart in the code: sequencing, where undefined
    behaviour ends everything. *)
Definition obind {A B} (x : outcome A) (f : A -> outcome B) : outcome B :=
  match x with Val a => f a | UB => UB end.

(** Outcome of a loop run with bounded fuel: [Spin] means that the fuel ran
    out before the loop ended. *)
Inductive run (A : Type) : Type :=
| Done (a : A)
| Spin
| Undef.
Arguments Done {A} a.
Arguments Spin {A}.
Arguments Undef {A}.

(** Conversion of a C++ string literal to its bytes (without the final NUL). *)
Fixpoint lit (s : string) : list N :=
  match s with
  | EmptyString => []
  | String a s' => N_of_ascii a :: lit s'
  end.

(** Truncation of an unsigned integer to [w] bits, the effect of a
    [static_cast] to an unsigned type of that width. *)
Definition trunc (w : N) (v : N) : N := (v mod 2 ^ w)%N.

(** A memory read: [None] when the index is outside the object. *)
Definition rd (mem : list N) (i : nat) : option N := nth_error mem i.

(** Sub-range [from, to) of a buffer, as used for [std::copy(p+from, p+to)]. *)
Definition slice (mem : list N) (from to : nat) : list N :=
  firstn (to - from) (skipn from mem).

(** std::equal and operator== of strings. *)
Fixpoint list_eqb (a b : list N) : bool :=
  match a, b with
  | [], [] => true
  | x :: a', y :: b' => N.eqb x y && list_eqb a' b'
  | _, _ => false
  end.
