(** Number formats of locales, as far as the statements about printed addresses
    need them, written independently of the model. *)
From Coq Require Import List NArith.
From Verif Require Import Model.Base Spec.AddressSpec Spec.AddressFormSpec.
Import ListNotations.
Local Open Scope N_scope.

(** A locale that does not group digits: no entry, or the first is 0, negative
    as a [signed char], or CHAR_MAX (C++ 22.4.3.1.2). *)
Definition ungrouped (g : list N) : Prop :=
  match g with [] => True | n :: _ => n = 0 \/ 127 <= n end.

(** The words of an address that have four hexadecimal digits. *)
Definition long_words (a : list N) : nat := length (filter (fun w => 4096 <=? w) (words a)).

(** A character that no address text contains. *)
Definition foreign (c : N) : Prop := c <> 58 /\ c <> 46 /\ forall d, ~ digit 16 c d.

(** Names of locales get this behind them on wide streams. *)
Definition codepage (wide : bool) : list N := if wide then [46; 85; 84; 70; 45; 56] else [].
