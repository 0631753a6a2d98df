(** What big-endian means: the positional number a byte string spells. *)
From Coq Require Import List NArith ZArith.
Import ListNotations.

(** Base-256 number, most significant byte first. *)
Definition be_value (bs : list N) : N :=
  fold_left (fun acc b => acc * 256 + b)%N bs 0%N.

(** The [n] base-256 digits of [v], most significant first. *)
Fixpoint be_digits (n : nat) (v : N) : list N :=
  match n with
  | O => []
  | S k => be_digits k (v / 256)%N ++ [ (v mod 256)%N ]
  end.

(** The [w]-bit two's complement reading of an unsigned number. *)
Definition twos (w : Z) (v : Z) : Z :=
  (if v <? 2 ^ (w - 1) then v else v - 2 ^ w)%Z.
