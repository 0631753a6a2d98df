(** C10: percent decoding. *)
From Coq Require Import String List NArith ZArith.
From Verif Require Import Model.Base Model.HttpCodec Spec.EscapeSpec Proofs.PercentProofs.
Import ListNotations.
Local Open Scope N_scope.

(** For every byte range and every destination of at least its size the call
    is defined, produces the decoding, which is no longer than the input, and
    leaves everything beyond the input's length alone. *)
Theorem C10_percent_decoding_total : forall src dst,
  bytes_ok src -> (length src <= length dst)%nat ->
  exists dst', percentEscapedToRealBytes src dst = Val (dst', length (percent_decode src))
    /\ firstn (length (percent_decode src)) dst' = percent_decode src
    /\ (length (percent_decode src) <= length src)%nat
    /\ skipn (length src) dst' = skipn (length src) dst
    /\ length dst' = length dst.
Proof. exact percent_total_frame. Qed.
Print Assumptions C10_percent_decoding_total.

(** "a+b%4" with a truncated escape, "%zZ" with no hexadecimal digit. *)
Example C10_percent_decoding_ex :
  bytes_ok (lit "a+%7e%zZ%4") /\
  percentEscapedToRealBytes (lit "a+%7e%zZ%4") (repeat 9 11)
  = Val ([97; 32; 126; 0; 64; 9; 9; 9; 9; 9; 9], 4%nat).
Proof. split; [repeat constructor | reflexivity]. Qed.
