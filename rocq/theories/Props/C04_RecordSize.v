(** C04: record sizes. *)
From Coq Require Import List NArith ZArith.
From Verif Require Import Model.Base Model.Protocol Proofs.ProtocolProofs.
Import ListNotations.
Local Open Scope N_scope.

(** The record size is the least multiple of 8 that holds the header and the
    content clamped to 65535 bytes; the padding it implies is below 8. *)
Theorem C04_record_size_least_multiple : forall n,
  let body := N.min n 65535 in
  (8 | getRecordSize n) /\ 8 + body <= getRecordSize n /\
  (forall m, (8 | m) -> 8 + body <= m -> getRecordSize n <= m) /\
  getRecordSize n - (8 + body) < 8.
Proof. exact record_size. Qed.
Print Assumptions C04_record_size_least_multiple.

Example C04_record_size_ex :
  getRecordSize 0 = 8 /\ getRecordSize 1 = 16 /\ getRecordSize 65535 = 65544 /\
  getRecordSize 1000000 = 65544.
Proof. repeat split; reflexivity. Qed.
