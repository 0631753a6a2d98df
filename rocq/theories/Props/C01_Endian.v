(** C01: big-endian storage. *)
From Coq Require Import List NArith ZArith.
From Verif Require Import Model.Base Model.Endian Spec.EndianSpec Proofs.EndianProofs.
Import ListNotations.
Local Open Scope N_scope.

(** Storing writes the base-256 digits, most significant first. *)
Theorem C01_store_layout : forall v,
  (v < 2 ^ 16 -> to16 v = be_digits 2 v) /\
  (v < 2 ^ 32 -> to32 v = be_digits 4 v) /\
  (v < 2 ^ 64 -> to64 v = be_digits 8 v).
Proof. exact (fun v => conj (to16_digits v) (conj (to32_digits v) (to64_digits v))). Qed.
Print Assumptions C01_store_layout.

Example C01_store_layout_ex : to32 3735928559 = [222; 173; 190; 239].
Proof. reflexivity. Qed.

(** Reading any byte array of the right size (whatever follows it in memory)
    gives the number it spells. *)
Theorem C01_load_value : forall l rest, bytes_ok l ->
  (length l = 2%nat -> from16 (l ++ rest) = Some (be_value l)) /\
  (length l = 4%nat -> from32 (l ++ rest) = Some (be_value l)) /\
  (length l = 8%nat -> from64 (l ++ rest) = Some (be_value l)).
Proof.
  exact (fun l rest H =>
    conj (fun L => from16_value_l l rest L H)
      (conj (fun L => from32_value_l l rest L H)
            (fun L => from64_value_l l rest L H))).
Qed.
Print Assumptions C01_load_value.

Example C01_load_value_ex : from16 [223; 173; 7] = Some 57261.
Proof. reflexivity. Qed.

(** Load after store is the identity, for every unsigned pattern (which
    includes the bit patterns of floats) and every signed value. *)
Theorem C01_round_trip_unsigned : forall v rest,
  (v < 2 ^ 16 -> from16 (to16 v ++ rest) = Some v) /\
  (v < 2 ^ 32 -> from32 (to32 v ++ rest) = Some v) /\
  (v < 2 ^ 64 -> from64 (to64 v ++ rest) = Some v).
Proof. exact (fun v rest => conj (rt16 v rest) (conj (rt32 v rest) (rt64 v rest))). Qed.
Print Assumptions C01_round_trip_unsigned.

Theorem C01_round_trip_signed : forall z rest,
  ((-32768 <= z < 32768)%Z -> read_i16 (set_i16 z ++ rest) = Some z) /\
  ((-2 ^ 31 <= z < 2 ^ 31)%Z -> read_i32 (set_i32 z ++ rest) = Some z) /\
  ((-2 ^ 63 <= z < 2 ^ 63)%Z -> read_i64 (set_i64 z ++ rest) = Some z).
Proof. exact (fun z rest => conj (rt_i16 z rest) (conj (rt_i32 z rest) (rt_i64 z rest))). Qed.
Print Assumptions C01_round_trip_signed.

Example C01_round_trip_signed_ex : read_i32 (set_i32 (-2)) = Some (-2)%Z.
Proof. reflexivity. Qed.

(** Store after load is the identity on byte arrays. *)
Theorem C01_load_store : forall l, bytes_ok l ->
  (forall v, length l = 2%nat -> from16 l = Some v -> to16 v = l) /\
  (forall v, length l = 4%nat -> from32 l = Some v -> to32 v = l) /\
  (forall v, length l = 8%nat -> from64 l = Some v -> to64 v = l).
Proof. exact load_store. Qed.
Print Assumptions C01_load_store.

(** A signed read is the two's complement reading of the number spelled. *)
Theorem C01_signed_value : forall l rest, bytes_ok l ->
  (length l = 2%nat -> read_i16 (l ++ rest) = Some (twos 16 (Z.of_N (be_value l)))) /\
  (length l = 4%nat -> read_i32 (l ++ rest) = Some (twos 32 (Z.of_N (be_value l)))) /\
  (length l = 8%nat -> read_i64 (l ++ rest) = Some (twos 64 (Z.of_N (be_value l)))).
Proof. exact signed_value. Qed.
Print Assumptions C01_signed_value.

Example C01_signed_value_ex : twos 16 (Z.of_N (be_value [255; 254])) = (-2)%Z.
Proof. reflexivity. Qed.
