(** C02, C03: FastCGI name-value pairs. *)
From Coq Require Import List NArith ZArith.
From Verif Require Import Model.Base Model.Protocol Spec.EndianSpec Spec.WireSpec
  Proofs.ProtocolProofs.
Import ListNotations.
Local Open Scope N_scope.

(** C02.  Whatever precedes and follows it in memory, a completely contained
    pair is accepted and the returned ranges are its name and its value. *)
Theorem C02_pair_decodes : forall pre name value enc rest dataEnd,
  pair_encoding name value enc ->
  len pre + len enc <= dataEnd ->
  exists a b c,
    processParamHeader (pre ++ enc ++ rest) (len pre) dataEnd = Val (Some (a, b, c)) /\
    slice (pre ++ enc ++ rest) (N.to_nat a) (N.to_nat b) = name /\
    slice (pre ++ enc ++ rest) (N.to_nat b) (N.to_nat c) = value /\
    c = len pre + len enc /\ a <= b <= c.
Proof. exact param_complete. Qed.
Print Assumptions C02_pair_decodes.

(** A pair with a one byte name length and a four byte value length. *)
Example C02_pair_decodes_ex :
  pair_encoding [65; 66] [67] [2; 128; 0; 0; 1; 65; 66; 67] /\
  processParamHeader [9; 2; 128; 0; 0; 1; 65; 66; 67; 7] 1 10 = Val (Some (6, 8, 9)).
Proof.
  split; [|reflexivity].
  exists [2], [128; 0; 0; 1]. split; [apply short_len; discriminate|].
  split; [apply (long_len 1); reflexivity | reflexivity].
Qed.

(** C03.  No byte at or after the end is read (a read outside the object would
    be [UB]; taking [dataEnd = len mem] makes every such read one). *)
Theorem C03_memory_safe : forall mem data dataEnd,
  bytes_ok mem -> dataEnd <= len mem -> processParamHeader mem data dataEnd <> UB.
Proof. exact param_noUB. Qed.
Print Assumptions C03_memory_safe.

(** C03.  Success means the whole pair lies inside the range and its bytes
    are an encoding of the returned name and value. *)
Theorem C03_success_sound : forall mem data dataEnd a b c,
  bytes_ok mem -> dataEnd <= len mem ->
  processParamHeader mem data dataEnd = Val (Some (a, b, c)) ->
  data < a /\ a <= b /\ b <= c /\ c <= dataEnd /\
  pair_encoding (slice mem (N.to_nat a) (N.to_nat b)) (slice mem (N.to_nat b) (N.to_nat c))
    (slice mem (N.to_nat data) (N.to_nat c)).
Proof. exact param_sound. Qed.
Print Assumptions C03_success_sound.

(** C03.  Refusal happens exactly when no pair is completely contained. *)
Theorem C03_refused_iff_incomplete : forall mem data dataEnd,
  bytes_ok mem -> data <= dataEnd -> dataEnd <= len mem ->
  (processParamHeader mem data dataEnd = Val None <->
   forall name value enc rest, pair_encoding name value enc ->
     slice mem (N.to_nat data) (N.to_nat dataEnd) <> enc ++ rest).
Proof. exact param_none_iff. Qed.
Print Assumptions C03_refused_iff_incomplete.

(** C03.  In particular every proper prefix of a pair is refused. *)
Theorem C03_truncated_refused : forall name value p q,
  pair_encoding name value (p ++ q) -> bytes_ok (p ++ q) -> q <> [] ->
  processParamHeader p 0 (len p) = Val None.
Proof. exact param_truncated. Qed.
Print Assumptions C03_truncated_refused.

Example C03_truncated_refused_ex :
  pair_encoding [65; 66] [67] ([2; 1; 65] ++ [66; 67]) /\
  processParamHeader [2; 1; 65] 0 3 = Val None.
Proof.
  split; [|reflexivity].
  exists [2], [1]. repeat split; apply short_len; discriminate.
Qed.

(** The hypotheses of C03 are met by any buffer; a hostile length claims 2^31-1
    bytes and is refused. *)
Example C03_hostile_ex :
  processParamHeader [255; 255; 255; 255; 255; 255; 255; 255; 0] 0 9 = Val None.
Proof. reflexivity. Qed.
