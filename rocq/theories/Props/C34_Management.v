(** C34, C49: management records and undetermined bytes. *)
From Coq Require Import String List NArith ZArith Bool.
From Verif Require Import Model.Base Model.Protocol Model.Streams Model.Management Model.Request Spec.WireSpec
  Proofs.EscapeProofs Proofs.ManagementProofs.
Import ListNotations.
Local Open Scope N_scope.

(** C34, the part that holds.  A management record of a type other than
    GET_VALUES is answered with exactly one UNKNOWN_TYPE record on id 0 whose
    content is the type and seven reserved bytes. *)
Theorem C34_unknown_type : forall fuel data type,
  bytes_ok data -> (8 <= length data)%nat -> nth_error data 1 = Some type -> type <> 9 ->
  exists r, localHandler fuel data = Done [r] /\ (exists bytes, may_be r bytes) /\
    forall bytes, may_be r bytes ->
      exists reserved, length reserved = 7%nat /\ is_record 11 0 (type :: reserved) bytes.
Proof. exact unknown_answered. Qed.
Print Assumptions C34_unknown_type.

(** GET_VALUES: either the record starts with a complete pair and handling it
    never ends, or it does not and it is not answered at all. *)
Theorem C34_get_values_never_ends_refuted : forall data,
  bytes_ok data -> (8 <= length data)%nat -> nth_error data 1 = Some 9 ->
  ((exists name value enc rest, pair_encoding name value enc /\ skipn 8 data = enc ++ rest) /\
   forall fuel, localHandler fuel data = Spin) \/
  ((forall name value enc rest, pair_encoding name value enc -> skipn 8 data <> enc ++ rest) /\
   forall fuel, localHandler fuel data = Done []).
Proof. exact get_values_dichotomy. Qed.
Print Assumptions C34_get_values_never_ends_refuted.

(** Meanwhile the answer to the first name is sent again in every round (so if
    the name is known without bound), and no other. *)
Theorem C34_get_values_flood_refuted : forall data name value enc rest,
  bytes_ok data -> skipn 8 data = enc ++ rest -> (8 <= length data)%nat ->
  pair_encoding name value enc ->
  forall n, get_values_sent n data [] = concat (repeat (value_reply name) n).
Proof. exact get_values_flood. Qed.
Print Assumptions C34_get_values_flood_refuted.

(** What is sent for a name: its value and nothing else for the three names
    known, nothing for any other. *)
Theorem C34_values : forall name,
  (forall value, known_value name value -> exists r, value_reply name = [r] /\
    forall bytes, may_be r bytes -> exists l1 l2 pl reserved pad,
      bytes = [1; 10; 0; 0; l1; l2; pl; reserved; len name; len value] ++ name ++ value ++ pad) /\
  ((forall value, ~ known_value name value) -> value_reply name = []).
Proof. exact value_replies. Qed.
Print Assumptions C34_values.

(** No value reply is a well-formed record: it is two bytes longer than its
    header declares. *)
Theorem C34_reply_length_refuted : forall name value bytes type id content,
  (length name <= 127)%nat -> (length value <= 127)%nat ->
  may_be (managementReply name value) bytes -> ~ is_record type id content bytes.
Proof. exact reply_never_a_record. Qed.
Print Assumptions C34_reply_length_refuted.

(** It is however a whole number of eight byte chunks long, as every record is
    meant to be, and padded by no more than that takes. *)
Theorem C34_reply_aligned : forall name value,
  (length (managementReply name value) mod 8 = 0)%nat /\
  (10 + length name + length value <= length (managementReply name value)
     < 18 + length name + length value)%nat.
Proof. exact reply_aligned. Qed.
Print Assumptions C34_reply_aligned.

Definition gv_record : list N :=
  [1; 9; 0; 0; 0; 16; 0; 0; 14; 0] ++ lit "FCGI_MAX_CONNS".

Example C34_example_get_values :
  localHandler 1000 gv_record = Spin /\ length (get_values_sent 5 gv_record []) = 5%nat /\
  pair_encoding (lit "FCGI_MAX_CONNS") [] (skipn 8 gv_record) /\
  value_reply (lit "FCGI_MAX_CONNS") <> [] /\
  localHandler 1000 [1; 9; 0; 0; 0; 2; 0; 0; 14; 0] = Done [].
Proof.
  repeat split; try reflexivity; try discriminate.
  exists [14], [0]. repeat split; constructor; discriminate.
Qed.

Example C34_example_unknown :
  localHandler 0 [1; 77; 0; 0; 0; 0; 0; 0]
  = Done [map Some [1; 11; 0; 0; 0; 8; 0] ++ [None; Some 77] ++ repeat None 7].
Proof. reflexivity. Qed.

Example C34_example_reply : may_be maxConnsReply
  ([1; 10; 0; 0; 0; 16; 6; 0; 14; 2] ++ lit "FCGI_MAX_CONNS10" ++ repeat 0 6).
Proof. repeat (constructor; [split; [reflexivity|reflexivity || exact I]|]). constructor. Qed.

(** C49.  The bytes of a stream record that nobody wrote are the reserved byte
    of its header and its padding ... *)
Theorem C49_stream : forall type id size content i,
  nth_error (stream_record type id size content) i = Some None <->
  i = 7%nat \/ (8 + length content <= i < 8 + length content
                  + (N.to_nat size - length content - 8))%nat.
Proof. exact stream_record_undetermined_iff. Qed.
Print Assumptions C49_stream.

(** ... in a value reply the same, which is what follows name and value ... *)
Theorem C49_reply : forall name value i,
  nth_error (managementReply name value) i = Some None <->
  i = 7%nat \/ (10 + length name + length value <= i < length (managementReply name value))%nat.
Proof. exact reply_undetermined_iff. Qed.
Print Assumptions C49_reply.

(** ... in an UNKNOWN_TYPE record also the seven reserved bytes of the body ... *)
Theorem C49_unknown : forall type i,
  nth_error (unknown_reply type) i = Some None <-> i = 7%nat \/ (9 <= i < 16)%nat.
Proof. exact unknown_undetermined_iff. Qed.
Print Assumptions C49_unknown.

(** ... and in an END_REQUEST record the three of its body. *)
Theorem C49_end : forall id status i,
  nth_error (end_record id status) i = Some None <-> i = 7%nat \/ (13 <= i < 16)%nat.
Proof. exact end_undetermined_iff. Qed.
Print Assumptions C49_end.

Example C49_example :
  stream_record 6 1 16 (lit "abc")
  = map Some [1; 6; 0; 1; 0; 3; 5] ++ [None] ++ map Some (lit "abc") ++ repeat None 5.
Proof. reflexivity. Qed.
Example C49_ex_end : end_record 1 0 = map Some [1; 3; 0; 1; 0; 8; 0] ++ [None] ++ map Some [0; 0; 0; 0; 0] ++ repeat None 3 /\
  map (fun r => length r) [maxConnsReply; maxReqsReply; mpxsConnsReply] = [32; 32; 32]%nat.
Proof. split; reflexivity. Qed.

(** So that every byte sent is determined is false of every record. *)
Theorem C49_undetermined_refuted :
  (forall type id size content, nth_error (stream_record type id size content) 7 = Some None) /\
  (forall name value, nth_error (managementReply name value) 7 = Some None) /\
  (forall type, nth_error (unknown_reply type) 7 = Some None) /\
  (forall id status, nth_error (end_record id status) 7 = Some None).
Proof. exact undetermined_byte. Qed.
Print Assumptions C49_undetermined_refuted.
