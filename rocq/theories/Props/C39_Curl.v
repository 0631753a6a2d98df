(** C39, C40: what an HTTP client request sends and receives. *)
From Coq Require Import String List NArith ZArith Bool Arith.
From Verif Require Import Model.Base Model.WebMaps Model.Streams Model.Chunks Model.Curl
  Spec.StreamSpec Spec.ChunkSpec Spec.CurlSpec Proofs.CurlProofs.
Import ListNotations.

(** C39.  Narrow: whatever was written and whatever buffers libcurl offers, it
    is handed the encoded text in order, and its length was announced. *)
Theorem C39_narrow : forall fuel os w, char_chunks fuel os = Done w ->
  exists body w', chunk_take w = Val (body, w') /\ prepare body = announced (ctext E_NONE os) /\
    forall offers, Forall (fun n => n < 2 ^ 32)%N offers ->
      exists left, reads offers (body, 0%N) = Done (hand_out (ctext E_NONE os) offers, left).
Proof. exact upload_narrow. Qed.
Print Assumptions C39_narrow.

(** Wide: the same for its UTF-8. *)
Theorem C39_wide : forall strict fuel os, Forall cop_scalar os -> size_of os + chunkCap + 2 <= fuel ->
  exists w w', wide_chunks strict fuel os = Done w /\ emptyBuffer_wchunk strict fuel w = Val (true, w') /\
    prepare (w_dev w') = announced (utf8 (ctext E_NONE os)) /\
    forall offers, Forall (fun n => n < 2 ^ 32)%N offers ->
      exists left, reads offers (w_dev w', 0%N) = Done (hand_out (utf8 (ctext E_NONE os)) offers, left).
Proof. exact upload_wide. Qed.
Print Assumptions C39_wide.

(** Each byte once: together the pieces are the first bytes of the body. *)
Theorem C39_once : forall offers body, concat (hand_out body offers) = firstn (N.to_nat (fold_right N.add 0%N offers)) body.
Proof. exact hand_out_all. Qed.
Print Assumptions C39_once.

(** Afterwards a narrow request cannot be destroyed: when the body has been
    read its destructor touches a chunk that is gone (unless the body ended
    exactly with a chunk). *)
Theorem C39_destroyed_refuted : forall fuel os w body w' offers outs left, char_chunks fuel os = Done w -> chunk_take w = Val (body, w') ->
  length (ctext E_NONE os) mod chunkCap <> 0 -> Forall (fun n => n < 2 ^ 32)%N offers ->
  reads offers (body, 0%N) = Done (outs, left) -> concat outs = ctext E_NONE os -> narrow_destroy (fst left) = UB.
Proof. exact destroyed. Qed.
Print Assumptions C39_destroyed_refuted.

Example C39_example : exists w body w', char_chunks 10 [CWrite [104; 101; 108; 108; 111]%N] = Done w /\ chunk_take w = Val (body, w') /\
  prepare body = Some 5%N /\
  reads [2; 2; 2]%N (body, 0%N) = Done ([[104; 101]; [108; 108]; [111]]%N, ([], 0%N)).
Proof. do 3 eexists. split; [vm_compute; reflexivity|]. split; [vm_compute; reflexivity|]. split; vm_compute; reflexivity. Qed.
(** Over the end of a chunk. *)
Example C39_example_chunks : exists left, reads [1; 3; 0; 9]%N ([[1; 2]; [3; 4; 5]; []]%N, 0%N) = Done ([[1]; [2; 3; 4]; []; [5]]%N, left).
Proof. eexists; vm_compute; reflexivity. Qed.

(** C40.  However the body is cut into callbacks and whatever headers come, as
    long as a Content-Length is a number below 2^31 and does not come after
    data: what was received is the body, and under each name there is the
    value of the first line with that name. *)
Theorem C40_narrow : forall es, Forall length_ok (lines_of es) -> length_first false es = true ->
  exists r, respond narrow_event es resp_init = RGood r /\ r_data r = Val (map Some (body_of es)) /\
    NoDup (map fst (r_headers r)) /\ forall k, lookup k (r_headers r) = lookup k (headers_of (lines_of es)).
Proof. exact narrow_response. Qed.
Print Assumptions C40_narrow.

(** Wide: the same when no character is split between two callbacks. *)
Theorem C40_wide : forall strict es, Forall event_scalar es -> Forall length_ok (lines_of es) -> length_first false es = true ->
  exists r, respond (wide_event strict) (map event_utf8 es) resp_init = RGood r /\ r_data r = Val (map Some (body_of es)) /\
    NoDup (map fst (r_headers r)) /\ forall k, lookup k (r_headers r) = lookup k (headers_of (lines_of es)).
Proof. exact wide_response. Qed.
Print Assumptions C40_wide.

(** A split character always ends the transfer with an error. *)
Theorem C40_wide_refuted : forall strict u c p q es, Forall scalar u -> scalar c -> utf8_1 c = p ++ q -> p <> [] -> q <> [] ->
  exists r, respond (wide_event strict) (RData (utf8 u ++ p) :: es) resp_init = RShort r /\ r_data r = Val (map Some u).
Proof. exact wide_split. Qed.
Print Assumptions C40_wide_refuted.

(** A byte that is not UTF-8 loses the piece it is in without an error. *)
Theorem C40_bad_byte_refuted : exists d r, respond (wide_event true) [RData d] resp_init = RGood r /\ r_data r = Val [] /\ 2 <= length d.
Proof. exact bad_byte. Qed.
Print Assumptions C40_bad_byte_refuted.

(** A Content-Length after data (as a trailer may bring it) discards what was
    received, or makes the next data undefined behaviour. *)
Theorem C40_late_length_refuted : exists es r, Forall length_ok (lines_of es) /\ respond narrow_event es resp_init = RGood r /\
  body_of es <> [] /\ r_data r = Val (repeat None (length (body_of es))).
Proof. exact late_length. Qed.
Print Assumptions C40_late_length_refuted.
Theorem C40_late_length_ub_refuted : exists es, Forall length_ok (lines_of es) /\ respond narrow_event es resp_init = RUndef.
Proof. exact late_length_ub. Qed.
Print Assumptions C40_late_length_ub_refuted.

(** A Content-Length of 2 GiB or more throws an exception through libcurl. *)
Theorem C40_big_length_refuted : forall k v line, header_of line = Some (k, v) -> names_length line = true -> v <> [] ->
  Forall (fun c => 48 <= c <= 57)%N v -> (2 ^ 31 <= number v)%Z -> forall es, respond narrow_event (RHeader line :: es) resp_init = RThrow.
Proof. exact big_length. Qed.
Print Assumptions C40_big_length_refuted.

Definition C40_events : list rev_ :=
  [RHeader (lit "HTTP/1.1 200 OK"); RHeader (lit "Content-Length: 3 "); RHeader (lit "X-A: b: c"); RHeader (lit "X-A: d"); RData [104; 105]%N; RData []; RData [233; 33]%N].
Example C40_example : Forall event_scalar C40_events /\ Forall length_ok (lines_of C40_events) /\ length_first false C40_events = true /\
  exists r, respond narrow_event C40_events resp_init = RGood r /\ r_data r = Val [Some 104; Some 105; Some 233; Some 33]%N /\
    lookup (lit "X-A") (r_headers r) = Some (lit "b: c") /\
  exists r', respond (wide_event true) (map event_utf8 C40_events) resp_init = RGood r' /\ r_data r' = r_data r /\ r_headers r' = r_headers r.
Proof.
  split; [repeat (apply Forall_cons || apply Forall_nil); vm_compute; auto|]. split.
  { repeat (apply Forall_cons || apply Forall_nil); intros H; try (vm_compute in H; discriminate).
    exists (lit "Content-Length"), (lit "3"). split; [vm_compute; reflexivity|]. split; [discriminate|]. split; [|vm_compute; reflexivity].
    constructor; [split; vm_compute; discriminate|constructor]. }
  split; [vm_compute; reflexivity|]. eexists. split; [vm_compute; reflexivity|]. split; [vm_compute; reflexivity|]. split; [vm_compute; reflexivity|].
  eexists. split; [vm_compute; reflexivity|]. split; vm_compute; reflexivity.
Qed.
Example C40_example_split : utf8_1 233 = [195]%N ++ [169]%N /\ scalar 233.
Proof. split; [reflexivity|left; reflexivity]. Qed.
Example C40_example_big : header_of (lit "content-length: 2147483648") = Some (lit "content-length", lit "2147483648") /\
  names_length (lit "content-length: 2147483648") = true /\ number (lit "2147483648") = (2 ^ 31)%Z.
Proof. split; [|split]; vm_compute; reflexivity. Qed.
