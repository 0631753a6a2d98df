(** C38: the chunked buffers of e-mails and uploads. *)
From Coq Require Import List NArith Bool Arith.
From Verif Require Import Model.Base Model.WebMaps Model.Streams Model.Chunks Spec.StreamSpec Spec.ChunkSpec Proofs.ChunkProofs Proofs.ChunkKeepProofs Proofs.ChunkEnds.
Import ListNotations.

(** Narrow text: whenever the writing ends, the body taken out is exactly the
    encoded text in chunks that are full but for the last. *)
Theorem C38_char_content : forall fuel os w, char_chunks fuel os = Done w ->
  exists body w', chunk_take w = Val (body, w') /\ concat body = ctext E_NONE os /\ packed chunkCap body.
Proof. exact char_content. Qed.
Print Assumptions C38_char_content.

(** No write is undefined behaviour. *)
Theorem C38_char_defined : forall fuel os, char_chunks fuel os <> Undef.
Proof. exact char_defined. Qed.
Print Assumptions C38_char_defined.

(** Writing ends when no escape would straddle the end of a chunk, in
    particular for unencoded text. *)
Theorem C38_char_ends : forall os, ~ straddling chunkCap os -> forall fuel, size_of os + 2 <= fuel ->
  exists w, char_chunks fuel os = Done w.
Proof. exact char_ends. Qed.
Print Assumptions C38_char_ends.

Theorem C38_char_terminates : forall fuel os, plain E_NONE os = true -> size_of os + 2 <= fuel ->
  exists w, char_chunks fuel os = Done w.
Proof. exact char_terminates. Qed.
Print Assumptions C38_char_terminates.

(** Whenever one would, the write loops for ever. *)
Theorem C38_char_stuck : forall os, straddling chunkCap os -> forall fuel, char_chunks fuel os = Spin.
Proof. exact char_stuck. Qed.
Print Assumptions C38_char_stuck.

(** So it does not end for all text. *)
Theorem C38_char_terminates_refuted : exists os, ctext E_NONE os <> [] /\ forall fuel, char_chunks fuel os = Spin.
Proof. exact char_spins. Qed.
Print Assumptions C38_char_terminates_refuted.

(** Four letters less than a chunk and a less-than sign, which becomes four
    bytes: that fits.  One more letter and it does not. *)
Example C38_example_ends : exists w, char_chunks (N.to_nat 4200) [CWrite (repeat 97%N (N.to_nat 4092)); CEnc E_HTML; CWrite [60%N]] = Done w.
Proof. eexists. vm_compute. reflexivity. Qed.
Example C38_example_stuck : straddling chunkCap [CWrite (repeat 97%N (N.to_nat 4093)); CEnc E_HTML; CWrite [60%N]].
Proof.
  exists [CWrite (repeat 97%N (N.to_nat 4093)); CEnc E_HTML], [], 60%N, [], []. split; [reflexivity|].
  apply Nat.ltb_lt. vm_compute. reflexivity.
Qed.
Example C38_example_fits : ~ straddling chunkCap [CEnc E_HTML; CWrite [60%N]].
Proof.
  intros (pre & a & c & b & post & H & L).
  destruct pre as [|o1 [|o2 [|o3 pre]]]; cbn [app] in H; try discriminate H.
  - injection H as <- H1 H2. destruct a as [|x [|y a]]; try discriminate H1. injection H1 as <- <-.
    apply Nat.ltb_lt in L. vm_compute in L. discriminate L.
Qed.

(** Destroying the buffer after its body was taken is undefined behaviour. *)
Theorem C38_taken_destroyed_refuted : forall fuel os w, char_chunks fuel os = Done w ->
  exists body w', chunk_take w = Val (body, w') /\ chunk_destroy w' = UB.
Proof. exact taken_then_destroyed. Qed.
Print Assumptions C38_taken_destroyed_refuted.

Definition C38_ops : list cop := [CWrite [72; 105]%N; CEnc E_HTML; CPut 60%N; CFlush; CEnc E_NONE; CWrite (repeat 46%N (N.to_nat 5000))].
Example C38_example_char : plain E_NONE C38_ops = true /\ exists w body w', char_chunks (N.to_nat 5002) C38_ops = Done w /\
  chunk_take w = Val (body, w') /\ map (fun c => N.of_nat (length c)) body = [4096; 907]%N.
Proof. split; [vm_compute; reflexivity|]. do 3 eexists. split; [vm_compute; reflexivity|]. split; [vm_compute; reflexivity|]. vm_compute; reflexivity. Qed.

(** Wide text of characters that UTF-8 can represent: writing always ends,
    and after the flush the chunks hold exactly the text in UTF-8, no
    character is split over two chunks and none but the last has room for four
    more bytes. *)
Theorem C38_wide_content : forall strict fuel os, Forall cop_scalar os -> size_of os + chunkCap + 2 <= fuel ->
  exists w w', wide_chunks strict fuel os = Done w /\ emptyBuffer_wchunk strict fuel w = Val (true, w') /\
    concat (w_dev w') = utf8 (ctext E_NONE os) /\ utf8_packed chunkCap (w_dev w').
Proof. exact wide_ok. Qed.
Print Assumptions C38_wide_content.

(** Whatever the text, characters UTF-8 does not have included: what the body
    holds stays in it, in its place. *)
Theorem C38_wide_kept : forall strict fuel os more w w', wide_chunks strict fuel os = Done w ->
  wide_chunks strict fuel (os ++ more) = Done w' -> exists t, concat (w_dev w') = concat (w_dev w) ++ t.
Proof. exact wide_grows. Qed.
Print Assumptions C38_wide_kept.

(** A good line, then a bad character. *)
Example C38_example_kept : exists w w', wide_chunks true 100 [CWrite [104; 105]%N; CFlush] = Done w /\
  concat (w_dev w) = [104; 105]%N /\
  wide_chunks true 100 ([CWrite [104; 105]%N; CFlush] ++ [CWrite [0xd800]%N; CFlush]) = Done w' /\ concat (w_dev w') = [104; 105]%N.
Proof. do 2 eexists. repeat split; vm_compute; reflexivity. Qed.

(** For other text this fails: what was converted before the bad character
    can be converted again. *)
Theorem C38_wide_content_refuted : exists s w, wide_chunks true (N.to_nat 9000) [CWrite s; CFlush; CFlush] = Done w /\
  exists a, a <> [] /\ concat (w_dev w) = utf8 (a ++ a) /\ exists b, s = a ++ b /\ length b < length a.
Proof. exact wide_repeats. Qed.
Print Assumptions C38_wide_content_refuted.

(** Chunks that cannot be filled: 4095 letters, then a two byte character. *)
Definition C38_wops : list cop := [CWrite (repeat 97%N (N.to_nat 4095)); CPut 233%N; CFlush; CEnc E_HTML; CWrite [60%N]].
Example C38_example_wide : Forall cop_scalar C38_wops /\ exists w w', wide_chunks true (N.to_nat 9000) C38_wops = Done w /\
  emptyBuffer_wchunk true (N.to_nat 9000) w = Val (true, w') /\
  map (fun c => N.of_nat (length c)) (w_dev w') = [4095; 6]%N.
Proof.
  split.
  - assert (A : Forall scalar (repeat 97%N (N.to_nat 4095))) by
      (apply Forall_forall; intros x X; apply repeat_spec in X; subst x; left; reflexivity).
    constructor; [exact A|]. constructor; [left; reflexivity|]. constructor; [exact I|]. constructor; [exact I|].
    constructor; [|constructor]. constructor; [left; reflexivity|constructor].
  - do 2 eexists. split; [vm_compute; reflexivity|]. split; [vm_compute; reflexivity|]. vm_compute; reflexivity.
Qed.
