(** C05 to C09: output streams. *)
From Coq Require Import String List NArith ZArith Bool.
From Verif Require Import Model.Base Model.WebMaps Model.Protocol Model.HttpCodec Model.Streams
  Spec.WireSpec Spec.EscapeSpec Spec.StreamSpec Proofs.StreamProofs Proofs.EscapeProofs.
Import ListNotations.
Local Open Scope N_scope.

(** C05.  For every history of operations on a [char] stream the records
    carry contents which, with what is still buffered, are the text of the
    history; a final flush leaves nothing buffered.  [char_op_ok] says that
    what is written are bytes and that no [istream::read] returned more than
    the 65535 bytes asked for. *)
Theorem C05_narrow_stream_exact : forall type id os,
  type < 256 -> id < 65536 -> Forall char_op_ok os ->
  exists w contents,
    char_ops type id os = Done w /\
    Forall2 (carries type id) (w_dev w) contents /\
    concat contents ++ w_pend w = text_of (fun s => s) E_NONE os /\
    (forall pre, os = pre ++ [OpFlush] -> w_pend w = []).
Proof. exact char_stream. Qed.
Print Assumptions C05_narrow_stream_exact.

Example C05_narrow_stream_ex :
  let os := [OpWrite (lit "a<b"); OpEnc E_HTML; OpWrite (lit "c<d"); OpPut 60; OpDump [1; 2; 3];
             OpDumpStream [[7]; []; [9]]; OpFlush] in
  Forall char_op_ok os /\
  text_of (fun s => s) E_NONE os = lit "a<bc&lt;d<" ++ [1; 2; 3; 7].
Proof. split; [repeat (constructor || split); discriminate|reflexivity]. Qed.

(** C06.  Records are well formed on both kinds of stream; on the wide stream
    for any character values at all, convertible or not. *)
Theorem C06_narrow_records_well_formed : forall type id os,
  type < 256 -> id < 65536 -> Forall char_op_ok os ->
  exists w, char_ops type id os = Done w /\
    forall r, In r (w_dev w) -> exists c, carries type id r c.
Proof. exact char_records_wf. Qed.
Print Assumptions C06_narrow_records_well_formed.

Theorem C06_wide_records_well_formed : forall strict type id os,
  type < 256 -> id < 65536 -> Forall any_op_ok os ->
  exists w, wide_ops strict type id os = Done w /\
    forall r, In r (w_dev w) -> exists c, carries type id r c.
Proof. exact wide_records_wf. Qed.
Print Assumptions C06_wide_records_well_formed.

(** A concrete record: "é" as type 6 on request 259. *)
Example C06_records_ex :
  let r := stream_record 6 259 (getRecordSize 2) [195; 169] in
  r = known [1; 6; 1; 3; 0; 2; 6] ++ [None] ++ known [195; 169] ++ repeat None 6 /\
  exists bytes, may_be r bytes /\ is_record 6 259 [195; 169] bytes.
Proof.
  split; [reflexivity|].
  exists [1; 6; 1; 3; 0; 2; 6; 0; 195; 169; 1; 2; 3; 4; 5; 6]. split.
  - repeat constructor.
  - split; [discriminate|]. exists [1; 2; 3; 4; 5; 6], 0. split; [discriminate|reflexivity].
Qed.

(** C07.  Over code points the wide stream emits the UTF-8 of the text. *)
Theorem C07_wide_stream_exact : forall strict type id os,
  type < 256 -> id < 65536 -> Forall wide_op_ok os ->
  exists w contents,
    wide_ops strict type id os = Done w /\
    Forall2 (carries type id) (w_dev w) contents /\
    concat contents ++ utf8 (w_pend w) = text_of utf8 E_NONE os /\
    (forall pre, os = pre ++ [OpFlush] -> w_pend w = []).
Proof. exact wide_stream. Qed.
Print Assumptions C07_wide_stream_exact.

Theorem C07_utf8_recoverable : forall s, Forall scalar s -> utf8_decode (utf8 s) = Some s.
Proof. exact utf8_round_trip. Qed.
Print Assumptions C07_utf8_recoverable.

(** Whatever was written before, a flush either sends exactly the buffered
    characters as one record, or, if one of them cannot be converted, sends
    nothing and discards only them. *)
Theorem C07_wide_flush_exact : forall strict type id os,
  type < 256 -> id < 65536 -> Forall any_op_ok os ->
  exists w w', wide_ops strict type id os = Done w /\
    wide_ops strict type id (os ++ [OpFlush]) = Done w' /\ w_pend w' = [] /\
    if existsb (refused strict) (w_pend w) then w_dev w' = w_dev w
    else exists rs, w_dev w' = w_dev w ++ rs /\
         match w_pend w with
         | [] => rs = []
         | p => exists r, rs = [r] /\ carries type id r (utf8 p)
         end.
Proof. exact wide_flush. Qed.
Print Assumptions C07_wide_flush_exact.

(** One, two, three and four byte forms. *)
Example C07_utf8_ex :
  Forall scalar [65; 233; 8364; 128512] /\
  utf8 [65; 233; 8364; 128512] = [65; 195; 169; 226; 130; 172; 240; 159; 152; 128] /\
  existsb (refused true) [65; 0xd800] = true.
Proof.
  split; [|split; reflexivity].
  repeat apply Forall_cons; try apply Forall_nil; unfold scalar;
  first [left; reflexivity | right; split; [reflexivity|discriminate]].
Qed.

(** C08.  After any history, a block write under HTML encoding adds a text
    from which the original is recovered and which has no raw markup. *)
Theorem C08_html_narrow : forall type id pre s,
  type < 256 -> id < 65536 -> Forall char_op_ok pre -> bytes_ok s ->
  exists w contents e,
    char_ops type id (pre ++ [OpEnc E_HTML; OpWrite s; OpFlush]) = Done w /\
    Forall2 (carries type id) (w_dev w) contents /\
    concat contents = text_of (fun s => s) E_NONE pre ++ e /\
    e = flat_map html_escape1 s /\ html_unescape e = s /\
    (forall c, In c e -> ~ In c [60; 62; 34; 39]).
Proof. exact html_char. Qed.
Print Assumptions C08_html_narrow.

Theorem C08_html_wide : forall strict type id pre s,
  type < 256 -> id < 65536 -> Forall wide_op_ok pre -> Forall scalar s ->
  exists w contents e,
    wide_ops strict type id (pre ++ [OpEnc E_HTML; OpWrite s; OpFlush]) = Done w /\
    Forall2 (carries type id) (w_dev w) contents /\
    concat contents = text_of utf8 E_NONE pre ++ utf8 e /\
    e = flat_map html_escape1 s /\ html_unescape e = s /\
    (forall c, In c e -> ~ In c [60; 62; 34; 39]).
Proof. exact html_wide. Qed.
Print Assumptions C08_html_wide.

(** Single character puts are not encoded. *)
Theorem C08_puts_bypass_encoding : forall type id pre e c,
  type < 256 -> id < 65536 -> Forall char_op_ok pre -> is_byte c ->
  exists w contents,
    char_ops type id (pre ++ [OpEnc e; OpPut c; OpFlush]) = Done w /\
    Forall2 (carries type id) (w_dev w) contents /\
    concat contents = text_of (fun s => s) E_NONE pre ++ [c].
Proof. exact put_bypasses. Qed.
Print Assumptions C08_puts_bypass_encoding.

Example C08_html_ex :
  Forall char_op_ok [OpPut 60; OpWrite (lit "<p>")] /\ bytes_ok (lit "a<'&amp;") /\
  flat_map html_escape1 (lit "a<'&amp;") = lit "a&lt;&apos;&amp;amp;".
Proof. split; [|split]; [repeat constructor|repeat constructor|reflexivity]. Qed.

(** C08 for URL encoding, and C09: what a write under URL encoding adds holds
    no reserved character but '%', and the library's own percent decoder gives
    the original back. *)
Theorem C09_url_round_trip : forall type id pre s,
  type < 256 -> id < 65536 -> Forall char_op_ok pre -> bytes_ok s ->
  exists w contents e,
    char_ops type id (pre ++ [OpEnc E_URL; OpWrite s; OpFlush]) = Done w /\
    Forall2 (carries type id) (w_dev w) contents /\
    concat contents = text_of (fun s => s) E_NONE pre ++ e /\
    (forall c, In c e -> c = 37 \/ ~ In c url_reserved) /\
    (forall dst, (length e <= length dst)%nat ->
       exists dst', percentEscapedToRealBytes e dst = Val (dst', length s) /\
                    firstn (length s) dst' = s).
Proof. exact url_char. Qed.
Print Assumptions C09_url_round_trip.

Theorem C08_url_narrow : forall type id pre s,
  type < 256 -> id < 65536 -> Forall char_op_ok pre -> bytes_ok s ->
  exists w contents,
    char_ops type id (pre ++ [OpEnc E_URL; OpWrite s; OpFlush]) = Done w /\
    Forall2 (carries type id) (w_dev w) contents /\
    concat contents = text_of (fun s => s) E_NONE pre ++ flat_map url_escape1 s.
Proof. exact (fun type id pre s => char_written type id pre E_URL s). Qed.
Print Assumptions C08_url_narrow.

Example C09_url_ex :
  bytes_ok [97; 32; 47; 37; 200] /\ flat_map url_escape1 [97; 32; 47; 37; 200] = lit "a%20%2F%25" ++ [200] /\
  percentEscapedToRealBytes (lit "a%20%2F%25" ++ [200]) (repeat 0 11)
  = Val ([97; 32; 47; 37; 200; 0; 0; 0; 0; 0; 0], 5%nat).
Proof. split; [repeat constructor|split; reflexivity]. Qed.
