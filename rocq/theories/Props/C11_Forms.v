(** C11: url-encoded forms, queries and cookies. *)
From Coq Require Import String List NArith ZArith.
From Verif Require Import Model.Base Model.HttpCodec Spec.EscapeSpec Spec.WideTextSpec Proofs.UrlProofs Proofs.WideTextProofs.
Import ListNotations.
Local Open Scope N_scope.

(** Exact behaviour on every text and every non-empty separator: the loop ends
    within the length of the text, reads and writes only inside its buffers,
    and inserts exactly the fields [form_fields] describes, in order, whatever
    the fresh buffer contained.  [vts] is the conversion of bytes to the
    string type of the request. *)
Theorem C11_decode_total : forall (vts : list N -> list N -> list N) fuel junk sep src k,
  sep <> [] -> bytes_ok src -> (length src <= length junk)%nat ->
  (length src + 1 <= fuel)%nat -> (length src < k)%nat ->
  decodeUrlEncoded vts fuel junk sep src
  = Done (map (fun f => (vts (fst f) [], vts (snd f) [])) (form_fields k sep src)).
Proof. exact decode_url_fields. Qed.
Print Assumptions C11_decode_total.

(** Round trip of any list of fields, names and values arbitrary byte strings,
    for every separator starting with '&' or ';'. *)
Theorem C11_round_trip : forall (vts : list N -> list N -> list N) fuel junk h sep fs,
  In h [38; 59] -> bytes_ok (h :: sep) ->
  Forall (fun f => bytes_ok (fst f) /\ bytes_ok (snd f)) fs ->
  (length (form_encode (h :: sep) fs) <= length junk)%nat ->
  (length (form_encode (h :: sep) fs) + 1 <= fuel)%nat ->
  decodeUrlEncoded vts fuel junk (h :: sep) (form_encode (h :: sep) fs)
    = Done (map (fun f => (vts (fst f) [], vts (snd f) [])) fs).
Proof. exact url_round_trip. Qed.
Print Assumptions C11_round_trip.

(** However the fields are written (escapes in either case, '+' or an escape
    for a space, other bytes escaped or not), the same fields arrive. *)
Theorem C11_any_spelling : forall (vts : list N -> list N -> list N) fuel junk h sep t fs,
  In h [38; 59] -> bytes_ok (h :: sep) -> form_text (h :: sep) t fs ->
  (length t <= length junk)%nat -> (length t + 1 <= fuel)%nat ->
  decodeUrlEncoded vts fuel junk (h :: sep) t = Done (map (fun f => (vts (fst f) [], vts (snd f) [])) fs).
Proof. exact form_any. Qed.
Print Assumptions C11_any_spelling.

Example C11_any_spelling_ex :
  form_text (lit "&") (lit "%c3%A9=a+b%20&=1") [([195; 169], lit "a b "); ([], lit "1")] /\
  decodeUrlEncoded (fun b _ => b) 17 (repeat 0 16) (lit "&") (lit "%c3%A9=a+b%20&=1") = Done [([195; 169], lit "a b "); ([], lit "1")].
Proof. split; [exact form_text_case|reflexivity]. Qed.

(** Cookies with a duplicate name, an empty value and reserved characters. *)
Example C11_round_trip_ex :
  let fs := [(lit "a", lit "1; b=2"); (lit "a", []); ([], lit "x&y%")] in
  form_encode (lit "; ") fs = lit "a=1%3B%20b%3D2; a=; =x%26y%25" /\
  decodeUrlEncoded (fun b _ => b) 40 (repeat 0 40) (lit "; ")
    (lit "a=1%3B%20b%3D2; a=; =x%26y%25") = Done fs.
Proof. split; reflexivity. Qed.

(** A field without '=' does not become a field of its own: it ends up in the
    name of the next one. *)
Theorem C11_bare_field_merges : forall (vts : list N -> list N -> list N) fuel junk bare h sep name value,
  In h [38; 59] -> bytes_ok (h :: sep) -> ~ In 61 (h :: sep) ->
  bytes_ok bare -> bytes_ok name -> bytes_ok value ->
  let text := url_escape bare ++ (h :: sep) ++ form_field (name, value) in
  (length text <= length junk)%nat -> (length text + 1 <= fuel)%nat ->
  decodeUrlEncoded vts fuel junk (h :: sep) text
  = Done [(vts (percent_decode (url_escape bare ++ (h :: sep) ++ url_escape name)) [],
           vts value [])].
Proof. exact bare_field_merges. Qed.
Print Assumptions C11_bare_field_merges.

Example C11_bare_field_merges_ex :
  decodeUrlEncoded (fun b _ => b) 40 (repeat 0 40) (lit "&") (lit "flag&a=1")
  = Done [(lit "flag&a", lit "1")].
Proof. reflexivity. Qed.
