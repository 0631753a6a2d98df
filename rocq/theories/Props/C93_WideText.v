(** C93: text of applications with wide characters. *)
From Coq Require Import String List NArith ZArith Bool.
From Verif Require Import Model.Base Model.HttpCodec Model.Streams Model.Environment Model.Multipart Model.WideText
  Model.Request Model.Examples
  Spec.WireSpec Spec.EscapeSpec Spec.StreamSpec Spec.AddressSpec Spec.EnvironmentSpec Spec.RequestSpec Spec.PageSpec Spec.WideTextSpec Spec.MultipartSpec
  Proofs.RequestLifeProofs Proofs.WideTextProofs.
Import ListNotations.
Local Open Scope N_scope.

(** Text in UTF-8 arrives as its characters, whatever was there before. *)
Theorem C93_text : forall strict u old, Forall scalar u -> vts_wide strict (utf8 u) old = u.
Proof. exact wide_in. Qed.
Print Assumptions C93_text.

(** Any bytes: either they are the UTF-8 of what arrives, but for at most
    three bytes at the end, or they are not UTF-8 and nothing arrives. *)
Theorem C93_any : forall b old, bytes_ok b ->
  (exists tail, Forall scalar (vts_wide true b old) /\ b = utf8 (vts_wide true b old) ++ tail /\ (length tail <= 3)%nat) \/
  (vts_wide true b old = old /\ forall u, Forall scalar u -> b <> utf8 u).
Proof. exact wide_sound. Qed.
Print Assumptions C93_any.

(** A form of any texts, each name and value in UTF-8 and written in any way
    that forms allow: escapes in either case, '+' or an escape for a space,
    other bytes escaped or not. *)
Theorem C93_form : forall strict fuel junk h sep t fs, In h [38; 59] -> bytes_ok (h :: sep) ->
  Forall (fun f => Forall scalar (fst f) /\ Forall scalar (snd f)) fs -> form_text (h :: sep) t (map pair_utf8 fs) ->
  (length t <= length junk)%nat -> (length t + 1 <= fuel)%nat ->
  decodeUrlEncoded (vts_wide strict) fuel junk (h :: sep) t = Done fs.
Proof. exact wide_form. Qed.
Print Assumptions C93_form.

Example C93_form_case :
  form_text (lit "&") (lit "%c3%A9=a+b%20&=1") (map pair_utf8 [([233], lit "a b "); ([], lit "1")]) /\
  forall strict, decodeUrlEncoded (vts_wide strict) 17 (repeat 0 16) (lit "&") (lit "%c3%A9=a+b%20&=1")
    = Done [([233], lit "a b "); ([], lit "1")].
Proof. split; [exact form_text_case|]. intros []; reflexivity. Qed.

(** Likewise for multipart forms; the contents of files stay the bytes they
    are. *)
Theorem C93_multipart : forall strict e ps, boundary_ok (e_boundary e) -> Forall part_text ps ->
  Forall (part_ok (e_boundary e)) (map part_utf8 ps) -> e_postBuffer e = multipart (e_boundary e) (map part_utf8 ps) ->
  parsePostsMultipart (vts_wide strict) e =
  Done (set_files (e_files e ++ conv_uploads (fun l => l) (uploads ps)) (set_posts (e_posts e ++ texts ps) e)).
Proof. exact wide_multipart. Qed.
Print Assumptions C93_multipart.

Example C93_multipart_case :
  let e := set_postBuffer (multipart (lit "B") (map part_utf8 wide_parts))
             (describe (vts_wide true) (fun _ => 0%Z) (fun t => t) env_init [(lit "CONTENT_TYPE", lit "multipart/form-data; boundary=B")]) in
  boundary_ok (e_boundary e) /\ Forall part_text wide_parts /\ Forall (part_ok (e_boundary e)) (map part_utf8 wide_parts) /\
  e_postBuffer e = multipart (e_boundary e) (map part_utf8 wide_parts) /\
  conv_uploads (fun l => l) (uploads wide_parts) = [(lit "a", ([233], lit "t", [255]))] /\ texts wide_parts = [([233], [8364])].
Proof. exact wide_parts_ok. Qed.

(** There and back: a visitor's form is shown in exactly the bytes it was
    written in, its body cut anywhere. *)
Theorem C93_round : forall junk http_time strict cfg address_of,
  (forall n, length (junk n) = n) ->
  (forall t a, address_text t a -> ~ compat_text t -> address_of t = a) ->
  forall rs ms4 m4 bodies ms5 m5 name value, c_id cfg < 65536 -> c_role cfg = 1 \/ c_role cfg = 2 ->
  Forall2 params_message rs ms4 -> is_message 4 [] m4 -> Forall2 (is_message 5) bodies ms5 ->
  Forall (fun c => c <> []) bodies -> is_message 5 [] m5 ->
  let e0 := describe (vts_wide strict) http_time address_of env_init (concat (map p_params rs)) in
  e_contentLength e0 <= c_maxPost cfg -> len (concat bodies) <= e_contentLength e0 ->
  e_contentType e0 = lit "application/x-www-form-urlencoded" ->
  Forall scalar name -> Forall scalar value ->
  form_text (lit "&") (concat bodies) [(utf8 name, utf8 value)] ->
  answered (vts_wide strict) junk http_time (Wide strict) (page_app show_ops) cfg tt (ms4 ++ [m4] ++ ms5 ++ [m5]) 0
    (utf8 name ++ lit ": " ++ utf8 value).
Proof. exact wide_round. Qed.
Print Assumptions C93_round.

Example C93_round_case :
  Forall2 params_message [demo_record] (firstn 1 demo_head) /\
  let e0 := describe (vts_wide true) (fun _ => 0%Z) (fun t => t) env_init (concat (map p_params [demo_record])) in
  e_contentLength e0 = 7 /\ len (concat euro_body) = 7 /\ e_contentType e0 = lit "application/x-www-form-urlencoded" /\
  Forall scalar [233] /\ Forall scalar [] /\ form_text (lit "&") (concat euro_body) [(utf8 [233], utf8 [])] /\
  utf8 [233] ++ lit ": " ++ utf8 [] = [195; 169; 58; 32].
Proof. split; [constructor; [exact demo_record_ok|constructor]|exact euro_case]. Qed.

(** Refuted for other bytes: a single wrong byte and the whole name or value
    is empty, without the application being told. *)
Theorem C93_invalid_refuted : forall strict,
  decodeUrlEncoded (vts_wide strict) 8 (repeat 0 8) (lit "&") (lit "a=x%FFy") = Done [(lit "a", [])] /\
  decodeUrlEncoded (vts_wide strict) 8 (repeat 0 8) (lit "&") (lit "%FF=x") = Done [([], lit "x")].
Proof. exact invalid_form. Qed.
Print Assumptions C93_invalid_refuted.

(** A variable sent twice keeps its first value when the second is no UTF-8. *)
Theorem C93_keeps_refuted : forall strict u old, Forall scalar u -> vts_wide strict (utf8 u ++ [255]) old = old.
Proof. exact invalid_keeps. Qed.
Print Assumptions C93_keeps_refuted.

(** Text that ends within a character is accepted without it. *)
Theorem C93_cut_refuted : forall strict u c p q old, Forall scalar u -> scalar c -> utf8_1 c = p ++ q -> p <> [] -> q <> [] ->
  vts_wide strict (utf8 u ++ p) old = u.
Proof. exact wide_cut. Qed.
Print Assumptions C93_cut_refuted.

Example C93_cut_case : utf8_1 8364 = [226; 130] ++ [172] /\ vts_wide true (lit "5 " ++ [226; 130]) [] = lit "5 ".
Proof. split; reflexivity. Qed.

(** With a lenient library half a surrogate pair arrives as a character. *)
Theorem C93_surrogate_refuted :
  vts_wide false [237; 160; 128] [] = [0xd800] /\ ~ scalar 0xd800 /\ vts_wide true [237; 160; 128] [] = [].
Proof. exact surrogate_in. Qed.
Print Assumptions C93_surrogate_refuted.
