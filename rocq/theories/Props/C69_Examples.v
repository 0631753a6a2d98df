(** C69: the hello world and echo examples. *)
From Coq Require Import String List NArith ZArith Bool.
From Verif Require Import Model.Base Model.Protocol Model.WebMaps Model.Streams Model.Environment Model.Multipart
  Model.Request Model.Examples Spec.WireSpec Spec.EscapeSpec Spec.StreamSpec Spec.AddressSpec Spec.EnvironmentSpec
  Spec.RequestSpec Spec.PageSpec Spec.ExampleSpec Proofs.RequestLifeProofs Proofs.AgreeProofs Proofs.ExampleRuns.
Import ListNotations.
Local Open Scope N_scope.

(** An application whose response writes a page (any function of the
    environment) and returns true: a well-formed request, its body in any
    pieces, is answered with exactly the text of that page, nothing on the
    error stream, and END_REQUEST with status 0 last. *)
Theorem C69_page : forall vts junk http_time k cfg ops address_of,
  (forall n, length (junk n) = n) ->
  (forall t a, address_text t a -> ~ compat_text t -> address_of t = a) ->
  forall rs ms4 m4 bodies ms5 m5 e, c_id cfg < 65536 -> c_role cfg = 1 \/ c_role cfg = 2 ->
  Forall2 params_message rs ms4 -> is_message 4 [] m4 -> Forall2 (is_message 5) bodies ms5 ->
  Forall (fun c => c <> []) bodies -> is_message 5 [] m5 ->
  let e0 := describe vts http_time address_of env_init (concat (map p_params rs)) in
  e_contentLength e0 <= c_maxPost cfg -> len (concat bodies) <= e_contentLength e0 ->
  parsePostBuffer vts junk (set_postBuffer (concat bodies) e0) = Done (true, e) ->
  Forall (op_chars (real_char k)) (ops (set_postBuffer [] e)) ->
  answered vts junk http_time k (page_app ops) cfg tt (ms4 ++ [m4] ++ ms5 ++ [m5]) 0
    (text_of (encode k) E_NONE (ops (set_postBuffer [] e))).
Proof. exact page_answer. Qed.
Print Assumptions C69_page.

(** Hello world: every request without a body that is not refused gets these
    bytes. *)
Theorem C69_hello : forall vts junk http_time strict cfg address_of,
  (forall n, length (junk n) = n) ->
  (forall t a, address_text t a -> ~ compat_text t -> address_of t = a) ->
  forall rs ms4 m4 m5, c_id cfg < 65536 -> c_role cfg = 1 \/ c_role cfg = 2 ->
  Forall2 params_message rs ms4 -> is_message 4 [] m4 -> is_message 5 [] m5 ->
  e_contentLength (describe vts http_time address_of env_init (concat (map p_params rs))) <= c_maxPost cfg ->
  answered vts junk http_time (Wide strict) hello cfg tt (ms4 ++ [m4; m5]) 0 hello_page.
Proof. exact hello_answer. Qed.
Print Assumptions C69_hello.

(** Echo: the header is always the same, the document begins right after it,
    and each other parameter, GET and POST field and cookie is shown with its
    value, both escaped. *)
Theorem C69_echo : forall vts junk http_time strict dec time_text widen address_out version cfg address_of,
  (forall n, length (junk n) = n) ->
  (forall t a, address_text t a -> ~ compat_text t -> address_of t = a) ->
  formats dec time_text widen address_out version ->
  forall rs ms4 m4 bodies ms5 m5 e, c_id cfg < 65536 -> c_role cfg = 1 \/ c_role cfg = 2 ->
  Forall2 params_message rs ms4 -> is_message 4 [] m4 -> Forall2 (is_message 5) bodies ms5 ->
  Forall (fun c => c <> []) bodies -> is_message 5 [] m5 ->
  let e0 := describe vts http_time address_of env_init (concat (map p_params rs)) in
  e_contentLength e0 <= c_maxPost cfg -> len (concat bodies) <= e_contentLength e0 ->
  parsePostBuffer vts junk (set_postBuffer (concat bodies) e0) = Done (true, e) -> real_env widen e ->
  exists text,
    answered vts junk http_time (Wide strict) (echo dec time_text widen address_out version) cfg tt
      (ms4 ++ [m4] ++ ms5 ++ [m5]) 0 text /\
    (exists body, text = echo_head ++ lit "<!DOCTYPE html>" ++ body) /\
    forall p, In p (e_others e ++ e_gets e ++ e_posts e ++ e_cookies e) ->
      exists pre post, text = pre ++ pair_shown p ++ post.
Proof. exact echo_answer. Qed.
Print Assumptions C69_echo.

(** Nothing a visitor sends adds a tag or changes one: the markup of the page
    depends on nothing but how many entries the lists have, provided no
    uploaded file holds ['<'] or ['>']. *)
Theorem C69_markup : forall dec time_text widen address_out version,
  formats dec time_text widen address_out version ->
  forall e1 e2 m1 m2, same_shape e1 e2 -> plain_files e1 -> plain_files e2 ->
  let page e m := text_of utf8 E_NONE
    (ops_on false (writes (echo dec time_text widen address_out version) (CResponse e m) tt)) in
  markup false (page e1 m1) = markup false (page e2 m2).
Proof. exact echo_tags. Qed.
Print Assumptions C69_markup.

(** Refuted without that proviso: the content of an uploaded file is put into
    the page as it is. *)
Theorem C69_file_refuted :
  same_shape (ex_file []) (ex_file (lit "<script>alert(1)</script>")) /\
  exists a b, markup false (ex_page (ex_file [])) = a ++ b /\
    markup false (ex_page (ex_file (lit "<script>alert(1)</script>"))) = a ++ lit "<script></script>" ++ b /\
    firstn 24 b = lit "</pre><h1></h1><h3></h3>".
Proof. exact file_markup. Qed.
Print Assumptions C69_file_refuted.

(** Refuted for texts that are not characters: a single byte above 127 as
    Accept-Language, widened as in the "C" locale, and the whole page is
    lost; only END_REQUEST is sent. *)
Theorem C69_language_refuted : exists st e m,
  handler (fun b _ => b) (repeat 0) (fun _ => 0%Z) (Wide false)
    (echo ex_dec ex_time ex_widen ex_address (lit "3.1")) ex_cfg ex_language (rq_init tt) = Done (true, [], st) /\
  In (CResponse e m) (q_calls st) /\ e_acceptLanguages e = [[233]] /\
  q_sent st = [(end_record 5 0, true)].
Proof. exact language_blank. Qed.
Print Assumptions C69_language_refuted.

Example C69_example :
  formats ex_dec ex_time ex_widen ex_address (lit "3.1") /\
  Forall2 params_message [demo_record] (firstn 1 demo_head) /\
  exists e,
  e_contentLength ex_e0 = 7 /\ len (lit "x=a" ++ lit "%20b") = 7 /\
  parsePostBuffer (fun b _ => b) (repeat 0) (set_postBuffer (lit "x=a" ++ lit "%20b") ex_e0) = Done (true, e) /\
  real_env ex_widen e /\ e_posts e = [(lit "x", lit "a b")] /\
  pair_shown (lit "x", lit "a b") = lit "<b>x:</b> a b<br />".
Proof.
  split; [exact ex_formats|]. split; [constructor; [exact demo_record_ok|constructor]|exact form_case].
Qed.

Example C69_shape_example :
  same_shape (set_gets [(lit "<b>", lit "'x'")] env_init) (set_gets [(lit "a", lit "b")] env_init) /\
  plain_files (set_gets [(lit "<b>", lit "'x'")] env_init).
Proof. split; [repeat split|intros f []]. Qed.
