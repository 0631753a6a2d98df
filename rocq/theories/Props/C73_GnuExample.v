(** C73: the gnu example. *)
From Coq Require Import String List NArith ZArith Bool.
From Verif Require Import Model.Base Model.Protocol Model.WebMaps Model.Streams Model.Environment Model.Multipart
  Model.Request Model.Examples Model.GnuExample Spec.WireSpec Spec.StreamSpec Spec.AddressSpec Spec.EnvironmentSpec
  Spec.RequestSpec Spec.PageSpec Spec.GnuExampleSpec Proofs.GnuExampleProofs.
Import ListNotations.
Local Open Scope N_scope.

(** Every well-formed request is answered.  For the path "/gnu.png" with the
    image, byte for byte and announced as 58587 bytes long, or told that it has
    not changed since the date given; otherwise with the page of the locale chosen
    by the languages, or told that it has not changed if that locale is the tag
    given and the date is not earlier than the start. *)
Theorem C73_answer : forall png start date date_in number_in number,
  Forall (fun b => b < 256) png -> gnu_formats date date_in number_in number ->
  forall vts junk http_time strict cfg address_of,
  (forall n, length (junk n) = n) ->
  (forall t a, address_text t a -> ~ compat_text t -> address_of t = a) ->
  forall rs ms4 m4 bodies ms5 m5 e, c_id cfg < 65536 -> c_role cfg = 1 \/ c_role cfg = 2 ->
  Forall2 params_message rs ms4 -> is_message 4 [] m4 -> Forall2 (is_message 5) bodies ms5 ->
  Forall (fun c => c <> []) bodies -> is_message 5 [] m5 ->
  let e0 := describe vts http_time address_of env_init (concat (map p_params rs)) in
  e_contentLength e0 <= c_maxPost cfg -> len (concat bodies) <= e_contentLength e0 ->
  parsePostBuffer vts junk (set_postBuffer (concat bodies) e0) = Done (true, e) -> Forall scalar (e_scriptName e) ->
  exists text,
    answered vts junk http_time (Wide strict) (gnu png start date date_in number_in number) cfg tt
      (ms4 ++ [m4] ++ ms5 ++ [m5]) 0 text /\
    if match e_pathInfo e with [p] => list_eqb p (lit "gnu.png") | _ => false end
    then text = if (start <=? e_ifModifiedSince e)%Z then reply_304 else reply_image date png
    else exists i, chosen (e_acceptLanguages e) i /\
      text = if (i =? e_etag e) && (start <=? e_ifModifiedSince e)%Z then reply_304
             else reply_page date i (e_scriptName e) (number_in i 58587) (date_in i).
Proof. exact gnu_answer. Qed.
Print Assumptions C73_answer.

(** A visitor who sends the tag and the date of the page they have is told
    that it has not changed just when it is the one for them now; otherwise
    they get that one. *)
Theorem C73_revisit : forall png start date date_in number_in number,
  Forall (fun b => b < 256) png -> gnu_formats date date_in number_in number ->
  forall vts junk http_time strict cfg address_of,
  (forall n, length (junk n) = n) ->
  (forall t a, address_text t a -> ~ compat_text t -> address_of t = a) ->
  forall rs ms4 m4 m5, c_id cfg < 65536 -> c_role cfg = 1 \/ c_role cfg = 2 ->
  Forall2 params_message rs ms4 -> is_message 4 [] m4 -> is_message 5 [] m5 ->
  let ps := concat (map p_params rs) in
  let e := describe vts http_time address_of env_init ps in
  e_contentLength e <= c_maxPost cfg -> e_pathInfo e <> [lit "gnu.png"] -> Forall scalar (e_scriptName e) ->
  forall i d, i < 6 -> values "HTTP_IF_NONE_MATCH" ps = [[48 + i]] -> values "HTTP_IF_MODIFIED_SINCE" ps = [d] ->
  (start <= http_time d)%Z ->
  exists j, chosen (e_acceptLanguages e) j /\
    answered vts junk http_time (Wide strict) (gnu png start date date_in number_in number) cfg tt (ms4 ++ [m4; m5]) 0
      (if j =? i then reply_304 else reply_page date j (e_scriptName e) (number_in j 58587) (date_in j)).
Proof. exact revisited. Qed.
Print Assumptions C73_revisit.

(** Refuted with a date alone: no tag counts as the tag of the first locale.
    A cache that has the French page and keeps no tags is told, for an English
    visitor, that it has not changed. *)
Theorem C73_stale_refuted :
  ex_gnu (visit [("HTTP_ACCEPT_LANGUAGE", "fr")]%string) = Some (reply_page (lit "D") 2 [] (lit "58,587") (lit "D")) /\
  ex_gnu (visit [("HTTP_ACCEPT_LANGUAGE", "en")]%string) = Some (reply_page (lit "D") 0 [] (lit "58,587") (lit "D")) /\
  ex_gnu (visit [("HTTP_ACCEPT_LANGUAGE", "en"); ("HTTP_IF_MODIFIED_SINCE", "D")]%string) = Some reply_304.
Proof. exact stale. Qed.
Print Assumptions C73_stale_refuted.

(** Refuted that nothing of the request becomes markup: the script name is
    not escaped. *)
Theorem C73_script_refuted : exists pre post,
  ex_gnu (visit [("SCRIPT_NAME", "/'><script>alert(1)</script><img src='")]%string)
  = Some (pre ++ lit "<img src='/'><script>alert(1)</script><img src='/gnu.png' alt='" ++ post).
Proof. exact injected. Qed.
Print Assumptions C73_script_refuted.

Example C73_example :
  gnu_formats (lit "D") (fun _ => lit "D") (fun _ _ => lit "58,587") ex_number /\
  ex_gnu (visit [("HTTP_ACCEPT_LANGUAGE", "es,de-DE;q=0.8,en"); ("SCRIPT_NAME", "/x")]%string)
    = Some (reply_page (lit "D") 5 (lit "/x") (lit "58,587") (lit "D")) /\
  ex_gnu (visit [("HTTP_ACCEPT_LANGUAGE", "zh"); ("HTTP_IF_NONE_MATCH", "4"); ("HTTP_IF_MODIFIED_SINCE", "D")]%string) = Some reply_304 /\
  ex_gnu (visit [("HTTP_ACCEPT_LANGUAGE", "fr"); ("HTTP_IF_NONE_MATCH", "4"); ("HTTP_IF_MODIFIED_SINCE", "D")]%string)
    = Some (reply_page (lit "D") 2 [] (lit "58,587") (lit "D")) /\
  ex_gnu (visit [("PATH_INFO", "/gnu.png"); ("HTTP_IF_NONE_MATCH", "4"); ("HTTP_IF_MODIFIED_SINCE", "D")]%string) = Some reply_304 /\
  ex_gnu (visit [("PATH_INFO", "/gnu.png")]%string) = Some (reply_image (lit "D") [137; 80; 78; 71]).
Proof. exact (conj ex_formats_gnu ex_visits). Qed.
