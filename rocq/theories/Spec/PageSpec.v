(** Vocabulary for the pages sent by the handlers an application leaves as
    the library defines them. *)
From Coq Require Import String List NArith ZArith Bool.
From Verif Require Import Model.Base Model.Streams Model.Request Spec.WireSpec Spec.StreamSpec Spec.RequestSpec.
Import ListNotations.
Local Open Scope N_scope.

(** A CGI reply: a status line, the type of the document, an empty line and
    the document. *)
Definition html_reply (status document : string) : list N :=
  lit "Status: " ++ lit status ++ [10] ++
  lit "Content-Type: text/html; charset=utf-8" ++ [13; 10] ++ [13; 10] ++ lit document.

Definition page_413 : list N := html_reply "413 Request Entity Too Large"
  "<!DOCTYPE html><html lang='en'><head><title>413 Request Entity Too Large</title></head><body><h1>413 Request Entity Too Large</h1></body></html>".
Definition page_415 : list N := html_reply "415 Unsupported Media Type"
  "<!DOCTYPE html><html lang='en'><head><title>415 Unsupported Media Type</title></head><body><h1>415 Unsupported Media Type</h1></body></html>".
Definition page_500 : list N := html_reply "500 Internal Server Error"
  "<!DOCTYPE html><html lang='en'><head><title>500 Internal Server Error</title></head><body><h1>500 Internal Server Error</h1></body></html>".

(** The application overrides [response] alone, and never puts a stream into
    an error state. *)
Definition only_responds {U} (A : application U) : Prop :=
  (forall c u, (forall e m, c <> CResponse e m) -> a_call A c u = default_call c u) /\
  forall u, a_good A u = (true, true).

(** [response] has not been called. *)
Definition unanswered {U} (st : rq U) : Prop := forall e m, ~ In (CResponse e m) (q_calls st).

(** The messages end the request, and what is sent for it is exactly [text] on
    its output stream, nothing on its error stream, and END_REQUEST with
    [status] as the last record. *)
Definition answered vts junk http_time k {U} (A : application U) cfg u ms (status : N) (text : list N) : Prop :=
  exists st recs r,
    handler vts junk http_time k A cfg ms (rq_init u) = Done (true, [], st) /\
    q_sent st = map (fun r => (r, false)) recs ++ [(r, c_kill cfg)] /\
    is_end (c_id cfg) status r /\
    stream_text 6 (c_id cfg) recs text /\ stream_text 7 (c_id cfg) recs [].
