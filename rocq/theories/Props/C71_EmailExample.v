(** C71: the email example. *)
From Coq Require Import String List NArith ZArith Bool.
From Verif Require Import Model.Base Model.Streams Model.WebMaps Model.Environment Model.Mailer Model.EmailExample
  Spec.EscapeSpec Spec.StreamSpec Spec.ExampleSpec Spec.MailerSpec Spec.EmailExampleSpec Spec.EmailExampleCases
  Proofs.EmailExampleProofs.
Import ListNotations.
Local Open Scope N_scope.

(** A complete form: exactly this mail is queued.  Addresses and subject are
    one line each, so the header has exactly these lines; subject and message
    are escaped in the document, one paragraph for each of the message. *)
Theorem C71_queued : forall strict e date to from subject message,
  e_requestMethod e = 3 -> field "to" e = Some to -> field "from" e = Some from -> field "subject" e = Some subject ->
  field "message" e = Some message -> Forall (Forall scalar) [to; from; subject; message; date] ->
  exists ps fuel0, paragraphs message ps /\ forall fuel, (fuel0 <= fuel)%nat -> exists ops m,
    email_response strict fuel e date = Done (ops, Some m) /\
    text_of utf8 E_NONE ops = email_page "<h2>Email Queued!</h2>" /\
    m_to m = utf8 (one_line to) /\ m_from m = utf8 (one_line from) /\
    concat (m_body m) =
      utf8 (mail_header (one_line to) (one_line from) (one_line subject) date ++ mail_document (one_line subject) ps).
Proof. exact queued. Qed.
Print Assumptions C71_queued.

(** Whatever the form holds, addresses have no line ends, so the commands made
    of them (C42) are single lines. *)
Theorem C71_addresses : forall strict fuel e date ops m, email_response strict fuel e date = Done (ops, Some m) ->
  lineless (m_to m) /\ lineless (m_from m).
Proof. exact addresses. Qed.
Print Assumptions C71_addresses.

(** The tags of the document depend on the number of paragraphs only. *)
Theorem C71_document : forall s1 s2 ps1 ps2, length ps1 = length ps2 ->
  markup false (utf8 (mail_document s1 ps1)) = markup false (utf8 (mail_document s2 ps2)).
Proof. exact document_markup. Qed.
Print Assumptions C71_document.

(** Without recipient, sender or subject nothing is queued. *)
Theorem C71_missing : forall strict fuel e date, e_requestMethod e = 3 ->
  field "to" e = None \/ field "from" e = None \/ field "subject" e = None ->
  exists ops, email_response strict fuel e date = Done (ops, None) /\
    text_of utf8 E_NONE ops = email_page "<h2>Unable to send email</h2>".
Proof. exact missing_field. Qed.
Print Assumptions C71_missing.

(** Anything but a POST gets the form, always the same, and queues nothing. *)
Theorem C71_get : forall strict fuel e date, e_requestMethod e <> 3 ->
  exists ops, email_response strict fuel e date = Done (ops, None) /\
    forall e' date' fuel' strict', e_requestMethod e' <> 3 -> email_response strict' fuel' e' date' = Done (ops, None).
Proof. exact no_mail_get. Qed.
Print Assumptions C71_get.

(** Refuted for a form without a message: undefined behaviour (line 128
    examines the wrong iterator). *)
Theorem C71_message_refuted : forall strict fuel e date t f s, e_requestMethod e = 3 -> field "to" e = Some t ->
  field "from" e = Some f -> field "subject" e = Some s -> field "message" e = None ->
  email_response strict fuel e date = Undef.
Proof. exact message_lost. Qed.
Print Assumptions C71_message_refuted.

(** Refuted that a visitor can only send one mail: a line of a single dot in
    the message ends it for the server, and what follows are commands. *)
Theorem C71_smuggled_refuted : exists ops m text rest,
  email_response true (N.to_nat 4200) (mform (lit "c@d") evil) (lit "now") = Done (ops, Some m) /\ in_mail m = true /\
  receive_data true (concat (m_body m) ++ [13; 10; 46; 13; 10]) =
    Some (text, lit "MAIL FROM:x@y" ++ [13; 10] ++ lit "RCPT TO:z@w" ++ [13; 10] ++ rest).
Proof. exact smuggled. Qed.
Print Assumptions C71_smuggled_refuted.

(** Refuted that "Email Queued!" means so: with an empty recipient the mailer
    passes the mail over (C42). *)
Theorem C71_recipient_refuted : exists ops m, email_response true (N.to_nat 4200) (mform [] (lit "hi")) (lit "now") = Done (ops, Some m) /\
  text_of utf8 E_NONE ops = email_page "<h2>Email Queued!</h2>" /\ in_mail m = false.
Proof. exact queued_lost. Qed.
Print Assumptions C71_recipient_refuted.

(** Line ends in the recipient, a tag in the subject, three line ends in the
    message. *)
Example C71_example : exists ops m,
  email_response true (N.to_nat 4200) (mform (lit "c@d" ++ [10]) (lit "a<b" ++ [13; 10; 13; 10; 13; 10] ++ lit "c")) (lit "now")
    = Done (ops, Some m) /\
  m_to m = lit "c@d " /\
  paragraphs (lit "a<b" ++ [13; 10; 13; 10; 13; 10] ++ lit "c") [lit "a<b"; [13; 10] ++ lit "c"] /\
  concat (m_body m) = lit "From: a@b" ++ [10] ++ lit "To: c@d " ++ [10] ++ lit "Subject: <s> " ++ [10] ++ lit "Date: now" ++ [10] ++
    lit "Content-Type: text/html; charset=utf-8;" ++ [13; 10; 13; 10] ++ lit "<!DOCTYPE html>" ++ [10] ++
    lit "<html><head><title>&lt;s&gt; </title></head><body><p>a&lt;b</p><p>" ++ [13; 10] ++ lit "c</p></body></html>".
Proof. exact mail_case. Qed.

Example C71_example_missing : let e := set_posts [(lit "to", lit "x")] (set_requestMethod 3 env_init) in
  e_requestMethod e = 3 /\ field "to" e = Some (lit "x") /\ field "from" e = None.
Proof. repeat split. Qed.

Example C71_example_no_message :
  let e := set_posts [(lit "to", lit "x"); (lit "subject", lit "s"); (lit "from", lit "y")] (set_requestMethod 3 env_init) in
  e_requestMethod e = 3 /\ field "to" e = Some (lit "x") /\ field "from" e = Some (lit "y") /\
  field "subject" e = Some (lit "s") /\ field "message" e = None.
Proof. repeat split. Qed.
