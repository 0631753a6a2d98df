(** What the email example should send. *)
From Coq Require Import String List NArith ZArith Bool.
From Verif Require Import Model.Base Model.Environment Model.Mailer Model.SessionExample Spec.EscapeSpec Spec.StreamSpec.
Import ListNotations.
Local Open Scope N_scope.

(** [c] for a line feed or carriage return, what it is otherwise. *)
Definition one_line (s : list N) : list N :=
  map (fun c => if existsb (N.eqb c) [10; 13] then 32 else c) s.

(** No line end. *)
Definition lineless (s : list N) : Prop := ~ In 10 s /\ ~ In 13 s.

(** [ps] are the paragraphs of [message]: it is made of them with two line
    ends between, and none has two line ends in it. *)
Fixpoint joined (ps : list (list N)) : list N :=
  match ps with
  | [] => []
  | [p] => p
  | p :: ps' => p ++ [13; 10; 13; 10] ++ joined ps'
  end.
Definition whole (p : list N) : Prop := forall a b, p <> a ++ [13; 10; 13; 10] ++ b.
Definition paragraphs (message : list N) (ps : list (list N)) : Prop :=
  ps <> [] /\ joined ps = message /\ Forall whole ps.

(** The header and the document of the mail. *)
Definition mail_header (to from subject date : list N) : list N :=
  lit "From: " ++ from ++ [10] ++ lit "To: " ++ to ++ [10] ++ lit "Subject: " ++ subject ++ [10] ++
  lit "Date: " ++ date ++ [10] ++ lit "Content-Type: text/html; charset=utf-8;" ++ [13; 10; 13; 10].
Definition mail_document (subject : list N) (ps : list (list N)) : list N :=
  lit "<!DOCTYPE html>" ++ [10] ++ lit "<html><head><title>" ++ html_escape subject ++ lit "</title></head><body>" ++
  flat_map (fun p => lit "<p>" ++ html_escape p ++ lit "</p>") ps ++ lit "</body></html>".

(** The fields of the form. *)
Definition field (name : string) (e : env) : option (list N) := first_named (lit name) (e_posts e).

(** The answers. *)
Definition email_page (middle : string) : list N :=
  lit "Content-Type: text/html; charset=utf-8" ++ [13; 10; 13; 10] ++ lit "<!DOCTYPE html>" ++ [10] ++
  lit "<html><head><meta charset='utf-8' /><title>fastcgi++: Email Sender</title></head><body>" ++ lit middle ++
  lit "</body></html>".
