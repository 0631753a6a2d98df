(** Particular executions of the mail sender. *)
From Coq Require Import String List NArith Bool.
From Verif Require Import Model.Base Model.Mailer Spec.MailerSpec.
Import ListNotations.

Definition T0 : mail := mkMail [lit "Subject: x"; [13; 10; 13; 10]; lit "hello"]%N (lit "a@b") (lit "c@d").
Definition line (s : string) : list N := lit s ++ [13; 10]%N.
(** A server's lines, each arriving whole. *)
Definition script (ls : list string) : list mact := turns (map line ls).
Definition good : list string := ["220 hi"; "250-x"; "250-8BITMIME"; "250 y"; "250 ok"; "250 ok"; "354 go"; "250 taken"; "221 bye"]%string.
Definition run (l : list mact) : option mst := mexec (lit "me") l m_init.
(** A mail and then the server's lines. *)
Definition talk (e : mail) (ls : list string) : list mact := AMail e :: script ls.
Definition gone : mst := mkMS MUndef ERROR SNull [] no_mail [] false false [].
Definition at_end (l : list mact) : mst := match run l with Some s => s | None => gone end.
Definition dotmail : mail := mkMail [lit "a"; [13; 10; 46]; lit "b"]%N (lit "a@b") (lit "c@d").
(** A body with a line that is a dot, and what the server takes for commands. *)
Definition evil : list N := (lit "MAIL FROM: <x@y>" ++ [10])%N.
Definition evilmail : mail := mkMail [lit "a"; [13; 10; 46; 13; 10]%N; evil] (lit "a@b") (lit "c@d").
(** Nothing to do: the thread goes round and round. *)
Definition idle_turns (n : nat) (v : menv) : list mact := concat (repeat [AGo; ANet v] n).
Definition spoof : mail := mkMail [lit "x"] (lit "a@b>" ++ [10%N] ++ lit "RCPT TO: <v@w") (lit "c@d").
(** Bytes written over all connections. *)
Definition sent_pieces (l : list mlog) : list (list N) := flat_map (fun e => match e with LSent b => [b] | _ => [] end) l.
Definition twice_run : list mact :=
  talk T0 (firstn 7 good) ++ [AGo; ANet (mkEnv true true [] true 0 [])] ++ script good.
Definition nobody : mail := mkMail [lit "x"] [] (lit "c@d").
