(** Concrete forms for the email example. *)
From Coq Require Import String List NArith ZArith Bool.
From Verif Require Import Model.Base Model.Environment.
Import ListNotations.
Local Open Scope N_scope.

(** A form with that recipient and message. *)
Definition mform (to message : list N) : env :=
  set_posts [(lit "to", to); (lit "from", lit "a@b"); (lit "subject", lit "<s>" ++ [10]); (lit "message", message)]
    (set_requestMethod 3 env_init).

(** A message with a line of a single dot in it. *)
Definition evil : list N := lit "hi" ++ [13; 10; 46; 13; 10] ++ lit "MAIL FROM:x@y" ++ [13; 10] ++ lit "RCPT TO:z@w" ++ [13; 10].
