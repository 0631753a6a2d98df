(** Concrete visits of the sessions example. *)
From Coq Require Import String List NArith ZArith Bool.
From Verif Require Import Model.Base Model.WebMaps Model.Streams Model.Environment Model.Sessions Model.SessionExample
  Spec.EscapeSpec Spec.Base64Spec Spec.StreamSpec Spec.EnvironmentSpec Spec.SessionExampleSpec.
Import ListNotations.
Local Open Scope N_scope.

Definition sx_dec (n : N) : list N := [48 + n].
Definition sx_expires (t : Z) : list N := if (t =? 200)%Z then lit "then" else lit "other".

(** An id whose text begins with four plus signs. *)
Definition sx_id : list N := [251; 239; 190; 1; 2; 3; 4; 5; 6; 7; 8; 9; 10; 11; 12].

Definition sx_visit (now : Z) (memory : list N) : visit := mkVisit now now now [(sx_id, now)] memory.
Definition sx_zero : list N := repeat 0 15.

(** Logging in with the text ['<x>']. *)
Definition sx_login : env := set_posts [(lit "data", lit "<x>")] (set_gets [(lit "cmd", lit "login")] env_init).
(** A visit with that [HTTP_COOKIE]. *)
Definition sx_with (header : list N) : env :=
  set_cookies (text_fields (fun b _ => b) (lit "; ") header) env_init.
Definition sx_logout (header : list N) : env := set_gets [(lit "cmd", lit "logout")] (sx_with header).

(** The store after that login at time 10; sessions last 100 seconds. *)
Definition sx_calls : list (Sessions.call (list N)) := [CGenerate [(sx_id, 10%Z)] (lit "<x>")].
