(** The pages of the sessions example, as bytes, and when each is sent. *)
From Coq Require Import String List NArith ZArith Bool.
From Verif Require Import Model.Base Model.WebMaps Model.Streams Model.Environment Model.Sessions Model.SessionExample
  Spec.EscapeSpec Spec.Base64Spec Spec.StreamSpec Spec.SessionSpec.
Import ListNotations.
Local Open Scope N_scope.

(** The store after the calls [cs], with its history. *)
Definition from (keep t0 : Z) (cs : list (Sessions.call (list N))) : store := run_calls cs [] (sessions_new keep t0).

(** The bytes of a page on a narrow stream. *)
Definition page (ops : list sop) : list N := text_of (fun s => s) E_NONE ops.

(** A page that may tell the expiry time and the number of sessions. *)
Definition shows (dec : N -> list N) (expires : Z -> list N) (ops : list sop) (st : store)
    (p : list N -> list N -> list N) : Prop :=
  page ops = p (expires (ss_expiration (snd st))) (dec (N.of_nat (size (snd st)))).

Definition real_id (id : list N) : Prop := bytes_ok id /\ length id = 15%nat.

Definition log := list (Sessions.call (list N) * reply (list N)).

(** The session a request's cookie names, and since when it is unused, going
    by the history of the store alone; [None]: there is none, or it is too
    old. *)
Definition alive (keep : Z) (l : log) (e : env) (v : visit) : option (list N * list N * list N) :=
  match first_named (lit "sid") (e_cookies e) with
  | None => None
  | Some text =>
      let id := sid_of text (v_memory v) in
      match last_use keep l id with
      | Some (d, u) => if (v_now v - keep <=? u)%Z then Some (text, id, d) else None
      | None => None
      end
  end.

Definition asks (command : string) (e : env) : Prop := first_named (lit "cmd") (e_gets e) = Some (lit command).

(** The clock readings of a request's calls. *)
Definition visit_times (v : visit) : list Z := [v_now v; v_tc v; v_tr v].

Definition page_head : list N :=
  lit "Content-Type: text/html; charset=ISO-8859-1" ++ [13; 10; 13; 10] ++ lit "<!DOCTYPE html>" ++ [10] ++
  lit "<html lang='en'><head><meta charset='ISO-8859-1' /><title>fastcgi++: Sessions</title></head><body>".

Definition page_foot (count : list N) : list N :=
  lit "<p>There are " ++ count ++ lit " sessions open</p></body></html>".

(** A page of a session with the cookie [value] as sent in the header. *)
Definition in_page (value expiry id data count : list N) : list N :=
  lit "Set-Cookie: sid=" ++ value ++ lit "; path=/; expires=" ++ expiry ++ [10] ++ page_head ++
  lit "<p>We are currently in a session. The session id is " ++ b64 id ++
  lit " and the session data is " ++ [34] ++ html_escape data ++ [34] ++
  lit ".<p>Click <a href='?cmd=logout'>here</a> to logout</p>" ++ page_foot count.

Definition out_page (count : list N) : list N :=
  page_head ++
  lit "<p>We are currently not in a session.</p><form action='?cmd=login' method='post' enctype='application/x-www-form-urlencoded' accept-charset='ISO-8859-1'><div>Text: <input type='text' name='data' value='Hola se" ++
  [241] ++ lit "or, usted me almacen" ++ [243] ++ lit " en una sesi" ++ [243] ++
  lit "n' /><input type='submit' name='submit' value='submit' /></div></form>" ++ page_foot count.

(** The same with the header that makes the browser forget the cookie. *)
Definition logout_page (count : list N) : list N :=
  lit "Set-Cookie: sid=deleted; path=/; expires=Thu, 01-Jan-1970 00:00:00 GMT" ++ [10] ++ out_page count.

(** Calls that neither look up nor erase session [id]. *)
Definition elsewhere (id : list N) (c : Sessions.call (list N)) : Prop :=
  match c with
  | CGenerate _ _ => True
  | CGet _ _ _ id' => id' <> id
  | CErase id' => id' <> id
  end.

(** All ids a call draws at random are 15 bytes; none of them is [id]. *)
Definition real_call (c : Sessions.call (list N)) : Prop :=
  match c with
  | CGenerate draws _ => Forall (fun d => real_id (fst d)) draws
  | _ => True
  end.

Definition not_drawn (id : list N) (c : Sessions.call (list N)) : Prop :=
  match c with
  | CGenerate draws _ => ~ In id (map fst draws)
  | _ => True
  end.

(** The calls a visit with the cookie [text] begins with. *)
Definition looks_up (e : env) (v : visit) : list (Sessions.call (list N)) :=
  match first_named (lit "sid") (e_cookies e) with
  | Some text => [CGet (v_now v) (v_tc v) (v_tr v) (sid_of text (v_memory v))]
  | None => []
  end.

(** The text submitted with the login form. *)
Definition submitted (e : env) : list N :=
  match first_named (lit "data") (e_posts e) with
  | Some d => d
  | None => lit "WTF we weren't given session data!!!"
  end.
