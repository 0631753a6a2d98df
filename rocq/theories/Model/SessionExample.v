(** Model of the sessions example (examples/sessions.cpp). *)
From Coq Require Import String List NArith ZArith Bool.
From Verif Require Import Model.Base Model.HttpCodec Model.WebMaps Model.Streams Model.Environment
  Model.Sessions Model.Examples.
Import ListNotations.
Local Open Scope N_scope.

(** [out << "..."] on a narrow stream. *)
Definition nw (s : string) : sop := OpWrite (lit s).

(** [multimap::find]: the first of the elements with the key. *)
Fixpoint first_named (name : list N) (l : list (list N * list N)) : option (list N) :=
  match l with
  | [] => None
  | (n, v) :: l' => if list_eqb n name then Some v else first_named name l'
  end.

(** The shared [s_sessions] with the history of its calls (not in the C++),
    newest first. *)
Definition store : Type := list (Sessions.call (list N) * reply (list N)) * sessions (list N).

(** Auxiliary, no counterpart in the code: a call of a function of Sessions,
    noted together with its answer. *)
Definition use (c : Sessions.call (list N)) (st : store) : reply (list N) * store :=
  let '(r, ss) := step c (snd st) in (r, ((c, r) :: fst st, ss)).

(** What other threads do with it meanwhile. *)
Definition others (cs : list (Sessions.call (list N))) (st : store) : store := run_calls cs (fst st) (snd st).

(** Results of [std::time] in [get], the random ids drawn by [generate], and
    what the memory of a [SessionId] holds before it is written. *)
Record visit := mkVisit {
  v_now : Z; v_tc : Z; v_tr : Z;
  v_draws : list (list N * Z);
  v_memory : list N
}.

(** http.cpp 687-695: bytes that are not written keep what the memory held. *)
Fixpoint settle (id : list (option N)) (memory : list N) : list N :=
  match id, memory with
  | Some b :: id', _ :: m' => b :: settle id' m'
  | None :: id', b :: m' => b :: settle id' m'
  | _, _ => []
  end.
Definition sid_of (text : list N) (memory : list N) : list N :=
  match sessionIdOfString 60 text with Done d => settle d memory | _ => [] end.

(** [out << m_sid], http.hpp 494-503: each character through
    [std::ostream_iterator]; [operator<<] for one character writes it by
    [sputn] ([bulk]) or, in newer libraries, by [put], that is [sputc]. *)
Definition sid_ops (bulk : bool) (id : list N) : list sop :=
  match sessionIdPrint 60 id with
  | Done t => map (fun c => if bulk then OpWrite [c] else OpPut c) t
  | _ => []
  end.

Section Sessions.
Variable bulk : bool.
(** What a number looks like, and [expiration] (http.hpp 577-582), of the time
    kept in it. *)
Variable dec : N -> list N.
Variable expires : Z -> list N.

(** sessions.cpp 83-94. *)
Definition ses_header : list sop :=
  [nw "Content-Type: text/html; charset=ISO-8859-1"; OpWrite [13; 10; 13; 10]; nw "<!DOCTYPE html>"; OpWrite [10];
   nw "<html lang='en'><head><meta charset='ISO-8859-1' /><title>fastcgi++: Sessions</title></head><body>"].

(** sessions.cpp 96-102. *)
Definition ses_footer (ss : sessions (list N)) : list sop :=
  [nw "<p>There are "; OpWrite (dec (N.of_nat (size ss))); nw " sessions open</p></body></html>"].

(** sessions.cpp 104-114. *)
Definition ses_in (id data : list N) (ss : sessions (list N)) : list sop :=
  ses_header ++ [nw "<p>We are currently in a session. The session id is "] ++ sid_ops bulk id ++
  [nw " and the session data is "; OpWrite [34]] ++ shown data ++
  [OpWrite [34]; nw ".<p>Click <a href='?cmd=logout'>here</a> to logout</p>"] ++ ses_footer ss.

(** sessions.cpp 116-131; the accented letters are single bytes. *)
Definition ses_out (ss : sessions (list N)) : list sop :=
  ses_header ++
  [nw "<p>We are currently not in a session.</p><form action='?cmd=login' method='post' enctype='application/x-www-form-urlencoded' accept-charset='ISO-8859-1'><div>Text: <input type='text' name='data' value='Hola se";
   OpWrite [241]; nw "or, usted me almacen"; OpWrite [243]; nw " en una sesi"; OpWrite [243];
   nw "n' /><input type='submit' name='submit' value='submit' /></div></form>"] ++ ses_footer ss.

(** sessions.cpp 41-44, 68-70: the cookie. *)
Definition ses_cookie (value : list sop) (ss : sessions (list N)) : list sop :=
  [nw "Set-Cookie: sid="; OpEnc E_URL] ++ value ++
  [OpEnc E_NONE; nw "; path=/; expires="; OpWrite (expires (ss_expiration ss)); OpWrite [10]].

(** sessions.cpp 33-34. *)
Definition ses_gone : list sop :=
  [nw "Set-Cookie: sid=deleted; path=/; expires=Thu, 01-Jan-1970 00:00:00 GMT"; OpWrite [10]].

(** sessions.cpp 15-79, with what other threads do with the store after the
    first and after the second call ([o1], [o2]); then [expiration] and [size]
    are taken from the same state.  [None]: [generate] found no free id among
    the draws. *)
Definition ses_response (e : env) (v : visit) (o1 o2 : list (Sessions.call (list N))) (st : store)
  : option (list sop * store) :=
  let command := first_named (lit "cmd") (e_gets e) in
  let '(found, st1) :=
    match first_named (lit "sid") (e_cookies e) with
    | Some text =>
        let id := sid_of text (v_memory v) in
        match use (CGet (v_now v) (v_tc v) (v_tr v) id) st with
        | (RGet (Some d), st1) => (Some (text, id, d), st1)
        | (_, st1) => (None, st1)
        end
    | None => (None, st)
    end in
  let st1 := others o1 st1 in
  match found with
  | Some (text, id, d) =>
      if match command with Some c => list_eqb c (lit "logout") | None => false end then
        let st2 := others o2 (snd (use (CErase id) st1)) in
        Some (ses_gone ++ ses_out (snd st2), st2)
      else
        let st2 := others o2 st1 in
        Some (ses_cookie [OpWrite text] (snd st2) ++ ses_in id d (snd st2), st2)
  | None =>
      if match command with Some c => list_eqb c (lit "login") | None => false end then
        let data := match first_named (lit "data") (e_posts e) with
                    | Some d => d
                    | None => lit "WTF we weren't given session data!!!"
                    end in
        match use (CGenerate (v_draws v) data) st1 with
        | (RGenerate id _, st2) =>
            let st2 := others o2 st2 in
            Some (ses_cookie (sid_ops bulk id) (snd st2) ++ ses_in id data (snd st2), st2)
        | _ => None
        end
      else
        let st2 := others o2 st1 in Some (ses_out (snd st2), st2)
  end.
End Sessions.
