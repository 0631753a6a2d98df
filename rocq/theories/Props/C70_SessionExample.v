(** C70: the sessions example. *)
From Coq Require Import String List NArith ZArith Bool.
From Verif Require Import Model.Base Model.WebMaps Model.Streams Model.Environment Model.Sessions Model.SessionExample
  Spec.EscapeSpec Spec.Base64Spec Spec.StreamSpec Spec.EnvironmentSpec Spec.SessionSpec Spec.SessionExampleSpec
  Spec.SessionExampleCases Proofs.SessionExampleProofs Proofs.SessionExampleRuns.
Import ListNotations.
Local Open Scope N_scope.

(** What every visit gets, whatever other threads do with the sessions
    meanwhile ([o1], [o2]), and what it does to them: it depends on the
    history of the sessions, the cookie and the command only. *)
Theorem C70_answer : forall dec expires keep t0 cs e v o1 o2 ops st,
  Forall real_call cs -> real_call (CGenerate (v_draws v) []) ->
  nondecreasing t0 (flat_map times cs ++ visit_times v) ->
  ses_response true dec expires e v o1 o2 (from keep t0 cs) = Some (ops, st) ->
  match alive keep (fst (from keep t0 cs)) e v with
  | Some (text, id, d) =>
      (asks "logout" e -> shows dec expires ops st (fun x n => logout_page n) /\
        st = from keep t0 (cs ++ looks_up e v ++ o1 ++ [CErase id] ++ o2)) /\
      (~ asks "logout" e -> shows dec expires ops st (fun x n => in_page (url_escape text) x id d n) /\
        st = from keep t0 (cs ++ looks_up e v ++ o1 ++ o2))
  | None =>
      (asks "login" e -> exists id t, In (id, t) (v_draws v) /\
        shows dec expires ops st (fun x n => in_page (url_escape (b64 id)) x id (submitted e) n) /\
        st = from keep t0 (cs ++ looks_up e v ++ o1 ++ [CGenerate (v_draws v) (submitted e)] ++ o2) /\
        fst (use (CGenerate (v_draws v) (submitted e)) (from keep t0 (cs ++ looks_up e v ++ o1))) = RGenerate id t) /\
      (~ asks "login" e -> shows dec expires ops st (fun x n => out_page n) /\
        st = from keep t0 (cs ++ looks_up e v ++ o1 ++ o2))
  end.
Proof. exact answer. Qed.
Print Assumptions C70_answer.

(** The cookie a login sets, sent back among any others, is the one the
    session was stored under, whatever the memory of the id held before. *)
Theorem C70_cookie : forall fs1 fs2 id memory, real_id id -> length memory = 15%nat ->
  Forall (fun f => bytes_ok (fst f) /\ bytes_ok (snd f)) (fs1 ++ fs2) -> Forall (fun f => fst f <> lit "sid") fs1 ->
  exists text, first_named (lit "sid") (text_fields (fun b _ => b) (lit "; ")
      (form_encode (lit "; ") (fs1 ++ (lit "sid", b64 id) :: fs2))) = Some text /\ sid_of text memory = id.
Proof. exact cookie_sid. Qed.
Print Assumptions C70_cookie.

(** Logging in and coming back: every later visit with that cookie before the
    session expires shows the text of the login, escaped, provided nobody
    else looks up or erases that id; other visitors' logins cannot take it. *)
Theorem C70_login : forall dec expires keep t0 cs e1 v1 o1 o2 ops1 st1,
  Forall real_call (cs ++ o1 ++ o2) -> real_call (CGenerate (v_draws v1) []) ->
  nondecreasing t0 (flat_map times cs ++ visit_times v1) ->
  first_named (lit "sid") (e_cookies e1) = None -> asks "login" e1 ->
  ses_response true dec expires e1 v1 o1 o2 (from keep t0 cs) = Some (ops1, st1) ->
  exists id t, In (id, t) (v_draws v1) /\
    shows dec expires ops1 st1 (fun x n => in_page (url_escape (b64 id)) x id (submitted e1) n) /\
    forall cs2 fs1 fs2 e2 v2 p1 p2 ops2 st2,
    Forall real_call cs2 -> real_call (CGenerate (v_draws v2) []) -> Forall (elsewhere id) (o2 ++ cs2) ->
    nondecreasing t0 (flat_map times (cs ++ o1 ++ [CGenerate (v_draws v1) (submitted e1)] ++ o2 ++ cs2) ++ visit_times v2) ->
    (v_now v2 - keep <= t)%Z ->
    Forall (fun f => bytes_ok (fst f) /\ bytes_ok (snd f)) (fs1 ++ fs2) -> Forall (fun f => fst f <> lit "sid") fs1 ->
    e_cookies e2 = text_fields (fun b _ => b) (lit "; ") (form_encode (lit "; ") (fs1 ++ (lit "sid", b64 id) :: fs2)) ->
    length (v_memory v2) = 15%nat -> ~ asks "logout" e2 ->
    ses_response true dec expires e2 v2 p1 p2 (others cs2 st1) = Some (ops2, st2) ->
    shows dec expires ops2 st2 (fun x n => in_page (url_escape (b64 id)) x id (submitted e1) n).
Proof. exact login_visit. Qed.
Print Assumptions C70_login.

(** Logging out: no later visit with the same id is in a session, unless the
    id is drawn again. *)
Theorem C70_logout : forall dec expires keep t0 cs e1 v1 o1 o2 ops1 st1 text id d,
  Forall real_call cs -> real_call (CGenerate (v_draws v1) []) ->
  nondecreasing t0 (flat_map times cs ++ visit_times v1) ->
  alive keep (fst (from keep t0 cs)) e1 v1 = Some (text, id, d) -> asks "logout" e1 ->
  ses_response true dec expires e1 v1 o1 o2 (from keep t0 cs) = Some (ops1, st1) ->
  shows dec expires ops1 st1 (fun x n => logout_page n) /\
  forall cs2 e2 v2 p1 p2 ops2 st2 text2, Forall (not_drawn id) (o2 ++ cs2) ->
    first_named (lit "sid") (e_cookies e2) = Some text2 -> sid_of text2 (v_memory v2) = id -> ~ asks "login" e2 ->
    ses_response true dec expires e2 v2 p1 p2 (others cs2 st1) = Some (ops2, st2) ->
    shows dec expires ops2 st2 (fun x n => out_page n).
Proof. exact logout_visit. Qed.
Print Assumptions C70_logout.

(** Refuted where [operator<<] writes a single character by [put]: the id in
    the cookie is not escaped then, and an id with a ['+'] in its text does
    not come back. *)
Theorem C70_put_refuted : exists ops1 st1 ops2 st2,
  ses_response false sx_dec sx_expires sx_login (sx_visit 10 sx_zero) [] [] (from 100 0 []) = Some (ops1, st1) /\
  shows sx_dec sx_expires ops1 st1 (fun x n => in_page (lit "++++AQIDBAUGBwgJCgsM") x sx_id (lit "<x>") n) /\
  ses_response false sx_dec sx_expires (sx_with (lit "sid=++++AQIDBAUGBwgJCgsM")) (sx_visit 11 sx_zero) [] [] st1 = Some (ops2, st2) /\
  shows sx_dec sx_expires ops2 st2 (fun x n => out_page n).
Proof. exact put_lost. Qed.
Print Assumptions C70_put_refuted.

(** Refuted that a visitor needs to know an id: an empty cookie leaves the id
    as the memory was, and if another visitor's id was there, the page shows
    that visitor's session. *)
Theorem C70_memory_refuted : exists ops st,
  ses_response true sx_dec sx_expires (sx_with (lit "sid=")) (sx_visit 11 sx_id) [] [] (from 100 0 sx_calls) = Some (ops, st) /\
  shows sx_dec sx_expires ops st (fun x n => in_page [] x sx_id (lit "<x>") n).
Proof. exact memory_leak. Qed.
Print Assumptions C70_memory_refuted.

(** Refuted that the cookie cannot alter the header: only 20 characters of it
    matter, all of it is sent back, and URL encoding leaves line ends alone,
    so it can end the header early. *)
Theorem C70_header_refuted : exists ops st rest,
  ses_response true sx_dec sx_expires (sx_with (lit "sid=%2B%2B%2B%2BAQIDBAUGBwgJCgsM%0D%0A%0D%0Ahello")) (sx_visit 11 sx_zero) [] []
    (from 100 0 sx_calls) = Some (ops, st) /\
  page ops = lit "Set-Cookie: sid=%2B%2B%2B%2BAQIDBAUGBwgJCgsM" ++ [13; 10; 13; 10] ++
    lit "hello; path=/; expires=then" ++ [10] ++ lit "Content-Type: text/html" ++ rest.
Proof. exact header_cut. Qed.
Print Assumptions C70_header_refuted.

(** A login, a visit and a logout. *)
Example C70_example : exists ops1 st1 ops2 st2 ops3 st3,
  ses_response true sx_dec sx_expires sx_login (sx_visit 10 sx_zero) [] [] (from 100 0 []) = Some (ops1, st1) /\
  asks "login" sx_login /\ submitted sx_login = lit "<x>" /\
  page ops1 = in_page (lit "%2B%2B%2B%2BAQIDBAUGBwgJCgsM") (lit "then") sx_id (lit "<x>") (lit "1") /\
  lit "a=b; sid=%2B%2B%2B%2BAQIDBAUGBwgJCgsM" = form_encode (lit "; ") ([(lit "a", lit "b")] ++ (lit "sid", b64 sx_id) :: []) /\
  ses_response true sx_dec sx_expires (sx_with (lit "a=b; sid=%2B%2B%2B%2BAQIDBAUGBwgJCgsM")) (sx_visit 90 sx_zero) [] [] st1
    = Some (ops2, st2) /\
  page ops2 = in_page (lit "%2B%2B%2B%2BAQIDBAUGBwgJCgsM") (lit "then") sx_id (lit "<x>") (lit "1") /\
  alive 100 (fst st2) (sx_logout (lit "sid=%2B%2B%2B%2BAQIDBAUGBwgJCgsM")) (sx_visit 95 sx_zero)
    = Some (b64 sx_id, sx_id, lit "<x>") /\
  ses_response true sx_dec sx_expires (sx_logout (lit "sid=%2B%2B%2B%2BAQIDBAUGBwgJCgsM")) (sx_visit 95 sx_zero) [] [] st2
    = Some (ops3, st3) /\
  page ops3 = logout_page (lit "0").
Proof. exact login_case. Qed.

Example C70_example_id : real_id sx_id /\ real_call (CGenerate [(sx_id, 10%Z)] []) /\
  nondecreasing 0 (flat_map times sx_calls ++ visit_times (sx_visit 90 sx_zero)).
Proof.
  split; [exact sx_id_real|]. split; [constructor; [exact sx_id_real|constructor]|].
  vm_compute. repeat split; discriminate.
Qed.
