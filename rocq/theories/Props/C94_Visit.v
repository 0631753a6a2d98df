(** C94: what a visitor's request says. *)
From Coq Require Import String List NArith ZArith Bool.
From Verif Require Import Model.Base Model.Environment Model.WideText
  Spec.WireSpec Spec.StreamSpec Spec.AddressSpec Spec.EnvironmentSpec Spec.WideTextSpec Spec.VisitSpec
  Proofs.VisitProofs.
Import ListNotations.
Local Open Scope N_scope.

(** The query, however it is written. *)
Theorem C94_query : forall vts junk http_time address_of, (forall n, length (junk n) = n) ->
  (forall t a, address_text t a -> ~ compat_text t -> address_of t = a) ->
  forall rs e, Forall params_record_ok rs -> fill_all vts junk http_time (map record_memory rs) env_init = Done e ->
  forall t fs, values "QUERY_STRING" (concat (map p_params rs)) = [t] -> form_text (lit "&") t fs ->
  e_gets e = map (fun f => (vts (fst f) [], vts (snd f) [])) fs.
Proof. exact visit_query. Qed.
Print Assumptions C94_query.

(** The cookies. *)
Theorem C94_cookies : forall vts junk http_time address_of, (forall n, length (junk n) = n) ->
  (forall t a, address_text t a -> ~ compat_text t -> address_of t = a) ->
  forall rs e, Forall params_record_ok rs -> fill_all vts junk http_time (map record_memory rs) env_init = Done e ->
  forall t fs, values "HTTP_COOKIE" (concat (map p_params rs)) = [t] -> form_text (lit "; ") t fs ->
  e_cookies e = map (fun f => (vts (fst f) [], vts (snd f) [])) fs.
Proof. exact visit_cookies. Qed.
Print Assumptions C94_cookies.

(** The names of a path without '%' and '+'. *)
Theorem C94_path : forall vts junk http_time address_of, (forall n, length (junk n) = n) ->
  (forall t a, address_text t a -> ~ compat_text t -> address_of t = a) ->
  forall rs e, Forall params_record_ok rs -> fill_all vts junk http_time (map record_memory rs) env_init = Done e ->
  forall names, values "PATH_INFO" (concat (map p_params rs)) = [path_of names] ->
  Forall (fun n => n <> [] /\ ~ In 47 n /\ ~ In 37 n /\ ~ In 43 n) names -> names <> [] ->
  e_pathInfo e = map (fun n => vts n []) names.
Proof. exact visit_path. Qed.
Print Assumptions C94_path.

(** With wide characters: all of it arrives as the characters whose UTF-8 was
    sent. *)
Theorem C94_wide : forall strict junk http_time address_of, (forall n, length (junk n) = n) ->
  (forall t a, address_text t a -> ~ compat_text t -> address_of t = a) ->
  forall rs e, Forall params_record_ok rs -> fill_all (vts_wide strict) junk http_time (map record_memory rs) env_init = Done e ->
  let ps := concat (map p_params rs) in
  (forall t fs, fields_text fs -> values "QUERY_STRING" ps = [t] -> form_text (lit "&") t (map pair_utf8 fs) -> e_gets e = fs) /\
  (forall t fs, fields_text fs -> values "HTTP_COOKIE" ps = [t] -> form_text (lit "; ") t (map pair_utf8 fs) -> e_cookies e = fs) /\
  (forall nm f u, Forall scalar u -> In (nm, f) plain_texts -> values nm ps = [utf8 u] -> f e = u) /\
  (forall names, Forall (fun n => Forall scalar n /\ n <> [] /\ ~ In 47 n /\ ~ In 37 n /\ ~ In 43 n) names -> names <> [] ->
    values "PATH_INFO" ps = [path_of (map utf8 names)] -> e_pathInfo e = names).
Proof. exact visit_wide. Qed.
Print Assumptions C94_wide.

Example C94_case :
  Forall params_record_ok [one_record visit_params] /\
  exists e, fill_all (vts_wide true) (repeat 7) (fun _ => 0%Z) (map record_memory [one_record visit_params]) env_init = Done e /\
    e_gets e = [([233], lit "a b "); ([], lit "1")] /\ e_cookies e = [(lit "a", lit "1"); (lit "b", lit "2")] /\
    e_host e = [233; 46; 8364] /\ e_pathInfo e = [[97]; [8364; 233]].
Proof. exact visit_case. Qed.

(** Refuted: that the path is what the web server says it is.  PATH_INFO is
    not encoded (RFC 3875, 4.1.5), but is decoded, and as a form is: three
    different paths arrive as one. *)
Theorem C94_path_refuted : forall vts junk http_time, (forall n, length (junk n) = n) ->
  forall r1 r2 r3 e1 e2 e3,
  params_record_ok r1 -> p_params r1 = [(lit "PATH_INFO", lit "/a+b")] -> fill_all vts junk http_time [record_memory r1] env_init = Done e1 ->
  params_record_ok r2 -> p_params r2 = [(lit "PATH_INFO", lit "/a b")] -> fill_all vts junk http_time [record_memory r2] env_init = Done e2 ->
  params_record_ok r3 -> p_params r3 = [(lit "PATH_INFO", lit "/a%20b")] -> fill_all vts junk http_time [record_memory r3] env_init = Done e3 ->
  e1 = e2 /\ e2 = e3.
Proof. exact path_twice. Qed.
Print Assumptions C94_path_refuted.

Example C94_path_case :
  Forall params_record_ok (map (fun t => one_record [(lit "PATH_INFO", lit t)]) ["/a+b"; "/a b"; "/a%20b"]%string) /\
  Forall (fun r => exists e, fill_all (fun b _ => b) (repeat 7) (fun _ => 0%Z) [record_memory r] env_init = Done e /\ e_pathInfo e = [lit "a b"])
    (map (fun t => one_record [(lit "PATH_INFO", lit t)]) ["/a+b"; "/a b"; "/a%20b"]%string).
Proof. exact path_case. Qed.

(** Refuted: that a variable has the value sent for it.  With wide characters
    a variable whose name has part of a character at its end replaces the one
    named without it. *)
Theorem C94_names_refuted : forall strict junk http_time u c p q v w, (forall n, length (junk n) = n) ->
  Forall scalar u -> scalar c -> utf8_1 c = p ++ q -> p <> [] -> q <> [] -> Forall scalar v -> Forall scalar w ->
  is_known (utf8 u) = false -> is_known (utf8 u ++ p) = false ->
  forall rs e, Forall params_record_ok rs -> concat (map p_params rs) = [(utf8 u, utf8 v); (utf8 u ++ p, utf8 w)] ->
  fill_all (vts_wide strict) junk http_time (map record_memory rs) env_init = Done e -> e_others e = [(u, w)].
Proof. exact names_merge. Qed.
Print Assumptions C94_names_refuted.

Example C94_names_case :
  params_record_ok (one_record merge_params) /\ utf8_1 8364 = [226; 130] ++ [172] /\ is_known (lit "X_USER") = false /\ is_known (lit "X_USER" ++ [226; 130]) = false /\
  exists e, fill_all (vts_wide true) (repeat 7) (fun _ => 0%Z) [record_memory (one_record merge_params)] env_init = Done e /\
    e_others e = [(lit "X_USER", lit "eve")].
Proof. exact merge_case. Qed.
