(** C26, C36: CGI variables. *)
From Coq Require Import String List NArith ZArith Bool.
From Verif Require Import Model.Base Model.Protocol Model.Environment
  Spec.WireSpec Spec.AddressSpec Spec.EnvironmentSpec Proofs.EnvironmentProofs Proofs.FillProofs
  Proofs.EnvironmentExamples.
Import ListNotations.
Local Open Scope N_scope.

(** C26.  Records of whole pairs: the environment is what the parameters
    describe, whatever the string conversion [vts], the content [junk] of
    fresh buffers, the division into records, their headers and padding. *)
Theorem C26_described : forall vts junk http_time address_of,
  (forall n, length (junk n) = n) ->
  (forall t a, address_text t a -> ~ compat_text t -> address_of t = a) ->
  forall rs e, Forall params_record_ok rs ->
  length (e_serverAddress e) = 16%nat -> length (e_remoteAddress e) = 16%nat ->
  fill_all vts junk http_time (map record_memory rs) e
  = Done (describe vts http_time address_of e (concat (map p_params rs))).
Proof. exact fill_all_ok. Qed.
Print Assumptions C26_described.

(** Hence only the sequence of parameters matters. *)
Theorem C26_split_irrelevant : forall vts junk http_time,
  (forall n, length (junk n) = n) ->
  forall rs1 rs2 e, Forall params_record_ok rs1 -> Forall params_record_ok rs2 ->
  length (e_serverAddress e) = 16%nat -> length (e_remoteAddress e) = 16%nat ->
  concat (map p_params rs1) = concat (map p_params rs2) ->
  fill_all vts junk http_time (map record_memory rs1) e
  = fill_all vts junk http_time (map record_memory rs2) e.
Proof. exact same_params. Qed.
Print Assumptions C26_split_irrelevant.

(** A record that ends inside a pair loses it: nothing of it is stored. *)
Theorem C26_cut_pair_lost : forall vts junk http_time n v enc q r pre tail fuel e,
  pair_encoding n v enc -> enc = q ++ r -> r <> [] -> bytes_ok (pre ++ q ++ tail) ->
  fill vts junk http_time fuel (pre ++ q ++ tail) (len pre) (len pre + len q) e = Done e.
Proof. exact fill_truncated. Qed.
Print Assumptions C26_cut_pair_lost.

(** And the rest of it, in the next record, may be taken for other variables:
    here the value of one variable forges REMOTE_USER. *)
Theorem C26_straddling_refuted :
  exists name value enc r1 r2,
    pair_encoding name value enc /\ r1 ++ r2 = enc /\
    fill_all (fun b _ => b) (repeat 0) (fun _ => 0%Z)
      [([1;4;0;1;0;4;4;0] ++ r1 ++ [0;0;0;0], len r1); ([1;4;0;1;0;14;2;0] ++ r2 ++ [0;0], len r2)] env_init
    = Done (set_others [(lit "REMOTE_USER", lit "r")] env_init).
Proof. exact straddling_witness. Qed.
Print Assumptions C26_straddling_refuted.

(** The hypothesis on addresses can be met. *)
Theorem C26_addresses_exist : exists address_of : list N -> list N,
  forall t a, address_text t a -> ~ compat_text t -> address_of t = a.
Proof. exact (ex_intro _ text_address text_address_ok). Qed.
Print Assumptions C26_addresses_exist.

(** Two records meeting the hypotheses. *)
Example C26_example : Forall params_record_ok example_records /\
  concat (map p_params example_records) =
    [(lit "REQUEST_METHOD", lit "POST"); (lit "CONTENT_LENGTH", lit "300");
     (lit "PATH_INFO", lit "/a%20b//c/"); (lit "REMOTE_ADDR", lit "::1"); (lit "X", lit "1");
     (lit "HTTP_ACCEPT_LANGUAGE", lit "en-CA, fr;q=0.5"); (lit "X", lit "2"); (lit "HTTP_HOST", lit "h")].
Proof. exact example_records_ok. Qed.

Example C36_example :
  exists e, fill_all (fun b _ => b) (repeat 7) (fun _ => 0%Z) (map record_memory example_records) env_init = Done e /\
    e_requestMethod e = 3 /\ e_contentLength e = 300 /\ e_pathInfo e = [lit "a b"; lit "c"] /\
    e_remoteAddress e = repeat 0 15 ++ [1] /\ e_acceptLanguages e = [lit "en_CA"; lit "fr"] /\
    e_host e = lit "h" /\ e_others e = [(lit "X", lit "2")].
Proof. eexists. split; [vm_compute; reflexivity|repeat split]. Qed.

(** C36.  One variable, any name and any value its conversion is defined for,
    anywhere in memory. *)
Theorem C36_variable : forall vts junk http_time address_of,
  (forall n, length (junk n) = n) ->
  (forall t a, address_text t a -> ~ compat_text t -> address_of t = a) ->
  forall fuel p n v after e,
  bytes_ok (p ++ n ++ v ++ after) -> var_ok n v after -> (length v + 5 <= fuel)%nat ->
  length (e_serverAddress e) = 16%nat -> length (e_remoteAddress e) = 16%nat ->
  fill_pair vts junk http_time fuel (p ++ n ++ v ++ after) (length p) (length p + length n)
    (length p + length n + length v) e = Done (describe vts http_time address_of e [(n, v)]) /\
  length (e_serverAddress (describe vts http_time address_of e [(n, v)])) = 16%nat /\
  length (e_remoteAddress (describe vts http_time address_of e [(n, v)])) = 16%nat.
Proof. exact fill_pair_ok. Qed.
Print Assumptions C36_variable.

(** Variables not specially known: the last value, verbatim. *)
Theorem C36_others_last_wins : forall http_time address_of e ps n v rest,
  is_known n = false -> (forall v', ~ In (n, v') rest) ->
  assoc_get n (e_others (describe (fun b _ => b) http_time address_of e (ps ++ (n, v) :: rest))) = Some v.
Proof. exact others_last. Qed.
Print Assumptions C36_others_last_wins.

Theorem C36_others_untouched : forall http_time address_of e ps n,
  (forall v', ~ In (n, v') ps) ->
  assoc_get n (e_others (describe (fun b _ => b) http_time address_of e ps)) = assoc_get n (e_others e).
Proof. exact others_absent. Qed.
Print Assumptions C36_others_untouched.

(** What the web server sends nothing for is blank: empty, zero, the address
    "::". *)
Theorem C36_not_sent : forall vts junk http_time address_of,
  (forall n, length (junk n) = n) ->
  (forall t a, address_text t a -> ~ compat_text t -> address_of t = a) ->
  forall rs e, Forall params_record_ok rs ->
  fill_all vts junk http_time (map record_memory rs) env_init = Done e ->
  let ps := concat (map p_params rs) in
  (not_sent "HTTP_HOST" ps -> e_host e = []) /\ (not_sent "HTTP_ORIGIN" ps -> e_origin e = []) /\
  (not_sent "HTTP_USER_AGENT" ps -> e_userAgent e = []) /\ (not_sent "HTTP_ACCEPT" ps -> e_acceptContentTypes e = []) /\
  (not_sent "HTTP_ACCEPT_LANGUAGE" ps -> e_acceptLanguages e = []) /\ (not_sent "HTTP_ACCEPT_CHARSET" ps -> e_acceptCharsets e = []) /\
  (not_sent "HTTP_AUTHORIZATION" ps -> e_authorization e = []) /\ (not_sent "HTTP_REFERER" ps -> e_referer e = []) /\
  (not_sent "CONTENT_TYPE" ps -> e_contentType e = [] /\ e_boundary e = []) /\ (not_sent "DOCUMENT_ROOT" ps -> e_root e = []) /\
  (not_sent "SCRIPT_NAME" ps -> e_scriptName e = []) /\ (not_sent "REQUEST_METHOD" ps -> e_requestMethod e = 0) /\
  (not_sent "REQUEST_URI" ps -> e_requestUri e = []) /\ (not_sent "PATH_INFO" ps -> e_pathInfo e = []) /\
  (not_sent "HTTP_IF_NONE_MATCH" ps -> e_etag e = 0) /\ (not_sent "HTTP_KEEP_ALIVE" ps -> e_keepAlive e = 0) /\
  (not_sent "CONTENT_LENGTH" ps -> e_contentLength e = 0) /\
  (not_sent "SERVER_ADDR" ps -> e_serverAddress e = repeat 0 16) /\ (not_sent "REMOTE_ADDR" ps -> e_remoteAddress e = repeat 0 16) /\
  (not_sent "SERVER_PORT" ps -> e_serverPort e = 0) /\ (not_sent "REMOTE_PORT" ps -> e_remotePort e = 0) /\
  (not_sent "HTTP_IF_MODIFIED_SINCE" ps -> e_ifModifiedSince e = 0%Z) /\ (not_sent "HTTP_COOKIE" ps -> e_cookies e = []) /\
  (not_sent "QUERY_STRING" ps -> e_gets e = []) /\ e_posts e = [] /\ e_files e = [] /\ e_postBuffer e = [].
Proof. exact fill_absent. Qed.
Print Assumptions C36_not_sent.

Example C36_not_sent_example : Forall params_record_ok example_records /\
  not_sent "HTTP_COOKIE" (concat (map p_params example_records)) /\ not_sent "SERVER_ADDR" (concat (map p_params example_records)) /\
  exists e, fill_all (fun b _ => b) (repeat 7) (fun _ => 0%Z) (map record_memory example_records) env_init = Done e.
Proof.
  split; [exact (proj1 C26_example)|]. split; [reflexivity|]. split; [reflexivity|]. eexists. vm_compute. reflexivity.
Qed.

(** The conversions are not defined for every value: numbers that do not fit
    an [int] overflow ... *)
Theorem C36_number_overflow_refuted : forall vts junk http_time fuel p s v after e,
  In s numeric_names -> after <> [] -> (length v <= fuel)%nat -> 2 ^ 31 <= magnitude v ->
  fill_pair vts junk http_time fuel (p ++ lit s ++ v ++ after) (length p) (length p + length (lit s))
    (length p + length (lit s) + length v) e = Undef.
Proof. exact number_overflow. Qed.
Print Assumptions C36_number_overflow_refuted.

(** ... and any number that ends where the record's memory ends (a record
    without padding) is read past the end. *)
Theorem C36_number_past_end_refuted : forall vts junk http_time fuel p s v e,
  In s numeric_names -> (length v <= fuel)%nat -> Forall (fun c => 48 <= c <= 57) v ->
  fill_pair vts junk http_time fuel (p ++ lit s ++ v) (length p) (length p + length (lit s))
    (length p + length (lit s) + length v) e = Undef.
Proof. exact number_past_end. Qed.
Print Assumptions C36_number_past_end_refuted.

Example C36_overflow_example :
  magnitude (lit "4294967297") = 4294967297 /\
  fill_pair (fun b _ => b) (repeat 0) (fun _ => 0%Z) 20 (lit "CONTENT_LENGTH4294967297" ++ [0]) 0 14 24 env_init = Undef /\
  fill_pair (fun b _ => b) (repeat 0) (fun _ => 0%Z) 20 (lit "CONTENT_LENGTH17") 0 14 16 env_init = Undef.
Proof. repeat split. Qed.
