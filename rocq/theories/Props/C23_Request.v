(** C23, C24, C25, C27: the life of a request. *)
From Coq Require Import String List NArith ZArith Bool.
From Verif Require Import Model.Base Model.Protocol Model.WebMaps Model.Streams Model.Environment Model.Multipart
  Model.Request Spec.WireSpec Spec.StreamSpec Spec.AddressSpec Spec.EscapeSpec Spec.EnvironmentSpec Spec.RequestSpec
  Proofs.RequestProofs Proofs.RequestTextProofs Proofs.RequestBodyProofs Proofs.RequestLifeProofs.
Import ListNotations.
Local Open Scope N_scope.

(** C23.  Whatever messages arrive and whatever the application does: what is
    sent is output and error records of the request, none asking for the
    connection to be closed, and then, exactly when the request is reported
    complete, one END_REQUEST record of the request, whose kill flag is that
    of the request.  [vts], [junk] and [http_time] are the string
    conversion, the content of fresh buffers and [std::mktime]. *)
Theorem C23_ends_once : forall vts junk http_time k (U : Type) (A : application U) cfg u ms done rest st,
  c_id cfg < 65536 -> app_writes (any_char k) A ->
  handler vts junk http_time k A cfg ms (rq_init u) = Done (done, rest, st) ->
  exists out, Forall (is_stream (c_id cfg)) out /\
    if done then exists r status, (status = 0 \/ status = 3) /\ is_end (c_id cfg) status r /\
                   q_sent st = map (fun r => (r, false)) out ++ [(r, c_kill cfg)]
    else q_sent st = map (fun r => (r, false)) out.
Proof. exact request_sent. Qed.
Print Assumptions C23_ends_once.

(** How the messages are spread over calls of [handler] does not matter, and
    once complete nothing further is taken from the queue. *)
Theorem C23_batches_irrelevant : forall vts junk http_time k (U : Type) (A : application U) cfg ms1 ms2 (st : rq U),
  handler vts junk http_time k A cfg (ms1 ++ ms2) st =
  match handler vts junk http_time k A cfg ms1 st with
  | Done (true, rest, st') => Done (true, rest ++ ms2, st')
  | Done (false, _, st') => handler vts junk http_time k A cfg ms2 st'
  | Spin => Spin
  | Undef => Undef
  end.
Proof. exact handler_batches. Qed.
Print Assumptions C23_batches_irrelevant.

(** The records carry, stream by stream, everything the application wrote, in
    order, escaped and encoded, and nothing else: nothing is left in a buffer
    when END_REQUEST goes out.  [a_good]: no stream is in an error state when
    the request ends. *)
Theorem C23_all_output_before_end : forall vts junk http_time k (U : Type) (A : application U) cfg u ms rest st,
  c_id cfg < 65536 -> app_writes (real_char k) A -> (forall u, a_good A u = (true, true)) ->
  handler vts junk http_time k A cfg ms (rq_init u) = Done (true, rest, st) ->
  exists recs r,
    q_sent st = map (fun r => (r, false)) recs ++ [(r, c_kill cfg)] /\
    is_end (c_id cfg) (q_status st) r /\
    stream_text 6 (c_id cfg) recs (text_of (encode k) E_NONE (ops_on false (q_ops st))) /\
    stream_text 7 (c_id cfg) recs (text_of (encode k) E_NONE (ops_on true (q_ops st))).
Proof. exact request_text. Qed.
Print Assumptions C23_all_output_before_end.

(** A request with parameters, a body in two records, and a message from the
    application, whose second response ends it. *)
Example C23_example : exists st, demo_done = Done (true, [], st) /\
  app_writes (any_char Narrow) demo /\ c_id demo_cfg < 65536 /\
  q_sent st =
    [([Some 1; Some 7; Some 0; Some 5; Some 0; Some 3; Some 5; None] ++ known (lit "log") ++ repeat None 5, false);
     ([Some 1; Some 7; Some 0; Some 5; Some 0; Some 3; Some 5; None] ++ known (lit "log") ++ repeat None 5, false);
     ([Some 1; Some 6; Some 0; Some 5; Some 0; Some 62; Some 2; None] ++ known (demo_wrote ++ demo_wrote)
        ++ [None; None], false);
     ([Some 1; Some 3; Some 0; Some 5; Some 0; Some 8; Some 0; None; Some 0; Some 0; Some 0; Some 0; Some 0;
       None; None; None], true)].
Proof.
  destruct demo_works as (st & D & S). exists st. split; [exact D|]. split; [exact demo_writes|].
  split; [reflexivity|exact S].
Qed.

(** C24.  In every state, and in every call to the application, the raw body
    is no longer than announced nor than the maximum (for applications that
    do not themselves change the announced length or the raw body). *)
Theorem C24_bounded : forall vts junk http_time k (U : Type) (A : application U) cfg u ms done rest st,
  c_id cfg < 65536 -> app_writes (any_char k) A -> app_tame A ->
  handler vts junk http_time k A cfg ms (rq_init u) = Done (done, rest, st) ->
  Forall (fun e => len (e_postBuffer e) <= e_contentLength e /\ len (e_postBuffer e) <= c_maxPost cfg)
    (q_env st :: map call_env (q_calls st)).
Proof. exact always_bounded. Qed.
Print Assumptions C24_bounded.

(** An announced length above the maximum: once the parameters are complete
    the too-large handler alone is called and the request ends. *)
Theorem C24_too_big_announced : forall vts junk http_time k (U : Type) (A : application U) cfg u ms st m,
  c_id cfg < 65536 -> app_writes (any_char k) A ->
  lives_with vts junk http_time k A cfg u ms st -> q_state st = 4 -> is_message 4 [] m ->
  c_role cfg = 1 \/ c_role cfg = 2 -> c_maxPost cfg < e_contentLength (q_env st) ->
  ends_with vts junk http_time k A cfg u ms m st 0 [CBigPost (q_env st)]
    (writes A (CBigPost (q_env st)) (q_user st)).
Proof. exact too_big_announced. Qed.
Print Assumptions C24_too_big_announced.

(** More data than announced. *)
Theorem C24_too_much_sent : forall vts junk http_time k (U : Type) (A : application U) cfg u ms st m content,
  c_id cfg < 65536 -> app_writes (any_char k) A ->
  lives_with vts junk http_time k A cfg u ms st -> q_state st = 5 -> is_message 5 content m -> content <> [] ->
  e_contentLength (q_env st) < len (e_postBuffer (q_env st)) + len content ->
  ends_with vts junk http_time k A cfg u ms m st 0 [CBigPost (q_env st)]
    (writes A (CBigPost (q_env st)) (q_user st)).
Proof. exact too_much_sent. Qed.
Print Assumptions C24_too_much_sent.

Example C24_example : exists st st',
  lives_with (fun b _ => b) (repeat 0) (fun _ => 0%Z) Narrow demo demo_cfg 0 (demo_head ++ demo_body) st /\
  q_state st = 5 /\ e_contentLength (q_env st) = 7 /\ e_postBuffer (q_env st) = lit "x=a%20b" /\
  handler (fun b _ => b) (repeat 0) (fun _ => 0%Z) Narrow demo demo_cfg
    (demo_head ++ demo_body ++ [record_message 5 5 (lit "zz") [] 0]) (rq_init 0) = Done (true, [], st') /\
  q_ops st' = [(false, OpWrite (error_text "413 Request Entity Too Large"))].
Proof. exact demo_too_much. Qed.

(** C25.  A well-formed request: PARAMS records [rs], an empty one, the body
    in any non-empty pieces, an empty STDIN record.  Each piece is announced,
    and then [inProcessor], the first to see the body, is given exactly the
    concatenation of the pieces; no response runs before. *)
Theorem C25_body : forall vts junk http_time k (U : Type) (A : application U) cfg address_of,
  (forall n, length (junk n) = n) ->
  (forall t a, address_text t a -> ~ compat_text t -> address_of t = a) ->
  forall u rs ms4 m4 bodies ms5 m5, c_id cfg < 65536 -> app_writes (any_char k) A ->
  (forall e n, tame_at A (CIn e n)) -> c_role cfg = 1 \/ c_role cfg = 2 ->
  Forall2 params_message rs ms4 -> is_message 4 [] m4 -> Forall2 (is_message 5) bodies ms5 ->
  Forall (fun c => c <> []) bodies -> is_message 5 [] m5 ->
  let e0 := describe vts http_time address_of env_init (concat (map p_params rs)) in
  e_contentLength e0 <= c_maxPost cfg -> len (concat bodies) <= e_contentLength e0 ->
  exists st calls,
    handler vts junk http_time k A cfg (ms4 ++ [m4] ++ ms5) (rq_init u) = Done (false, [], st) /\
    q_calls st = calls /\ in_calls bodies calls /\ e_postBuffer (q_env st) = concat bodies /\
    forall done rest st',
      handler vts junk http_time k A cfg (ms4 ++ [m4] ++ ms5 ++ [m5]) (rq_init u) = Done (done, rest, st') ->
      exists more, q_calls st' = calls ++ CInProcessor (q_env st) :: more.
Proof. exact (fun v j h k U A c a => whole_body v j h k A c a). Qed.
Print Assumptions C25_body.

(** With the default [inHandler] and [inProcessor]: the body parser gets the
    described environment with exactly that body, and the response sees what
    it returns, the raw body removed. *)
Theorem C25_parsed : forall vts junk http_time k (U : Type) (A : application U) cfg address_of,
  (forall n, length (junk n) = n) ->
  (forall t a, address_text t a -> ~ compat_text t -> address_of t = a) ->
  forall u rs ms4 m4 bodies ms5 m5 e2, c_id cfg < 65536 -> app_writes (any_char k) A -> app_plain A ->
  c_role cfg = 1 \/ c_role cfg = 2 ->
  Forall2 params_message rs ms4 -> is_message 4 [] m4 -> Forall2 (is_message 5) bodies ms5 ->
  Forall (fun c => c <> []) bodies -> is_message 5 [] m5 ->
  let e0 := describe vts http_time address_of env_init (concat (map p_params rs)) in
  e_contentLength e0 <= c_maxPost cfg -> len (concat bodies) <= e_contentLength e0 ->
  parsePostBuffer vts junk (set_postBuffer (concat bodies) e0) = Done (true, e2) ->
  exists st calls,
    handler vts junk http_time k A cfg (ms4 ++ [m4] ++ ms5 ++ [m5]) (rq_init u)
      = Done (snd (a_call A (CResponse (set_postBuffer [] e2) m5) u), [], st) /\
    q_calls st = calls ++ [CInProcessor (set_postBuffer (concat bodies) e0); CResponse (set_postBuffer [] e2) m5] /\
    in_calls bodies calls.
Proof. exact (fun v j h k U A c a => whole_seen v j h k A c a). Qed.
Print Assumptions C25_parsed.

(** Without a body the response sees exactly what the parameters describe. *)
Theorem C25_no_body : forall vts junk http_time k (U : Type) (A : application U) cfg address_of,
  (forall n, length (junk n) = n) ->
  (forall t a, address_text t a -> ~ compat_text t -> address_of t = a) ->
  forall u rs ms4 m4 m5, c_id cfg < 65536 -> app_writes (any_char k) A -> app_plain A ->
  c_role cfg = 1 \/ c_role cfg = 2 ->
  Forall2 params_message rs ms4 -> is_message 4 [] m4 -> is_message 5 [] m5 ->
  let e0 := describe vts http_time address_of env_init (concat (map p_params rs)) in
  e_contentLength e0 <= c_maxPost cfg ->
  exists st,
    handler vts junk http_time k A cfg (ms4 ++ [m4; m5]) (rq_init u)
      = Done (snd (a_call A (CResponse e0 m5) u), [], st) /\
    q_calls st = [CInProcessor e0; CResponse e0 m5].
Proof. exact no_body_seen. Qed.
Print Assumptions C25_no_body.

(** A url-encoded form of any fields, in any pieces: the response sees the
    described environment and those fields as POST data. *)
Theorem C25_form : forall vts junk http_time k (U : Type) (A : application U) cfg address_of,
  (forall n, length (junk n) = n) ->
  (forall t a, address_text t a -> ~ compat_text t -> address_of t = a) ->
  forall u rs ms4 m4 fs bodies ms5 m5, c_id cfg < 65536 -> app_writes (any_char k) A -> app_plain A ->
  c_role cfg = 1 \/ c_role cfg = 2 ->
  Forall2 params_message rs ms4 -> is_message 4 [] m4 -> Forall2 (is_message 5) bodies ms5 ->
  Forall (fun c => c <> []) bodies -> is_message 5 [] m5 ->
  let e0 := describe vts http_time address_of env_init (concat (map p_params rs)) in
  e_contentLength e0 <= c_maxPost cfg -> len (concat bodies) <= e_contentLength e0 ->
  e_contentType e0 = lit "application/x-www-form-urlencoded" ->
  Forall (fun f => bytes_ok (fst f) /\ bytes_ok (snd f)) fs ->
  concat bodies = form_encode (lit "&") fs ->
  exists st calls e,
    handler vts junk http_time k A cfg (ms4 ++ [m4] ++ ms5 ++ [m5]) (rq_init u)
      = Done (snd (a_call A (CResponse e m5) u), [], st) /\
    q_calls st = calls ++ [CInProcessor (set_postBuffer (concat bodies) e0); CResponse e m5] /\
    in_calls bodies calls /\
    e = set_posts (e_posts e0 ++ map (fun f => (vts (fst f) [], vts (snd f) [])) fs) (set_postBuffer [] e0).
Proof. exact form_seen. Qed.
Print Assumptions C25_form.

Example C25_example :
  app_writes (any_char Narrow) demo /\ app_plain demo /\
  Forall2 params_message [demo_record] (firstn 1 demo_head) /\
  Forall2 (is_message 4) [[]] (skipn 1 demo_head) /\
  Forall2 (is_message 5) [lit "x=a"; lit "%20b"; []] (demo_body ++ [demo_end]) /\
  (let e0 := describe (fun b _ => b) (fun _ => 0%Z) (fun t => t) env_init (p_params demo_record) in
   e_contentLength e0 = 7 /\ e_contentType e0 = lit "application/x-www-form-urlencoded") /\
  lit "x=a" ++ lit "%20b" = form_encode (lit "&") [(lit "x", lit "a b")].
Proof.
  split; [exact demo_writes|]. split; [exact demo_plain|].
  split; [constructor; [exact demo_record_ok|constructor]|].
  split; [constructor; [apply record_is_message; reflexivity|constructor]|].
  split; [repeat (constructor; [apply record_is_message; reflexivity|]); constructor|].
  split; [split; reflexivity|reflexivity].
Qed.

(** C27.  An abort ends a living request in every state, without any call to
    the application. *)
Theorem C27_abort : forall vts junk http_time k (U : Type) (A : application U) cfg u ms st m content,
  c_id cfg < 65536 -> app_writes (any_char k) A ->
  lives_with vts junk http_time k A cfg u ms st -> is_message 2 content m ->
  ends_with vts junk http_time k A cfg u ms m st 0 [] [].
Proof. exact abort_ends. Qed.
Print Assumptions C27_abort.

(** A record out of order: only the error handler is called, and the request
    ends. *)
Theorem C27_disorder : forall vts junk http_time k (U : Type) (A : application U) cfg u ms st m type content,
  c_id cfg < 65536 -> app_writes (any_char k) A ->
  lives_with vts junk http_time k A cfg u ms st -> is_message type content m -> type <> 2 -> type <> q_state st ->
  ends_with vts junk http_time k A cfg u ms m st 0 [CError (q_env st)]
    (writes A (CError (q_env st)) (q_user st)).
Proof. exact disorder_ends. Qed.
Print Assumptions C27_disorder.

(** A role other than responder and authorizer: the status is UNKNOWN_ROLE. *)
Theorem C27_role : forall vts junk http_time k (U : Type) (A : application U) cfg u ms st m content,
  c_id cfg < 65536 -> app_writes (any_char k) A ->
  lives_with vts junk http_time k A cfg u ms st -> q_state st = 4 -> is_message 4 content m ->
  c_role cfg <> 1 -> c_role cfg <> 2 ->
  ends_with vts junk http_time k A cfg u ms m st 3 [CError (q_env st)]
    (writes A (CError (q_env st)) (q_user st)).
Proof. exact role_ends. Qed.
Print Assumptions C27_role.

(** A body of unknown content type that the application does not process
    itself. *)
Theorem C27_unknown_content : forall vts junk http_time k (U : Type) (A : application U) cfg u ms st m,
  c_id cfg < 65536 -> app_writes (any_char k) A ->
  lives_with vts junk http_time k A cfg u ms st -> q_state st = 5 -> is_message 5 [] m ->
  let c := CInProcessor (q_env st) in
  let u' := fst (fst (fst (a_call A c (q_user st)))) in
  let e' := snd (fst (fst (a_call A c (q_user st)))) in
  snd (a_call A c (q_user st)) = false -> e_postBuffer e' <> [] ->
  e_contentType e' <> lit "multipart/form-data" ->
  e_contentType e' <> lit "application/x-www-form-urlencoded" ->
  ends_with vts junk http_time k A cfg u ms m st 0 [c; CUnknownContent e']
    (writes A c (q_user st) ++ writes A (CUnknownContent e') u').
Proof. exact unknown_content_ends. Qed.
Print Assumptions C27_unknown_content.

(** A living request in each state. *)
Example C27_example : exists st4 st5 st6,
  let lives := lives_with (fun b _ => b) (repeat 0) (fun _ => 0%Z) Narrow demo demo_cfg 0 in
  lives [] st4 /\ q_state st4 = 4 /\
  lives (demo_head ++ demo_body) st5 /\ q_state st5 = 5 /\
  lives (demo_head ++ demo_body ++ [demo_end]) st6 /\ q_state st6 = 6 /\
  is_message 2 [] (record_message 2 5 [] [] 0).
Proof.
  do 3 eexists. cbv zeta. unfold lives_with. split; [vm_compute; reflexivity|]. split; [reflexivity|].
  split; [vm_compute; reflexivity|]. split; [reflexivity|].
  split; [vm_compute; reflexivity|]. split; [reflexivity|apply record_is_message; reflexivity].
Qed.
