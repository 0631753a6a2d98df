(** C65: the pages of the handlers an application does not override. *)
From Coq Require Import String List NArith ZArith Bool.
From Verif Require Import Model.Base Model.Protocol Model.WebMaps Model.Streams Model.Environment Model.Request
  Spec.WireSpec Spec.StreamSpec Spec.EnvironmentSpec Spec.RequestSpec Spec.PageSpec
  Proofs.RequestLifeProofs Proofs.PageProofs Proofs.PageExamples.
Import ListNotations.
Local Open Scope N_scope.

(** A record out of order before the first response: the 500 page and nothing
    else. *)
Theorem C65_disorder : forall vts junk http_time k (U : Type) (A : application U) cfg u ms st m type content,
  c_id cfg < 65536 -> app_writes (real_char k) A -> only_responds A ->
  lives_with vts junk http_time k A cfg u ms st -> unanswered st ->
  is_message type content m -> type <> 2 -> type <> q_state st ->
  answered vts junk http_time k A cfg u (ms ++ [m]) 0 page_500.
Proof. exact (fun v j h k U A c => page_disorder v j h k A c). Qed.
Print Assumptions C65_disorder.

(** A role the library does not play: the same page, status UNKNOWN_ROLE. *)
Theorem C65_role : forall vts junk http_time k (U : Type) (A : application U) cfg u ms st m content,
  c_id cfg < 65536 -> app_writes (real_char k) A -> only_responds A ->
  lives_with vts junk http_time k A cfg u ms st -> unanswered st -> q_state st = 4 ->
  is_message 4 content m -> c_role cfg <> 1 -> c_role cfg <> 2 ->
  answered vts junk http_time k A cfg u (ms ++ [m]) 3 page_500.
Proof. exact (fun v j h k U A c => page_role v j h k A c). Qed.
Print Assumptions C65_role.

(** A body announced to be too long, and one longer than announced. *)
Theorem C65_announced : forall vts junk http_time k (U : Type) (A : application U) cfg u ms st m,
  c_id cfg < 65536 -> app_writes (real_char k) A -> only_responds A ->
  lives_with vts junk http_time k A cfg u ms st -> unanswered st -> q_state st = 4 ->
  is_message 4 [] m -> c_role cfg = 1 \/ c_role cfg = 2 -> c_maxPost cfg < e_contentLength (q_env st) ->
  answered vts junk http_time k A cfg u (ms ++ [m]) 0 page_413.
Proof. exact (fun v j h k U A c => page_announced v j h k A c). Qed.
Print Assumptions C65_announced.

Theorem C65_too_much : forall vts junk http_time k (U : Type) (A : application U) cfg u ms st m content,
  c_id cfg < 65536 -> app_writes (real_char k) A -> only_responds A ->
  lives_with vts junk http_time k A cfg u ms st -> unanswered st -> q_state st = 5 ->
  is_message 5 content m -> content <> [] ->
  e_contentLength (q_env st) < len (e_postBuffer (q_env st)) + len content ->
  answered vts junk http_time k A cfg u (ms ++ [m]) 0 page_413.
Proof. exact (fun v j h k U A c => page_too_much v j h k A c). Qed.
Print Assumptions C65_too_much.

(** A body of a type the library cannot parse. *)
Theorem C65_unknown : forall vts junk http_time k (U : Type) (A : application U) cfg u ms st m,
  c_id cfg < 65536 -> app_writes (real_char k) A -> only_responds A ->
  lives_with vts junk http_time k A cfg u ms st -> unanswered st -> q_state st = 5 ->
  is_message 5 [] m -> e_postBuffer (q_env st) <> [] ->
  e_contentType (q_env st) <> lit "multipart/form-data" ->
  e_contentType (q_env st) <> lit "application/x-www-form-urlencoded" ->
  answered vts junk http_time k A cfg u (ms ++ [m]) 0 page_415.
Proof. exact (fun v j h k U A c => page_unknown v j h k A c). Qed.
Print Assumptions C65_unknown.

(** An abort: no text at all. *)
Theorem C65_abort : forall vts junk http_time k (U : Type) (A : application U) cfg u ms st m content,
  c_id cfg < 65536 -> app_writes (real_char k) A -> only_responds A ->
  lives_with vts junk http_time k A cfg u ms st -> unanswered st -> is_message 2 content m ->
  answered vts junk http_time k A cfg u (ms ++ [m]) 0 [].
Proof. exact (fun v j h k U A c => page_abort v j h k A c). Qed.
Print Assumptions C65_abort.

(** Once [response] has written something, the page comes after it, status
    line and all, provided the application left the escaping alone. *)
Theorem C65_after_output : forall vts junk http_time k (U : Type) (A : application U) cfg u ms st m type content text,
  c_id cfg < 65536 -> app_writes (real_char k) A -> only_responds A ->
  lives_with vts junk http_time k A cfg u ms st ->
  is_message type content m -> type <> 2 -> type <> q_state st ->
  text_of (encode k) E_NONE (ops_on false (q_ops st)) = text ->
  Forall (fun x => forall e, snd x <> OpEnc e) (q_ops st) ->
  exists st' recs r,
    handler vts junk http_time k A cfg (ms ++ [m]) (rq_init u) = Done (true, [], st') /\
    q_sent st' = map (fun r => (r, false)) recs ++ [(r, c_kill cfg)] /\ is_end (c_id cfg) 0 r /\
    stream_text 6 (c_id cfg) recs (text ++ page_500).
Proof. exact (fun v j h k U A c => page_after v j h k A c). Qed.
Print Assumptions C65_after_output.

(** Refuted without that proviso: an application waiting for a message with
    html escaping on gets the page escaped, its tags turned to text. *)
Theorem C65_escaped_refuted : exists (A : application unit) ms st l1 l2 pl pad,
  only_responds A /\
  handler (fun b _ => b) (repeat 0) (fun _ => 0%Z) Narrow A demo_cfg ms (rq_init tt) = Done (true, [], st) /\
  q_sent st = [([Some 1; Some 6; Some 0; Some 5; Some l1; Some l2; Some pl; None] ++ known shouted ++ pad, false);
               (end_record 5 0, true)].
Proof. exact page_escaped. Qed.
Print Assumptions C65_escaped_refuted.

(** A request of the demonstration application whose body is expected next,
    and which gets a PARAMS record instead. *)
Example C65_example : exists st, demo_lives demo_head st /\ q_state st = 5 /\ unanswered st /\
  only_responds demo /\ is_message 4 [] (record_message 4 5 [] [] 0).
Proof.
  destruct demo_early as (st & L & S & N). exists st. split; [exact L|]. split; [exact S|]. split; [exact N|].
  split; [exact demo_only|].
  apply record_is_message; reflexivity.
Qed.
