(** Vocabulary for the life of a request. *)
From Coq Require Import String List NArith ZArith Bool.
From Verif Require Import Model.Base Model.Streams Model.Environment Model.Multipart Model.Request
  Spec.EndianSpec Spec.WireSpec Spec.StreamSpec Spec.EnvironmentSpec.
Import ListNotations.
Local Open Scope N_scope.

(** What an application may write: on a narrow stream characters are bytes, on
    a wide one anything; raw data are bytes and [istream::read] yields no more
    than the 65535 bytes asked for. *)
Definition op_chars (P : N -> Prop) (o : sop) : Prop :=
  match o with
  | OpWrite s => Forall P s
  | OpPut c => P c
  | OpDump d => Forall (fun b => b < 256) d
  | OpDumpStream reads => Forall (fun r => Forall (fun b => b < 256) r /\ N.of_nat (length r) <= 65535) reads
  | _ => True
  end.

Definition any_char (k : chars) (c : N) : Prop :=
  match k with Narrow => c < 256 | Wide _ => True end.
(** Characters that exist. *)
Definition real_char (k : chars) (c : N) : Prop :=
  match k with Narrow => c < 256 | Wide _ => scalar c end.

Definition writes {U} (A : application U) (c : call) (u : U) : list (bool * sop) := snd (fst (a_call A c u)).
Definition app_writes {U} (P : N -> Prop) (A : application U) : Prop :=
  forall c u, Forall (fun x => op_chars P (snd x)) (writes A c u).

Definition call_env (c : call) : env :=
  match c with
  | CResponse e _ | CIn e _ | CInProcessor e | CError e | CBigPost e | CUnknownContent e => e
  end.

(** A call leaves the announced length and the raw body alone. *)
Definition tame_at {U} (A : application U) (c : call) : Prop :=
  forall u, let e' := snd (fst (fst (a_call A c u))) in
    e_contentLength e' = e_contentLength (call_env c) /\ e_postBuffer e' = e_postBuffer (call_env c).
Definition app_tame {U} (A : application U) : Prop := forall c, tame_at A c.

(** [r] is an output or error record of request [id]. *)
Definition is_stream (id : N) (r : list (option N)) : Prop :=
  exists type content, (type = 6 \/ type = 7) /\ carries type id r content.

(** [r] is the END_REQUEST record of request [id] with application status 0
    and the given protocol status, whatever its indeterminate bytes are. *)
Definition is_end (id status : N) (r : list (option N)) : Prop :=
  (exists bytes, may_be r bytes) /\
  forall bytes, may_be r bytes ->
    exists x y z, is_record 3 id [0; 0; 0; 0; status; x; y; z] bytes.

(** The text carried by the records of one type among [rs]; the others are
    surely of another type. *)
Inductive stream_text (type id : N) : list (list (option N)) -> list N -> Prop :=
| st_nil : stream_text type id [] []
| st_hit : forall r c rs t, carries type id r c -> stream_text type id rs t ->
    stream_text type id (r :: rs) (c ++ t)
| st_miss : forall r rs t, (forall bytes, may_be r bytes -> nth 1 bytes 0 <> type) ->
    stream_text type id rs t -> stream_text type id (r :: rs) t.

(** The operations on [err] (true) or [out] (false). *)
Definition ops_on (b : bool) (l : list (bool * sop)) : list sop :=
  map snd (filter (fun x => Bool.eqb (fst x) b) l).

(** Bytes of a text. *)
Definition encode (k : chars) (s : list N) : list N :=
  match k with Narrow => s | Wide _ => utf8 s end.

(** A FastCGI record as a message. *)
Definition record_message (type id : N) (content padding : list N) (reserved : N) : message :=
  mkMsg 0 (record_bytes type id content padding reserved).

(** [m] is a record of the given type and content, whatever its id, version,
    padding and reserved byte. *)
Definition is_message (type : N) (content : list N) (m : message) : Prop :=
  m_type m = 0%Z /\ len content < 65536 /\
  exists version id padLen reserved padding,
    m_data m = [version; type] ++ be_digits 2 id ++ be_digits 2 (len content)
               ++ [padLen; reserved] ++ content ++ padding.

(** A state the request is in while it lives: between two messages, having
    received [ms]. *)
Definition lives_with vts junk http_time k {U} (A : application U) cfg u ms (st : rq U) : Prop :=
  handler vts junk http_time k A cfg ms (rq_init u) = Done (false, [], st).

(** Message [m] ends the request: exactly [calls] are made to the application,
    and what is sent is the end of the output, then END_REQUEST with
    [status]. *)
Definition ends_with vts junk http_time k {U} (A : application U) cfg u ms m (st : rq U)
    (status : N) (calls : list call) (ops : list (bool * sop)) : Prop :=
  exists st' new r,
    handler vts junk http_time k A cfg (ms ++ [m]) (rq_init u) = Done (true, [], st') /\
    q_calls st' = q_calls st ++ calls /\ q_ops st' = q_ops st ++ ops /\
    q_sent st' = q_sent st ++ map (fun r => (r, false)) new ++ [(r, c_kill cfg)] /\
    Forall (is_stream (c_id cfg)) new /\ is_end (c_id cfg) status r.

(** The application does not override the functions called while the body
    arrives (request.hpp 254-290). *)
Definition app_plain {U} (A : application U) : Prop :=
  forall c u, match c with CIn _ _ | CInProcessor _ => a_call A c u = default_call c u | _ => True end.

(** A PARAMS record as a message. *)
Definition params_message (r : params_record) (m : message) : Prop :=
  params_record_ok r /\ p_content r <> [] /\ is_message 4 (p_content r) m /\
  m_data m = p_header r ++ p_content r ++ p_padding r.

(** The calls made while a body arrives in the given pieces. *)
Inductive in_calls : list (list N) -> list call -> Prop :=
| ic_nil : in_calls [] []
| ic_cons : forall c e bodies calls, in_calls bodies calls -> in_calls (c :: bodies) (CIn e (len c) :: calls).
