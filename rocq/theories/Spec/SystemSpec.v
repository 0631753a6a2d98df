(** Vocabulary for statements about the whole server. *)
From Coq Require Import String List NArith ZArith Bool.
From Verif Require Import Model.Base Model.Protocol Model.Transceiver Model.RequestMap Model.Environment Model.Multipart
  Model.Request Model.System Spec.EndianSpec Spec.WireSpec Spec.EnvironmentSpec Spec.RequestSpec Spec.TransceiverSpec Spec.ManagerSpec.
From Verif Require Model.Manager.
Import ListNotations.
Local Open Scope N_scope.

Definition rid_eqb (a b : rid) : bool := (r_socket a =? r_socket b) && (r_id a =? r_id b).

(** The messages for one request id. *)
Definition for_rid (id : rid) (l : list (rid * message)) : list message :=
  map snd (filter (fun p => rid_eqb (fst p) id) l).

(** The messages that are records, not the application's own. *)
Definition records_only (l : list message) : list message := filter (fun m => (m_type m =? 0)%Z) l.

(** The records with one id among those a peer sends over a connection (with
    their ids), as messages. *)
Definition records_for (i : N) (recs : list (N * list N)) : list message :=
  map (fun r => mkMsg 0 (snd r)) (filter (fun r => fst r =? i) recs).

Section Spec.
Variable vts : list N -> list N -> list N.
Variable junk : nat -> list N.
Variable http_time : list N -> Z.
Variable k : chars.
Context {U : Type}.
Variable A : application U.
Variable maxPost : N.
Variable u : U.

(** Some execution leads to [x]. *)
Definition sreach (x : sys (U := U)) : Prop :=
  exists l, sexec vts junk http_time k A maxPost u l (y_init u) = Some (Done x).
End Spec.

Section Views.
Context {U : Type}.
Implicit Type x : sys (U := U).

(** The calls the manager was given, in order, and will be given. *)
Definition inbox x : list (rid * message) := map push_of (t_msgs (y_net x)).

(** Records that arrived for the id of request [o] before it came into being
    (its BEGIN_REQUEST being the last of them) and after. *)
Definition before x o : list message := for_rid (Manager.o_rid (Manager.s_objs (y_man x) o)) (firstn (y_at x o) (inbox x)).
Definition since x o : list message := for_rid (Manager.o_rid (Manager.s_objs (y_man x) o)) (skipn (y_at x o) (inbox x)).

(** What the peer has sent over connection [s] so far is a beginning of the
    records [recs]; all of it. *)
Definition on_wire x (s : N) (recs : list (N * list N)) : Prop :=
  Forall (fun '(id, r) => whole_record id r) recs /\
  exists more, concat (map snd recs) = peer_bytes s (y_tr x) ++ more.
Definition all_sent x (s : N) (recs : list (N * list N)) : Prop :=
  Forall (fun '(id, r) => whole_record id r) recs /\ concat (map snd recs) = peer_bytes s (y_tr x).

(** [o] is a request for [id]. *)
Definition is_request x (o : nat) (id : rid) : Prop :=
  (o < Manager.s_next (y_man x))%nat /\ Manager.o_rid (Manager.s_objs (y_man x) o) = id.
Definition alive x (o : nat) : Prop := Manager.o_alive (Manager.s_objs (y_man x) o) = true.

(** The messages request [o] has been given and those it has handled. *)
Definition given x (o : nat) : list message := pushed o (Manager.s_log (y_man x)).
Definition handled x (o : nat) : list message := taken o (Manager.s_log (y_man x)).

(** What was sent for request [o]. *)
Definition is_for (o : nat) (p : parcel) : bool := match p_req p with Some o' => Nat.eqb o o' | None => false end.
Definition sent_for x (o : nat) : list (list obyte * bool) :=
  map (fun p => (p_data p, p_kill p)) (filter (is_for o) (y_sent x)).

(** Nothing is going on: every thread is waiting or outside of the manager,
    the I/O thread waits for the network and has read all there is of
    connection [s]. *)
Definition quiet x (s : N) : Prop :=
  (forall t, idle (y_man x) t) /\ io_free x = true /\ t_pc (y_net x) = AtPoll /\ s_in (t_socks (y_net x) s) = [].
End Views.

(** [mb] is the record a web server begins a request with: for the role given
    (responder or authorizer), flags as given. *)
Definition web_begin (role flags : N) (mb : message) : Prop :=
  (role = 1 \/ role = 2) /\ exists rest, is_message 1 ([0; role; flags] ++ rest) mb.

(** [ms] are the records that follow: parameters, describing [e0], their end,
    the body in pieces, the last record [m5] (the end of the body); the body
    is no longer than announced and than permitted, and is understood, which
    gives [e2]. *)
Definition web_request vts junk http_time address_of (maxPost : N) (ms : list message) (bodies : list (list N))
    (m5 : message) (e0 e2 : env) : Prop :=
  exists rs ms4 m4 ms5, ms = ms4 ++ [m4] ++ ms5 ++ [m5] /\
    Forall2 params_message rs ms4 /\ is_message 4 [] m4 /\
    Forall2 (is_message 5) bodies ms5 /\ Forall (fun c => c <> []) bodies /\ is_message 5 [] m5 /\
    e0 = describe vts http_time address_of env_init (concat (map p_params rs)) /\
    e_contentLength e0 <= maxPost /\ len (concat bodies) <= e_contentLength e0 /\
    parsePostBuffer vts junk (set_postBuffer (concat bodies) e0) = Done (true, e2).

(** The calls the application then gets. *)
Definition web_calls (bodies : list (list N)) (m5 : message) (e0 e2 : env) (l : list call) : Prop :=
  exists calls, in_calls bodies calls /\
    l = calls ++ [CInProcessor (set_postBuffer (concat bodies) e0); CResponse (set_postBuffer [] e2) m5].

(** One list is a beginning of the other. *)
Definition agree {T} (a b : list T) : Prop := (exists tl, b = a ++ tl) \/ (exists tl, a = b ++ tl).

(** What was sent over connection [s], in order. *)
Definition to_peer {U} (x : sys (U := U)) (s : N) : list parcel := filter (fun p => p_sock p =? s) (y_sent x).

(** Requests with the same id on the same connection follow each other. *)
Definition one_by_one {U} (x : sys (U := U)) (l : list parcel) : Prop :=
  ForallOrdPairs (fun p q => forall o o', p_req p = Some o -> p_req q = Some o' ->
    Manager.o_rid (Manager.s_objs (y_man x) o) = Manager.o_rid (Manager.s_objs (y_man x) o') -> (o <= o')%nat) l.

(** The answer to a management record of unknown type. *)
Definition is_unknown (r : list obyte) : Prop :=
  forall bytes, may_be r bytes -> exists type reserved, length reserved = 7%nat /\ is_record 11 0 (type :: reserved) bytes.

(** A thread is working on request [o]. *)
Definition worked_on {U} (x : sys (U := U)) (o : nat) : Prop :=
  exists t id, Manager.t_base (Manager.s_threads (y_man x) t) = Manager.RGot id o \/
               Manager.t_base (Manager.s_threads (y_man x) t) = Manager.RProc id o.
