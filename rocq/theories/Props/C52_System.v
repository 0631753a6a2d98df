(** C52, C59: requests and responses through the whole server. *)
From Coq Require Import String List NArith ZArith Bool.
From Verif Require Import Model.Base Model.Protocol Model.Transceiver Model.RequestMap Model.Streams Model.Environment
  Model.Multipart Model.Request Model.System
  Spec.WireSpec Spec.AddressSpec Spec.EnvironmentSpec Spec.RequestSpec Spec.TransceiverSpec Spec.ManagerSpec Spec.SystemSpec Spec.SystemCases
  Proofs.RequestLifeProofs Proofs.SystemEnd Proofs.SystemSeen Proofs.SystemSent Proofs.SystemExamples.
From Verif Require Model.Manager.
Import ListNotations.
Local Open Scope N_scope.

(** C52.  Whatever the network, the threads and the other connections do:
    among the records with its id that the peer sends over its connection, a
    request is made by one that begins a request, and what it is given (besides
    the application's own messages) are those that follow, in order, none
    missing, none twice.  It has handled a beginning of that, and its state is
    that of a request that handled exactly this and nothing else. *)
Theorem C52_handled : forall vts junk http_time k (U : Type) (A : application U) maxPost u x,
  sreach vts junk http_time k A maxPost u x -> Forall ev_ok (y_tr x) ->
  forall s recs i o, on_wire x s recs -> is_request x o (mkRid s i) ->
  exists earlier mb later b,
    records_for i recs = earlier ++ mb :: records_only (given x o) ++ later /\ before x o = earlier ++ [mb] /\
    begins mb = true /\ begin_config maxPost (mkRid s i) mb = Some (y_cfg x o) /\
    (exists waiting, given x o = handled x o ++ waiting) /\
    handler vts junk http_time k A (y_cfg x o) (handled x o) (rq_init u) = Done (b, [], y_rq x o).
Proof. exact (fun v j h k U A m u => handled_is v j h k A m u). Qed.
Print Assumptions C52_handled.

(** When those records are a request of a web server, the calls the
    application gets are the ones for these parameters and this body: so far
    a beginning of them, or all of them and more. *)
Theorem C52_seen : forall vts junk http_time k (U : Type) (A : application U) maxPost u address_of,
  (forall n, length (junk n) = n) ->
  (forall t a, address_text t a -> ~ compat_text t -> address_of t = a) ->
  app_writes (any_char k) A -> app_plain A ->
  forall x, sreach vts junk http_time k A maxPost u x -> Forall ev_ok (y_tr x) ->
  forall s recs i o earlier mb ms later role flags bodies m5 e0 e2,
  on_wire x s recs -> is_request x o (mkRid s i) ->
  records_for i recs = earlier ++ mb :: ms ++ later -> before x o = earlier ++ [mb] ->
  web_begin role flags mb -> web_request vts junk http_time address_of maxPost ms bodies m5 e0 e2 ->
  Forall (fun m => m_type m = 0%Z) (given x o) ->
  exists l, web_calls bodies m5 e0 e2 l /\ agree (q_calls (y_rq x o)) l.
Proof. exact (fun v j h k U A m u => seen v j h k A m u). Qed.
Print Assumptions C52_seen.

(** ... none of which is undefined or never ends. *)
Theorem C52_defined : forall vts junk http_time k (U : Type) (A : application U) maxPost u address_of,
  (forall n, length (junk n) = n) ->
  (forall t a, address_text t a -> ~ compat_text t -> address_of t = a) ->
  app_writes (any_char k) A -> app_plain A ->
  forall x, sreach vts junk http_time k A maxPost u x -> Forall ev_ok (y_tr x) ->
  forall s recs i o earlier mb ms later role flags bodies m5 e0 e2 m wait,
  on_wire x s recs -> is_request x o (mkRid s i) ->
  records_for i recs = earlier ++ mb :: ms ++ later -> before x o = earlier ++ [mb] ->
  web_begin role flags mb -> web_request vts junk http_time address_of maxPost ms bodies m5 e0 e2 ->
  given x o = handled x o ++ m :: wait -> Forall (fun m => m_type m = 0%Z) (given x o) ->
  (length (handled x o) < length ms)%nat ->
  exists r, step vts junk http_time k A (y_cfg x o) m (y_rq x o) = Done r.
Proof. exact (fun v j h k U A m u => defined v j h k A m u). Qed.
Print Assumptions C52_defined.

(** At rest, with a handler thread there and the connection open, a request
    that was begun has got there: the application got all calls for it, and
    no others unless the web server sent more with that id, and what it wrote
    was handed to the transceiver. *)
Theorem C52_completes : forall vts junk http_time k (U : Type) (A : application U) maxPost u address_of,
  (forall n, length (junk n) = n) ->
  (forall t a, address_text t a -> ~ compat_text t -> address_of t = a) ->
  app_writes (any_char k) A -> app_plain A ->
  forall x, sreach vts junk http_time k A maxPost u x -> Forall ev_ok (y_tr x) ->
  forall s recs i o earlier mb ms later role flags bodies m5 e0 e2,
  quiet x s -> Manager.s_waiters (y_man x) <> [] -> Manager.s_stop (y_man x) = false -> Manager.s_terminate (y_man x) = false ->
  all_sent x s recs -> s_valid (t_socks (y_net x) s) = true -> Forall (fun r => fst r <> 65535) recs ->
  is_request x o (mkRid s i) -> records_for i recs = earlier ++ mb :: ms ++ later -> before x o = earlier ++ [mb] ->
  web_begin role flags mb -> web_request vts junk http_time address_of maxPost ms bodies m5 e0 e2 ->
  Forall (fun m => m_type m = 0%Z) (given x o) ->
  exists l tl, web_calls bodies m5 e0 e2 l /\
    q_calls (y_rq x o) = l ++ tl /\ (later = [] -> tl = []) /\ sent_for x o = q_sent (y_rq x o).
Proof. exact (fun v j h k U A m u => completes v j h k A m u). Qed.
Print Assumptions C52_completes.

(** And every record that is to begin a request began one ([g] is empty), or
    was given to a request with the same id that was still there. *)
Theorem C52_begun : forall vts junk http_time k (U : Type) (A : application U) maxPost u x,
  sreach vts junk http_time k A maxPost u x -> Forall ev_ok (y_tr x) ->
  forall s recs i earlier mb later role flags,
  quiet x s -> all_sent x s recs -> s_valid (t_socks (y_net x) s) = true -> i <> 0 -> i <> 65535 ->
  records_for i recs = earlier ++ mb :: later -> web_begin role flags mb ->
  exists o g g', is_request x o (mkRid s i) /\ before x o ++ g = earlier ++ [mb] /\ records_only (given x o) = g ++ g'.
Proof. exact (fun v j h k U A m u => begin_fate v j h k A m u). Qed.
Print Assumptions C52_begun.

(** So the first request with an id always gets there. *)
Theorem C52_arrives : forall vts junk http_time k (U : Type) (A : application U) maxPost u address_of,
  (forall n, length (junk n) = n) ->
  (forall t a, address_text t a -> ~ compat_text t -> address_of t = a) ->
  app_writes (any_char k) A -> app_plain A ->
  forall x, sreach vts junk http_time k A maxPost u x -> Forall ev_ok (y_tr x) ->
  forall s recs i mb ms later role flags bodies m5 e0 e2,
  quiet x s -> Manager.s_waiters (y_man x) <> [] -> Manager.s_stop (y_man x) = false -> Manager.s_terminate (y_man x) = false ->
  all_sent x s recs -> s_valid (t_socks (y_net x) s) = true -> Forall (fun r => fst r <> 65535) recs -> i <> 0 ->
  records_for i recs = mb :: ms ++ later ->
  web_begin role flags mb -> web_request vts junk http_time address_of maxPost ms bodies m5 e0 e2 ->
  (forall o, is_request x o (mkRid s i) -> Forall (fun m => m_type m = 0%Z) (given x o)) ->
  exists o l tl, is_request x o (mkRid s i) /\ before x o = [mb] /\ web_calls bodies m5 e0 e2 l /\
    q_calls (y_rq x o) = l ++ tl /\ (later = [] -> tl = []) /\ sent_for x o = q_sent (y_rq x o).
Proof. exact (fun v j h k U A m u => arrives v j h k A m u). Qed.
Print Assumptions C52_arrives.

(** A state meeting the hypotheses of these theorems: a request with a form
    in two pieces, answered. *)
Example C52_example :
  (qreach quick_end /\ Forall ev_ok (y_tr quick_end) /\ quiet quick_end 1 /\ Manager.s_waiters (y_man quick_end) <> [] /\
   Manager.s_stop (y_man quick_end) = false /\ Manager.s_terminate (y_man quick_end) = false /\ all_sent quick_end 1 quick_recs /\
   s_valid (t_socks (y_net quick_end) 1) = true /\ Forall (fun r => fst r <> 65535) quick_recs /\
   records_for 5 quick_recs = quick_begin :: quick_rest /\ is_request quick_end 0 (mkRid 1 5) /\
   (forall o, is_request quick_end o (mkRid 1 5) -> Forall (fun m => m_type m = 0%Z) (given quick_end o))) /\
  app_writes (any_char Narrow) quick /\ app_plain quick /\ web_begin 1 1 quick_begin /\
  (forall address_of, exists e0 e2,
     web_request (fun b _ => b) (repeat 0) (fun _ => 0%Z) address_of 1000 quick_rest [lit "x=a"; lit "%20b"] demo_end e0 e2 /\
     e_posts e2 = [(lit "x", lit "a b")]) /\
  length (q_calls (y_rq quick_end 0%nat)) = 4%nat.
Proof.
  split; [exact quick_case|]. split; [exact quick_writes|]. split; [exact quick_plain|]. split; [exact quick_begins|].
  split; [exact quick_web|vm_compute; reflexivity].
Qed.

(** And one where two requests with the same id came one after the other. *)
Example C52_again_example :
  (qreach again_end /\ Forall ev_ok (y_tr again_end) /\ quiet again_end 1 /\ Manager.s_waiters (y_man again_end) <> [] /\
   Manager.s_stop (y_man again_end) = false /\ Manager.s_terminate (y_man again_end) = false /\
   all_sent again_end 1 (quick_recs ++ quick_recs) /\ s_valid (t_socks (y_net again_end) 1) = true /\
   Forall (fun r => fst r <> 65535) (quick_recs ++ quick_recs) /\
   records_for 5 (quick_recs ++ quick_recs) = (quick_begin :: quick_rest) ++ quick_begin :: quick_rest ++ [] /\
   is_request again_end 1 (mkRid 1 5) /\ before again_end 1 = (quick_begin :: quick_rest) ++ [quick_begin] /\
   Forall (fun m => m_type m = 0%Z) (given again_end 1)) /\
  length (q_calls (y_rq again_end 1%nat)) = 4%nat.
Proof. split; [exact again_case|vm_compute; reflexivity]. Qed.

(** That every request gets there is false: the web server may use an
    id again as soon as it has the END_REQUEST for it (here [x0]).  If that is
    before the finished request is gone, the record that begins the next one
    is lost on the old one, and the rest is ignored: nothing is ever called or
    answered, though all is quiet and the connection open. *)
Theorem C52_reused_id_refuted : exists (A : application N) (address_of : list N -> list N) (x0 x : sys (U := N)) l1 l2 recs mb ms bodies m5 e0 e2,
  let exec := sexec (fun b _ => b) (repeat 0) (fun _ => 0%Z) Narrow A 1000 0 in
  app_writes (any_char Narrow) A /\ app_plain A /\
  exec l1 (y_init 0) = Some (Done x0) /\ exec l2 x0 = Some (Done x) /\ Forall ev_ok (y_tr x) /\
  all_sent x0 1 recs /\ records_for 5 recs = mb :: ms /\ web_begin 1 1 mb /\
  web_request (fun b _ => b) (repeat 0) (fun _ => 0%Z) address_of 1000 ms bodies m5 e0 e2 /\
  s_out (t_socks (y_net x0) 1) = concat (map p_data (to_peer x0 1)) /\
  (exists pre r, sent_for x0 0 = pre ++ [(r, false)] /\ is_end 5 0 r) /\
  all_sent x 1 (recs ++ recs) /\ quiet x 1 /\ Manager.s_waiters (y_man x) <> [] /\
  Manager.s_stop (y_man x) = false /\ Manager.s_terminate (y_man x) = false /\ s_valid (t_socks (y_net x) 1) = true /\
  (forall o id, is_request x o id -> o = 0%nat) /\ q_calls (y_rq x 0%nat) = q_calls (y_rq x0 0%nat) /\
  s_out (t_socks (y_net x) 1) = s_out (t_socks (y_net x0) 1).
Proof. exact reuse_lost. Qed.
Print Assumptions C52_reused_id_refuted.

(** C59.  The bytes on the wire are those of whole records, in the order in
    which they were sent, cut off somewhere ... *)
Theorem C59_wire : forall vts junk http_time k (U : Type) (A : application U) maxPost u x s,
  sreach vts junk http_time k A maxPost u x -> Forall ev_ok (y_tr x) ->
  exists rest, concat (map p_data (to_peer x s)) = s_out (t_socks (y_net x) s) ++ rest.
Proof. exact (fun v j h k U A m u => wire v j h k A m u). Qed.
Print Assumptions C59_wire.

(** ... each record belonging to one request of that connection, or being the
    answer to a management record; those of a request are in order, and those
    of different requests with the same id follow each other. *)
Theorem C59_whose : forall vts junk http_time k (U : Type) (A : application U) maxPost u x s,
  sreach vts junk http_time k A maxPost u x ->
  one_by_one x (to_peer x s) /\
  (forall o i, is_request x o (mkRid s i) -> map (fun p => (p_data p, p_kill p)) (filter (is_for o) (to_peer x s)) = sent_for x o) /\
  Forall (fun p => match p_req p with
                   | Some o => exists i, is_request x o (mkRid s i)
                   | None => is_unknown (p_data p) /\ p_kill p = false end) (to_peer x s).
Proof. exact (fun v j h k U A m u => whose v j h k A m u). Qed.
Print Assumptions C59_whose.

(** The records of a request carry its id: stream records, then at most one
    END_REQUEST, final exactly if the web server did not ask to keep the
    connection.  Nothing is missing unless a thread is still at it, and a
    request that is gone was ended that way unless its connection was lost. *)
Theorem C59_response : forall vts junk http_time k (U : Type) (A : application U) maxPost u x,
  sreach vts junk http_time k A maxPost u x -> Forall ev_ok (y_tr x) -> app_writes (any_char k) A ->
  forall o s i, is_request x o (mkRid s i) ->
  exists out fin pending, Forall (is_stream i) out /\ sent_for x o ++ pending = map (fun r => (r, false)) out ++ fin /\
    (fin = [] \/ exists r status kill, (status = 0 \/ status = 3) /\ is_end i status r /\ fin = [(r, kill)] /\
       forall earlier mb role flags, before x o = earlier ++ [mb] -> web_begin role flags mb -> kill = negb (N.odd flags)) /\
    (~ worked_on x o -> pending = []) /\
    (~ alive x o -> s_valid (t_socks (y_net x) s) = true -> (forall p, In p (inbox x) -> fst p <> mkRid s 65535) ->
     fin <> [] /\ pending = []).
Proof. exact (fun v j h k U A m u => response v j h k A m u). Qed.
Print Assumptions C59_response.

(** At rest, with the connection open in both directions and nothing queued
    for it, all of it is on the wire. *)
Theorem C59_delivered : forall vts junk http_time k (U : Type) (A : application U) maxPost u x s,
  sreach vts junk http_time k A maxPost u x -> Forall ev_ok (y_tr x) -> quiet x s ->
  s_valid (t_socks (y_net x) s) = true -> s_closing (t_socks (y_net x) s) = false ->
  (forall r, In r (t_queue (y_net x)) -> x_sock r <> s) ->
  s_out (t_socks (y_net x) s) = concat (map p_data (to_peer x s)).
Proof. exact (fun v j h k U A m u => delivered v j h k A m u). Qed.
Print Assumptions C59_delivered.

(** [C52_example] is a state meeting the hypotheses; what is on the wire there
    is one output record and END_REQUEST, and the request is gone. *)
Example C59_example :
  s_closing (t_socks (y_net quick_end) 1) = false /\ t_queue (y_net quick_end) = [] /\ ~ alive quick_end 0 /\
  (forall p, In p (inbox quick_end) -> fst p <> mkRid 1 65535) /\
  s_out (t_socks (y_net quick_end) 1) =
    known [1; 6; 0; 5; 0; 18; 6] ++ [None] ++ known (lit "Status: 200" ++ [13; 10; 13; 10] ++ lit "a b") ++ repeat None 6
    ++ known [1; 3; 0; 5; 0; 8; 0] ++ [None] ++ known [0; 0; 0; 0; 0] ++ repeat None 3.
Proof.
  split; [vm_compute; reflexivity|]. split; [vm_compute; reflexivity|]. split; [vm_compute; discriminate|].
  split; [|vm_compute; reflexivity].
  intros p H. assert (F : Forall (fun p : rid * message => fst p <> mkRid 1 65535) (inbox quick_end)).
  { vm_compute. repeat (constructor; [discriminate|]). constructor. }
  rewrite Forall_forall in F. exact (F p H).
Qed.
