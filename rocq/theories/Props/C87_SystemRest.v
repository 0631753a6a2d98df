(** C87.  The whole server goes on until all is handled and written. *)
From Coq Require Import String List NArith ZArith Bool.
From Verif Require Import Model.Base Model.Protocol Model.Transceiver Model.RequestMap Model.Streams Model.Environment
  Model.Multipart Model.Request Model.System
  Spec.WireSpec Spec.AddressSpec Spec.EnvironmentSpec Spec.RequestSpec Spec.TransceiverSpec Spec.ManagerSpec
  Spec.TransmitProgressSpec Spec.SystemSpec Spec.SystemRestSpec Spec.SystemCases
  Proofs.RequestLifeProofs Proofs.SystemRest Proofs.SystemAnswered.
From Verif Require Model.Manager.
Import ListNotations.

(** As long as nothing more is read and no other call is made, the threads
    take finitely many steps, however they take turns and whatever the
    application does. *)
Theorem C87_comes_to_rest : forall vts junk http_time k (U : Type) (A : application U) maxPost u x,
  sreach vts junk http_time k A maxPost u x ->
  ~ exists f : nat -> sys, f 0 = x /\ forall i, proceeds vts junk http_time k A maxPost u (f i) (f (S i)).
Proof. exact (fun v j h k U A m u => no_endless_run v j h k A m u). Qed.
Print Assumptions C87_comes_to_rest.

Theorem C87_well_founded : forall vts junk http_time k (U : Type) (A : application U) maxPost u x,
  sreach vts junk http_time k A maxPost u x -> Acc (fun x' x => proceeds vts junk http_time k A maxPost u x x') x.
Proof. exact (fun v j h k U A m u => well_founded_from v j h k A m u). Qed.
Print Assumptions C87_well_founded.

(** They then have nothing to do: the handler threads wait or have ended, all
    messages read have been pushed, all that requests sent was handed to the
    transceiver. *)
Theorem C87_rest : forall vts junk http_time k (U : Type) (A : application U) maxPost u x,
  sreach vts junk http_time k A maxPost u x -> Forall ev_ok (y_tr x) -> orderly (y_man x) -> no_dangling x ->
  resting vts junk http_time k A maxPost u x ->
  (forall t, idle (y_man x) t) /\ io_free x = true /\ forall t, y_out x t = [].
Proof. exact (fun v j h k U A m u => rest_means v j h k A m u). Qed.
Print Assumptions C87_rest.

(** There is always a thread that can go on, the I/O thread if no other. *)
Theorem C87_never_stuck : forall vts junk http_time k (U : Type) (A : application U) maxPost u x,
  sreach vts junk http_time k A maxPost u x -> Forall ev_ok (y_tr x) -> orderly (y_man x) -> no_dangling x ->
  (exists v r, within v /\ sstep vts junk http_time k A maxPost u v x = Some r) \/
  exists e x', io e = true /\ reading e /\ sstep vts junk http_time k A maxPost u (SNet e) x = Some (Done x').
Proof. exact (fun v j h k U A m u => never_stuck v j h k A m u). Qed.
Print Assumptions C87_never_stuck.

(** What was sent so far is with the kernel after so many steps of the I/O
    thread, whatever the threads and the network do meanwhile. *)
Theorem C87_written : forall vts junk http_time k (U : Type) (A : application U) maxPost u x l x',
  sreach vts junk http_time k A maxPost u x -> sexec vts junk http_time k A maxPost u l x = Some (Done x') ->
  Forall ev_ok (y_tr x') -> Forall reading (net_of l) ->
  5 * bytes_waiting (y_net x) + 2 * length (waiting (y_net x)) + 5 <= io_steps (net_of l) ->
  forall s, s_valid (t_socks (y_net x') s) = true -> s_closing (t_socks (y_net x') s) = false ->
  (exists more, s_out (t_socks (y_net x') s) = concat (map p_data (to_peer x s)) ++ more) /\
  Forall (fun p => p_kill p = false) (to_peer x s).
Proof. exact (fun v j h k U A m u => all_written v j h k A m u). Qed.
Print Assumptions C87_written.

(** So a request of a web server, the first with its id, that has been read
    when the threads are at rest got all its calls, and its answer is on the
    wire, with all else sent over the connection before, after so many steps
    more. *)
Theorem C87_answered : forall vts junk http_time k (U : Type) (A : application U) maxPost u address_of,
  (forall n, length (junk n) = n) ->
  (forall t a, address_text t a -> ~ compat_text t -> address_of t = a) ->
  app_writes (any_char k) A -> app_plain A ->
  forall x, sreach vts junk http_time k A maxPost u x -> Forall ev_ok (y_tr x) ->
  resting vts junk http_time k A maxPost u x -> orderly (y_man x) -> no_dangling x ->
  forall s recs i mb ms later role flags bodies m5 e0 e2,
  t_pc (y_net x) = AtPoll -> s_in (t_socks (y_net x) s) = [] ->
  Manager.s_waiters (y_man x) <> [] -> Manager.s_stop (y_man x) = false -> Manager.s_terminate (y_man x) = false ->
  all_sent x s recs -> s_valid (t_socks (y_net x) s) = true -> Forall (fun r => fst r <> 65535%N) recs -> i <> 0%N ->
  records_for i recs = mb :: ms ++ later ->
  web_begin role flags mb -> web_request vts junk http_time address_of maxPost ms bodies m5 e0 e2 ->
  (forall o, is_request x o (mkRid s i) -> Forall (fun m => m_type m = 0%Z) (given x o)) ->
  exists o calls tl, is_request x o (mkRid s i) /\ web_calls bodies m5 e0 e2 calls /\
    q_calls (y_rq x o) = calls ++ tl /\ (later = [] -> tl = []) /\
    map (fun p => (p_data p, p_kill p)) (filter (is_for o) (to_peer x s)) = q_sent (y_rq x o) /\
    forall l x', sexec vts junk http_time k A maxPost u l x = Some (Done x') -> Forall ev_ok (y_tr x') -> Forall reading (net_of l) ->
      5 * bytes_waiting (y_net x) + 2 * length (waiting (y_net x)) + 5 <= io_steps (net_of l) ->
      s_valid (t_socks (y_net x') s) = true -> s_closing (t_socks (y_net x') s) = false ->
      exists more, s_out (t_socks (y_net x') s) = concat (map p_data (to_peer x s)) ++ more.
Proof. exact answered. Qed.
Print Assumptions C87_answered.

(** The server at rest with an answer not yet written, and then; the other
    hypotheses are those of C52_example. *)
Example C87_example : (qreach waits_end /\ Forall ev_ok (y_tr waits_end) /\
  resting (fun b _ => b) (repeat 0%N) (fun _ => 0%Z) Narrow quick 1000 0%N waits_end /\ orderly (y_man waits_end) /\ no_dangling waits_end /\
  t_pc (y_net waits_end) = AtPoll /\ s_in (t_socks (y_net waits_end) 1) = [] /\ Manager.s_waiters (y_man waits_end) <> [] /\
  Manager.s_stop (y_man waits_end) = false /\ Manager.s_terminate (y_man waits_end) = false /\ all_sent waits_end 1 quick_recs /\
  s_valid (t_socks (y_net waits_end) 1) = true /\ Forall (fun r => fst r <> 65535%N) quick_recs /\
  records_for 5 quick_recs = quick_begin :: quick_rest ++ [] /\
  (forall o, is_request waits_end o (mkRid 1 5) -> Forall (fun m => m_type m = 0%Z) (given waits_end o))) /\
  qexec writes_run waits_end = Some (Done written_end) /\ Forall ev_ok (y_tr written_end) /\
  Forall reading (net_of writes_run) /\ bytes_waiting (y_net waits_end) = 48 /\ length (waiting (y_net waits_end)) = 2 /\
  io_steps (net_of writes_run) = 604 /\ s_valid (t_socks (y_net written_end) 1) = true /\ s_closing (t_socks (y_net written_end) 1) = false /\
  s_out (t_socks (y_net waits_end) 1) = [] /\ length (s_out (t_socks (y_net written_end) 1)) = 48.
Proof. split; [exact waits_case|exact written_case]. Qed.

(** A state on the way there. *)
Example C87_on_the_way : qreach mid_end /\ Forall ev_ok (y_tr mid_end) /\ orderly (y_man mid_end) /\ no_dangling mid_end /\
  exists x', proceeds (fun b _ => b) (repeat 0%N) (fun _ => 0%Z) Narrow quick 1000 0%N mid_end x'.
Proof. exact mid_case. Qed.
