(** C62: a message sent with the callback of a request reaches that request. *)
From Coq Require Import String List NArith ZArith Bool Arith.
From Verif Require Import Model.Base Model.Protocol Model.Transceiver Model.RequestMap Model.Streams Model.Environment
  Model.Manager Model.Request Model.System Spec.TransceiverSpec Spec.ManagerSpec Spec.SystemSpec Spec.ManagerCases Spec.CallbackSpec
  Spec.CallbackCases Proofs.CallbackProofs Proofs.CallbackExamples.
Import ListNotations.

(** What a request is given that no record of the web server is, somebody sent
    with the callback of a request of the same connection and id ... *)
Theorem C62_same_id : forall vts junk http_time k (U : Type) (A : application U) maxPost u l (x : sys (U := U)),
  sexec vts junk http_time k A maxPost u l (y_init u) = Some (Done x) ->
  forall o m, In m (given x o) -> m_type m <> 0%Z ->
  exists t, In (SMan t (APush (o_rid (s_objs (y_man x) o)) m)) l.
Proof. exact callback_same_id. Qed.
Print Assumptions C62_same_id.

(** ... and each message once at most: counting those [P] is about, requests
    with an id are given no more than were sent to that id. *)
Theorem C62_at_most_once : forall vts junk http_time k (U : Type) (A : application U) maxPost u P id,
  (forall m, P m = true -> m_type m <> 0%Z) -> forall l (x : sys (U := U)),
  sexec vts junk http_time k A maxPost u l (y_init u) = Some (Done x) ->
  deliveries P id (y_man x) <= callbacks P id l.
Proof. exact (fun v j h k U A mp u => callback_once v j h k A mp u). Qed.
Print Assumptions C62_at_most_once.

Example C62_example_once :
  sexec (fun b _ => b) (repeat 0%N) (fun _ => 0%Z) Narrow asking 1000 0%N (late_run1 ++ late_call :: late_run2) (y_init 0%N) = Some (Done late_end) /\
  given late_end 1 = [late_answer] /\ In late_call (late_run1 ++ late_call :: late_run2) /\
  deliveries (fun m => (m_type m =? 1)%Z) (mkRid 1 5) (y_man late_end) = 1 /\
  callbacks (fun m => (m_type m =? 1)%Z) (mkRid 1 5) (late_run1 ++ late_call :: late_run2) = 1.
Proof.
  split; [exact late_whole|]. split; [vm_compute; reflexivity|]. split; [exact (in_elt late_call late_run1 late_run2)|].
  split; vm_compute; reflexivity.
Qed.

(** If the request is there all the time, it gets the message. *)
Theorem C62_arrives : forall (M : Type) (begins : M -> bool) l (s0 s1 s2 : Manager.state M) t id o m, reachable begins s0 ->
  o_alive (s_objs s0 o) = true -> o_rid (s_objs s0 o) = id -> Manager.step begins t (APush id m) s0 = Some s1 ->
  throughout begins (fun s => o_alive (s_objs s o) = true) l s1 -> exec begins l s1 = Some s2 -> t_push (s_threads s2 t) = None ->
  In m (pushed o (s_log s2)).
Proof. exact @arrives. Qed.
Print Assumptions C62_arrives.

Example C62_example_arrives : after (do_sleep 1 ++ do_begin a1) (fun s0 => reachable is_begin s0 /\
  o_alive (s_objs s0 0) = true /\ o_rid (s_objs s0 0) = a1 /\
  exists s1 s2, Manager.step is_begin 7 (APush a1 3%N) s0 = Some s1 /\
    throughout is_begin (fun s => o_alive (s_objs s 0) = true) (run 7 6) s1 /\
    exec is_begin (run 7 6) s1 = Some s2 /\ t_push (s_threads s2 7) = None).
Proof.
  eexists. split; [vm_compute; reflexivity|]. split; [exists (do_sleep 1 ++ do_begin a1); vm_compute; reflexivity|].
  split; [reflexivity|]. split; [reflexivity|]. do 2 eexists. split; [vm_compute; reflexivity|].
  split; [|split; [vm_compute; reflexivity|reflexivity]].
  intros l1 l2 s' E N X.
  destruct l1 as [|p1 [|p2 [|p3 [|p4 [|p5 [|p6 l1]]]]]]; cbn in E; inversion E; subst;
    try (vm_compute in X; injection X as <-; vm_compute; reflexivity).
  exfalso. apply N. match goal with H : [] = _ ++ _ |- _ => now destruct (app_eq_nil _ _ (eq_sym H)) end.
Qed.

(** But if the request is gone and the web server uses its id again, another
    request gets the message: at once, before it knows what it was asked for,
    its [response] is called with it, and what it answers goes out. *)
Theorem C62_another_request_refuted : exists (A : application N) (l1 l2 : list sev) t m (x0 x : sys (U := N)) data,
  let exec := sexec (fun b _ => b) (repeat 0%N) (fun _ => 0%Z) Narrow A 1000 0%N in
  exec l1 (y_init 0%N) = Some (Done x0) /\ exec (SMan t (APush (mkRid 1 5) m) :: l2) x0 = Some (Done x) /\
  Forall ev_ok (y_tr x) /\ m_type m = 1%Z /\
  (forall t' id' m', ~ In (SMan t' (APush id' m')) (l1 ++ l2)) /\
  is_request x0 0 (mkRid 1 5) /\ ~ alive x0 0 /\ is_request x0 1 (mkRid 1 5) /\ alive x0 1 /\ given x0 1 = [] /\
  handled x 1 = [m] /\ q_calls (y_rq x 1) = [CResponse env_init m] /\
  sent_for x 1 = [(data, false)] ++ skipn 1 (sent_for x 1) /\
  (exists h p, length h = 8 /\ data = h ++ map Some (m_data m) ++ p) /\
  (exists rest, s_out (t_socks (y_net x) 1) = s_out (t_socks (y_net x0) 1) ++ data ++ rest).
Proof. exact late_callback. Qed.
Print Assumptions C62_another_request_refuted.
