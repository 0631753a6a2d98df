(** C28-C33, C51, C55-C57: the threads of the manager. *)
From Coq Require Import List NArith Bool Arith.
From Verif Require Import Model.Base Model.RequestMap Model.Manager Spec.ManagerSpec Spec.ManagerCases Proofs.ManagerUse Proofs.ManagerHist.
Import ListNotations.

(** C28.  No two threads are in the handler of one request. *)
Theorem C28_one_handler : forall (M : Type) (begins : M -> bool) (s : Manager.state M), reachable begins s ->
  forall t t' o, in_handler s t o -> in_handler s t' o -> t = t'.
Proof. exact @one_handler. Qed.
Print Assumptions C28_one_handler.

Example C28_example : after case_handling (fun s => reachable is_begin s /\ in_handler s 1 0 /\ s_tasks s = [a1]).
Proof.
  eexists. split; [vm_compute; reflexivity|]. split; [exists case_handling; vm_compute; reflexivity|].
  split; [exists a1; vm_compute; auto|reflexivity].
Qed.

(** C29.  A message in the queue of a live request is never stranded. *)
Theorem C29_not_stranded : forall (M : Type) (begins : M -> bool) (s : Manager.state M), reachable begins s ->
  forall o, o_alive (s_objs s o) = true -> o_queue (s_objs s o) <> [] ->
  In (o_rid (s_objs s o)) (s_tasks s) \/ (exists t, queueing s t (o_rid (s_objs s o))) \/ (exists t, looking s t (o_rid (s_objs s o))) \/
  (exists t, will_look s t o) \/ (exists t, removing s t o).
Proof. exact @not_stranded. Qed.
Print Assumptions C29_not_stranded.

(** Nor do all threads sleep while there is a task. *)
Theorem C29_somebody_awake : forall (M : Type) (begins : M -> bool) (s : Manager.state M), reachable begins s ->
  s_terminate s = false -> s_stop s = false -> s_tasks s <> [] -> s_waiters s <> [] -> exists t, awake s t.
Proof. exact @somebody_awake. Qed.
Print Assumptions C29_somebody_awake.

(** So when everything has come to rest, every message was taken. *)
Theorem C29_rest : forall (M : Type) (begins : M -> bool) (s : Manager.state M), reachable begins s ->
  s_terminate s = false -> s_stop s = false -> (forall t, idle s t) -> s_waiters s <> [] ->
  s_tasks s = [] /\ forall o, o_alive (s_objs s o) = true -> o_queue (s_objs s o) = [].
Proof. exact @quiet. Qed.
Print Assumptions C29_rest.

Example C29_example_queued : after case_handling (fun s =>
  reachable is_begin s /\ o_alive (s_objs s 0) = true /\ o_queue (s_objs s 0) = [8%N] /\ will_look s 1 0).
Proof.
  eexists. split; [vm_compute; reflexivity|]. split; [exists case_handling; vm_compute; reflexivity|].
  split; [reflexivity|]. split; [reflexivity|]. right. exists a1. vm_compute. auto.
Qed.

Example C29_example_rest : after (do_begin a1 ++ do_push a1 7 ++ do_take 1 ++ run 1 3 ++ (1, AReturn false) :: run 1 10)
  (fun s => s_terminate s = false /\ s_stop s = false /\ (forall t, idle s t) /\ s_waiters s = [1] /\
    o_alive (s_objs s 0) = true /\ taken 0 (s_log s) = [7%N]).
Proof.
  eexists. split; [vm_compute; reflexivity|]. repeat split; try reflexivity; destruct t as [|[|t]]; vm_compute; auto.
Qed.

(** C30.  What was pushed to a request is what its handler took, in this
    order, and then what is still in the queue. *)
Theorem C30_in_order : forall (M : Type) (begins : M -> bool) (s : Manager.state M), reachable begins s ->
  forall o, pushed o (s_log s) = taken o (s_log s) ++ o_queue (s_objs s o).
Proof. exact @in_order. Qed.
Print Assumptions C30_in_order.

Example C30_example : after case_handling (fun s =>
  reachable is_begin s /\ pushed 0 (s_log s) = [7; 8]%N /\ taken 0 (s_log s) = [7%N] /\ o_queue (s_objs s 0) = [8%N]).
Proof.
  eexists. split; [vm_compute; reflexivity|]. split; [exists case_handling; vm_compute; reflexivity|]. repeat split; reflexivity.
Qed.

(** C31.  A thread that uses a request uses a live one, but for one place:
    the end of [Request_base::mutex]'s protection at line 302, after which
    line 303 still unlocks [m_messagesMutex] in the request. *)
Theorem C31_use_while_alive : forall (M : Type) (begins : M -> bool) (s : Manager.state M), reachable begins s ->
  forall t o, uses s t o -> o_alive (s_objs s o) = true \/
  exists id sk, t_base (s_threads s t) = HKeep2 id o /\ t_push (s_threads s t) = None /\ In (ELost o sk) (s_log s).
Proof. exact @use_while_alive. Qed.
Print Assumptions C31_use_while_alive.

(** There the claim fails. *)
Theorem C31_use_while_alive_refuted : exists (s : Manager.state N) t o,
  reachable is_begin s /\ uses s t o /\ o_alive (s_objs s o) = false.
Proof. exact freed_used. Qed.
Print Assumptions C31_use_while_alive_refuted.

(** A request ends because it was complete or because a connection was
    lost. *)
Theorem C31_destroyed_why : forall (M : Type) (begins : M -> bool) (s : Manager.state M), reachable begins s ->
  forall o, o < s_next s -> o_alive (s_objs s o) = false ->
  (exists sk, In (ELost o sk) (s_log s)) \/ In (EEnded o) (s_log s).
Proof. exact @destroyed_why. Qed.
Print Assumptions C31_destroyed_why.

Example C31_example : after case_release (fun s => reachable is_begin s /\ uses s 1 0 /\ o_alive (s_objs s 0) = true).
Proof.
  eexists. split; [vm_compute; reflexivity|]. split; [exists case_release; vm_compute; reflexivity|]. split; reflexivity.
Qed.

Example C31_example_ended : after case_stop (fun s =>
  reachable is_begin s /\ 0 < s_next s /\ o_alive (s_objs s 0) = false /\ In (EEnded 0) (s_log s)).
Proof.
  eexists. split; [vm_compute; reflexivity|]. split; [exists case_stop; vm_compute; reflexivity|].
  split; [cbn; auto|]. split; [reflexivity|]. cbn. auto.
Qed.

(** C32.  A request that the loss of a connection destroyed was of that
    connection. *)
Theorem C32_only_its_own : forall (M : Type) (begins : M -> bool) (s : Manager.state M), reachable begins s ->
  forall o sk, In (ELost o sk) (s_log s) -> o_alive (s_objs s o) = false /\ r_socket (o_rid (s_objs s o)) = sk.
Proof. exact @only_its_own. Qed.
Print Assumptions C32_only_its_own.

(** While thread [t] removes the requests of connection [sk] other threads go
    on.  In the end the requests left of that connection are old ones that
    some thread was handling on the way. *)
Theorem C32_all : forall (M : Type) (begins : M -> bool) (s0 s1 s2 : Manager.state M) t w l sk, reachable begins s0 ->
  t_push (s_threads s0 t) = Some (PBadWant sk) -> t_sig (s_threads s0 t) = None ->
  step begins t (ARun w) s0 = Some s1 -> throughout begins (notifying sk t) l s1 ->
  exec begins l s1 = Some s2 -> t_push (s_threads s2 t) = Some PEnd ->
  forall o, o_alive (s_objs s2 o) = true -> r_socket (o_rid (s_objs s2 o)) = sk ->
    o_alive (s_objs s0 o) = true /\ sometime begins (fun s => exists t', handles s t' o) l s1.
Proof. exact @lost_all. Qed.
Print Assumptions C32_all.

(** Requests of other connections stay. *)
Theorem C32_others_stay : forall (M : Type) (begins : M -> bool) (s0 s1 s2 : Manager.state M) t w l sk, reachable begins s0 ->
  t_push (s_threads s0 t) = Some (PBadWant sk) -> t_sig (s_threads s0 t) = None ->
  step begins t (ARun w) s0 = Some s1 -> throughout begins (notifying sk t) l s1 ->
  exec begins l s1 = Some s2 -> t_push (s_threads s2 t) = Some PEnd ->
  forall o, o_alive (s_objs s0 o) = true -> r_socket (o_rid (s_objs s0 o)) <> sk -> o_alive (s_objs s2 o) = true.
Proof. exact @lost_others. Qed.
Print Assumptions C32_others_stay.

(** A record with request id 65535 has the same effect, though the connection
    is open before and after. *)
Theorem C32_id_65535 : exists (s s' : Manager.state N) l m o, reachable is_begin s /\ o_alive (s_objs s o) = true /\
  valid (r_socket (o_rid (s_objs s o))) s = true /\
  exec is_begin ((0, APush (mkRid (r_socket (o_rid (s_objs s o))) 65535) m) :: l) s = Some s' /\
  (forall t a, In (t, a) l -> t = 0 /\ a = ARun 1) /\ o_alive (s_objs s' o) = false /\
  valid (r_socket (o_rid (s_objs s o))) s' = true.
Proof. exact id_65535. Qed.
Print Assumptions C32_id_65535.

(** A request that was being handled may be left over for good: its
    connection is gone, the loss was reported, and nobody does anything. *)
Theorem C32_leak : exists (s : Manager.state N) l sk m o, exec is_begin l (st_init N) = Some s /\
  In (0, APush (mkRid sk 65535) m) l /\ valid sk s = false /\ (forall t, idle s t) /\
  o_alive (s_objs s o) = true /\ r_socket (o_rid (s_objs s o)) = sk.
Proof. exact lost_leak. Qed.
Print Assumptions C32_leak.

Example C32_example : after case_loss (fun s0 =>
  reachable is_begin s0 /\ t_push (s_threads s0 0) = Some (PBadWant 5) /\ t_sig (s_threads s0 0) = None /\
  map (fun o => o_alive (s_objs s0 o)) [0; 1; 2] = [true; true; true] /\
  exists s1 s2, step is_begin 0 (ARun 1) s0 = Some s1 /\ throughout is_begin (notifying 5 0) (run 0 3) s1 /\
    exec is_begin (run 0 3) s1 = Some s2 /\ t_push (s_threads s2 0) = Some PEnd /\
    map (fun o => o_alive (s_objs s2 o)) [0; 1; 2] = [true; false; true]).
Proof.
  eexists. split; [vm_compute; reflexivity|]. split; [exists case_loss; vm_compute; reflexivity|].
  split; [reflexivity|]. split; [reflexivity|]. split; [reflexivity|].
  eexists. eexists. split; [vm_compute; reflexivity|]. split; [|split; [vm_compute; reflexivity|split; reflexivity]].
  intros l1 l2 s' E NE X. unfold notifying.
  destruct l1 as [|x1 [|x2 [|x3 [|x4 l1]]]]; cbn in E; inversion E; subst;
    try (vm_compute in X; injection X as <-; eexists; vm_compute; reflexivity); congruence.
Qed.

(** C33.  A handler thread leaves only when the manager was terminated, or
    stopped and without requests. *)
Theorem C33_leave_only : forall (M : Type) (begins : M -> bool) (s : Manager.state M), reachable begins s ->
  forall t, t_base (s_threads s t) = HExit1 -> s_terminate s = true \/ (s_stop s = true /\ s_requests s = []).
Proof. exact @leave_only. Qed.
Print Assumptions C33_leave_only.

(** After [terminate] no thread sleeps. *)
Theorem C33_terminate_wakes : forall (M : Type) (begins : M -> bool) (s : Manager.state M), reachable begins s ->
  s_terminate s = true -> forall t, t_base (s_threads s t) <> HWaiting.
Proof. exact @terminate_ends. Qed.
Print Assumptions C33_terminate_wakes.

(** After [stop], when no request is left and the last one to go was not lost
    with its connection since, no thread sleeps once everything has come to
    rest. *)
Theorem C33_stop_ends : forall (M : Type) (begins : M -> bool) (s0 s1 s : Manager.state M) t a l,
  reachable begins s0 -> s_stop s0 = false -> step begins t a s0 = Some s1 -> s_stop s1 = true ->
  exec begins l s1 = Some s -> s_requests s = [] -> losses_followed (since s1 (s_log s)) -> (forall t, idle s t) ->
  forall t, t_base (s_threads s t) <> HWaiting.
Proof. exact @stop_ends_since. Qed.
Print Assumptions C33_stop_ends.

(** Where the last one was lost this fails: a thread sleeps forever. *)
Theorem C33_stop_ends_refuted : exists (s : Manager.state N) t, reachable is_begin s /\ s_stop s = true /\ s_requests s = [] /\
  (forall t, idle s t) /\ t_base (s_threads s t) = HWaiting.
Proof. exact stop_hangs. Qed.
Print Assumptions C33_stop_ends_refuted.

Example C33_example_leave : after (do_sleep 1 ++ [(0, ASignal false)] ++ run 0 1 ++ run 1 3)
  (fun s => t_base (s_threads s 1) = HExit1 /\ s_stop s = true).
Proof. eexists. split; [vm_compute; reflexivity|]. split; reflexivity. Qed.

Example C33_example_terminate : after (do_sleep 1 ++ do_begin a1 ++ [(0, ASignal true)] ++ run 0 1)
  (fun s => s_terminate s = true /\ t_base (s_threads s 1) = HStart /\ s_requests s <> []).
Proof. eexists. split; [vm_compute; reflexivity|]. repeat split; discriminate. Qed.

(** Two requests; after [stop] one is lost, then the other is completed. *)
Example C33_example_stop : after case_stopping (fun s0 => s_stop s0 = false /\ exists s1 s,
  step is_begin 0 (ARun 1) s0 = Some s1 /\ s_stop s1 = true /\ exec is_begin case_stopped s1 = Some s /\
  s_requests s = [] /\ since s1 (s_log s) = [ELost 1 6; ETaken 0 7%N; EEnded 0] /\ losses_followed (since s1 (s_log s)) /\
  (forall t, idle s t) /\ t_base (s_threads s 1) = HDone /\ t_base (s_threads s 2) = HDone).
Proof.
  eexists. split; [vm_compute; reflexivity|]. split; [reflexivity|]. eexists. eexists. split; [vm_compute; reflexivity|].
  split; [reflexivity|]. split; [vm_compute; reflexivity|]. split; [reflexivity|]. split; [reflexivity|].
  split; [|split; [intro t; destruct t as [|[|[|t]]]; vm_compute; auto|split; reflexivity]].
  intros pre o sk post H. exists 0. cbn in H.
  destruct pre as [|e1 [|e2 [|e3 [|e4 pre]]]]; cbn in H; inversion H; subst; cbn; auto.
Qed.

(** C51.  Unless all threads are at rest, one can go on, provided that
    [stop] and [terminate] are not called by a signal handler on top of the
    manager's own code and that no thread is about to use a destroyed request
    (C31). *)
Theorem C51_no_deadlock : forall (M : Type) (begins : M -> bool) (s : Manager.state M), reachable begins s ->
  orderly s -> (forall t o, uses s t o -> o_alive (s_objs s o) = true) ->
  (forall t, idle s t) \/ exists t, can_go begins s t.
Proof. exact @no_deadlock. Qed.
Print Assumptions C51_no_deadlock.

(** A signal handler that calls [stop] on a thread that holds the lock on the
    tasks deadlocks. *)
Theorem C51_signal_refuted : exists (s : Manager.state N) t, reachable is_begin s /\ ~ idle s t /\ forall t', ~ can_go is_begin s t'.
Proof. exact signal_deadlock. Qed.
Print Assumptions C51_signal_refuted.

Example C51_example : after case_loss (fun s => reachable is_begin s /\ orderly s /\
  (forall t o, uses s t o -> o_alive (s_objs s o) = true) /\ ~ idle s 0 /\ ~ idle s 1).
Proof.
  eexists. split; [vm_compute; reflexivity|]. split; [exists case_loss; vm_compute; reflexivity|].
  split; [intros t k; destruct t as [|[|t]]; discriminate|].
  split; [intros t o; destruct t as [|[|t]]; vm_compute; try contradiction; now intros ->|].
  split; intros (_ & H & K); [discriminate H|exact K].
Qed.

(** C55.  The queue of management records is not empty when a thread takes
    one. *)
Theorem C55_management_queue : forall (M : Type) (begins : M -> bool) (s : Manager.state M), reachable begins s ->
  forall t, t_base (s_threads s t) = HLocal -> s_local s <> [].
Proof. exact @local_queue. Qed.
Print Assumptions C55_management_queue.

Example C55_example : after (((0, APush (mkRid 5 0) 9%N) :: run 0 3) ++ (1, ASpawn) :: run 1 5)
  (fun s => t_base (s_threads s 1) = HLocal /\ s_local s = [(9%N, 5%N)]).
Proof. eexists. split; [vm_compute; reflexivity|]. split; reflexivity. Qed.

(** They are taken in the order of arrival, each once. *)
Theorem C55_management_in_order : forall (M : Type) (begins : M -> bool) (s : Manager.state M), reachable begins s ->
  local_in (s_hist s) = local_out (s_hist s) ++ s_local s.
Proof. exact @locals_reachable. Qed.
Print Assumptions C55_management_in_order.

Example C55_example_order : after (((0, APush (mkRid 5 0) 9%N) :: run 0 3) ++ ((0, APush (mkRid 6 0) 8%N) :: run 0 3) ++ (1, ASpawn) :: run 1 6)
  (fun s => reachable is_begin s /\ local_in (s_hist s) = [(9, 5); (8, 6)]%N /\ local_out (s_hist s) = [(9, 5)]%N).
Proof.
  eexists. split; [vm_compute; reflexivity|]. split; [exists (((0, APush (mkRid 5 0) 9%N) :: run 0 3) ++ ((0, APush (mkRid 6 0) 8%N) :: run 0 3) ++ (1, ASpawn) :: run 1 6); vm_compute; reflexivity|]. split; reflexivity.
Qed.

(** C56.  Every request began with one BEGIN_REQUEST record for its id. *)
Theorem C56_begins_once : forall (M : Type) (begins : M -> bool) (s : Manager.state M), reachable begins s -> forall o,
  (o < s_next s -> exists m, begun o (s_hist s) = [(o_rid (s_objs s o), m)] /\ begins m = true) /\
  (s_next s <= o -> begun o (s_hist s) = []).
Proof. exact @begins_once. Qed.
Print Assumptions C56_begins_once.

(** No two live requests have the same connection and id. *)
Theorem C56_distinct : forall (M : Type) (begins : M -> bool) (s : Manager.state M), reachable begins s -> forall o o',
  o_alive (s_objs s o) = true -> o_alive (s_objs s o') = true -> o_rid (s_objs s o) = o_rid (s_objs s o') -> o = o'.
Proof. exact @live_distinct. Qed.
Print Assumptions C56_distinct.

Example C56_example : after (do_begin a1 ++ do_begin b1 ++ ((0, APush a2 7%N) :: run 0 4))
  (fun s => reachable is_begin s /\ s_next s = 2 /\ o_rid (s_objs s 1) = b1 /\ begun 1 (s_hist s) = [(b1, 0%N)] /\
    o_alive (s_objs s 0) = true /\ o_alive (s_objs s 1) = true).
Proof.
  eexists. split; [vm_compute; reflexivity|]. split; [exists (do_begin a1 ++ do_begin b1 ++ ((0, APush a2 7%N) :: run 0 4)); vm_compute; reflexivity|]. repeat split.
Qed.

(** C57.  A request found complete is destroyed or about to be. *)
Theorem C57_complete_ends : forall (M : Type) (begins : M -> bool) (s : Manager.state M), reachable begins s ->
  forall o, In (NComplete o) (s_hist s) -> o_alive (s_objs s o) = false \/ exists t, removing s t o.
Proof. exact @complete_ends. Qed.
Print Assumptions C57_complete_ends.

(** At rest none is left. *)
Theorem C57_complete_gone : forall (M : Type) (begins : M -> bool) (s : Manager.state M), reachable begins s ->
  (forall t, idle s t) -> forall o, In (NComplete o) (s_hist s) -> o_alive (s_objs s o) = false.
Proof. exact @complete_gone. Qed.
Print Assumptions C57_complete_gone.

Example C57_example : after (do_begin a1 ++ do_push a1 7 ++ do_take 1 ++ run 1 3 ++ [(1, AReturn true)])
  (fun s => reachable is_begin s /\ In (NComplete 0) (s_hist s) /\ o_alive (s_objs s 0) = true /\ removing s 1 0).
Proof.
  eexists. split; [vm_compute; reflexivity|]. split; [exists (do_begin a1 ++ do_push a1 7 ++ do_take 1 ++ run 1 3 ++ [(1, AReturn true)]); vm_compute; reflexivity|].
  split; [cbn; auto|]. split; [reflexivity|]. exists a1. left. reflexivity.
Qed.

Example C57_example_rest : after case_stop (fun s =>
  reachable is_begin s /\ (forall t, idle s t) /\ In (NComplete 0) (s_hist s) /\ o_alive (s_objs s 0) = false).
Proof.
  eexists. split; [vm_compute; reflexivity|]. split; [exists case_stop; vm_compute; reflexivity|].
  split; [intro t; destruct t as [|[|[|t]]]; vm_compute; auto|]. split; [cbn; auto|reflexivity].
Qed.
