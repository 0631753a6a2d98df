(** Consequences of the invariants of the manager, and counterexamples. *)
From Coq Require Import List NArith Bool Arith Lia.
From Verif Require Import Model.Base Model.RequestMap Model.Manager Spec.ManagerSpec Spec.ManagerCases
  Proofs.ManagerProofs Proofs.ManagerStep Proofs.ManagerFacts Proofs.ManagerStop Proofs.ManagerProgress.
Import ListNotations.

Section Proofs.
Context {M : Type}.
Variable begins : M -> bool.
Notation state := (Manager.state M).

Lemma one_handler : forall s : state, reachable begins s -> forall t t' o, in_handler s t o -> in_handler s t' o -> t = t'.
Proof. exact (handler_one begins). Qed.

Lemma in_order : forall s : state, reachable begins s -> forall o, pushed o (s_log s) = taken o (s_log s) ++ o_queue (s_objs s o).
Proof. intros s R o. apply (hist_reachable begins s R). Qed.

Lemma prefix_only : forall s : state, reachable begins s -> forall o, exists rest, pushed o (s_log s) = taken o (s_log s) ++ rest.
Proof. intros s R o. eexists. now apply in_order. Qed.

Lemma not_stranded : forall s : state, reachable begins s -> forall o, o_alive (s_objs s o) = true -> o_queue (s_objs s o) <> [] ->
  In (o_rid (s_objs s o)) (s_tasks s) \/ (exists t, queueing s t (o_rid (s_objs s o))) \/ (exists t, looking s t (o_rid (s_objs s o))) \/
  (exists t, will_look s t o) \/ (exists t, removing s t o).
Proof. exact (stranded_reachable begins). Qed.

Lemma somebody_awake : forall s : state, reachable begins s -> s_terminate s = false -> s_stop s = false ->
  s_tasks s <> [] -> s_waiters s <> [] -> exists t, awake s t.
Proof. exact (roused_reachable begins). Qed.

Lemma quiet : forall s : state, reachable begins s -> s_terminate s = false -> s_stop s = false ->
  (forall t, idle s t) -> s_waiters s <> [] ->
  s_tasks s = [] /\ forall o, o_alive (s_objs s o) = true -> o_queue (s_objs s o) = [].
Proof.
  intros s R T S I W.
  assert (E : s_tasks s = []).
  { destruct (s_tasks s) eqn:E; [reflexivity|exfalso].
    destruct (somebody_awake s R T S) as (t & A); [congruence|exact W|].
    destruct (I t) as (_ & _ & B). unfold awake in A. destruct (t_base (s_threads s t)); contradiction. }
  split; [exact E|]. intros o A. destruct (o_queue (s_objs s o)) eqn:Q; [reflexivity|exfalso].
  assert (B : forall t, match t_base (s_threads s t) with BOther | HWaiting | HDone => True | _ => False end) by (intro t; apply I).
  assert (P : forall t, t_push (s_threads s t) = None) by (intro t; apply I).
  destruct (not_stranded s R o A) as [H|[(t & [H|H])|[(t & [H|H])|[(t & [H|(id & [H|[H|[H|H]]])])|(t & id & [H|[H|[H|H]]])]]]];
    [congruence|rewrite E in H; destruct H|..]; try (rewrite P in H; discriminate); specialize (B t); rewrite H in B; contradiction.
Qed.

Lemma use_while_alive : forall s : state, reachable begins s -> forall t o, uses s t o -> o_alive (s_objs s o) = true \/
  exists id sk, t_base (s_threads s t) = HKeep2 id o /\ t_push (s_threads s t) = None /\ In (ELost o sk) (s_log s).
Proof. exact (uses_alive begins). Qed.

Lemma only_its_own : forall s : state, reachable begins s -> forall o sk, In (ELost o sk) (s_log s) ->
  o_alive (s_objs s o) = false /\ r_socket (o_rid (s_objs s o)) = sk.
Proof. intros s R o sk H. apply (fate_reachable begins s R) in H. tauto. Qed.

Lemma destroyed_why : forall s : state, reachable begins s -> forall o, o < s_next s -> o_alive (s_objs s o) = false ->
  (exists sk, In (ELost o sk) (s_log s)) \/ In (EEnded o) (s_log s).
Proof. intros s R. apply (fate_reachable begins s R). Qed.

Lemma lost_all : forall (s0 s1 s2 : state) t w l sk, reachable begins s0 ->
  t_push (s_threads s0 t) = Some (PBadWant sk) -> t_sig (s_threads s0 t) = None ->
  step begins t (ARun w) s0 = Some s1 -> throughout begins (notifying sk t) l s1 ->
  exec begins l s1 = Some s2 -> t_push (s_threads s2 t) = Some PEnd ->
  forall o, o_alive (s_objs s2 o) = true -> r_socket (o_rid (s_objs s2 o)) = sk ->
    o_alive (s_objs s0 o) = true /\ sometime begins (fun s => exists t', handles s t' o) l s1.
Proof.
  intros s0 s1 s2 t w l sk R P S0 S T X E o A B.
  destruct (notification begins s0 s1 s2 t w l sk R P S0 S T X E) as [H _].
  destruct (H o A B) as (A0 & l1 & l2 & s' & t' & E1 & E2 & _ & HH). split; [exact A0|].
  exists l1, l2, s'. eauto.
Qed.

Lemma lost_others : forall (s0 s1 s2 : state) t w l sk, reachable begins s0 ->
  t_push (s_threads s0 t) = Some (PBadWant sk) -> t_sig (s_threads s0 t) = None ->
  step begins t (ARun w) s0 = Some s1 -> throughout begins (notifying sk t) l s1 ->
  exec begins l s1 = Some s2 -> t_push (s_threads s2 t) = Some PEnd ->
  forall o, o_alive (s_objs s0 o) = true -> r_socket (o_rid (s_objs s0 o)) <> sk -> o_alive (s_objs s2 o) = true.
Proof.
  intros s0 s1 s2 t w l sk R P S0 S T X E.
  now destruct (notification begins s0 s1 s2 t w l sk R P S0 S T X E) as [_ H].
Qed.

Lemma leave_only : forall s : state, reachable begins s -> forall t, t_base (s_threads s t) = HExit1 ->
  s_terminate s = true \/ (s_stop s = true /\ s_requests s = []).
Proof.
  intros s R t B. apply (leaving_reachable begins s R) in B. unfold running in B.
  destruct (s_terminate s); [now left|]. cbn in B. destruct (s_stop s); [|discriminate]. destruct (s_requests s); [auto|discriminate].
Qed.

Lemma terminate_ends : forall s : state, reachable begins s -> s_terminate s = true -> forall t, t_base (s_threads s t) <> HWaiting.
Proof.
  intros s R T t B. destruct (terminated_reachable begins s R T) as [W _].
  apply (i_wait s (inv_reachable begins s R)) in B. rewrite W in B. destruct B.
Qed.

Lemma stop_ends : forall s : state, reachable begins s -> s_stop s = true -> s_requests s = [] ->
  (forall o sk, ~ In (ELost o sk) (s_log s)) -> (forall t, idle s t) -> forall t, t_base (s_threads s t) <> HWaiting.
Proof.
  intros s R S Q L I t B. destruct (stopped_reachable begins s R S Q L) as [(t' & P)|[W _]].
  - destruct (I t') as (_ & _ & B'). unfold passing in P. destruct (t_base (s_threads s t')); try discriminate; contradiction.
  - apply (i_wait s (inv_reachable begins s R)) in B. rewrite W in B. destruct B.
Qed.

Lemma stop_ends_since : forall (s0 s1 s : state) t a l, reachable begins s0 -> s_stop s0 = false ->
  step begins t a s0 = Some s1 -> s_stop s1 = true -> exec begins l s1 = Some s ->
  s_requests s = [] -> losses_followed (since s1 (s_log s)) ->
  (forall t, idle s t) -> forall t, t_base (s_threads s t) <> HWaiting.
Proof.
  intros s0 s1 s t a l R S0 ST S1 X Q L I t' B.
  assert (I0 : inv s0) by (apply (inv_reachable begins); exact R).
  assert (I1 : inv s1) by (eapply inv_step; eauto).
  assert (K : stopped_since s1 s1).
  { split; [exists []; now rewrite app_nil_r|]. intros _ _. right.
    destruct (step_flags begins s0 t a s1 ST) as [[_ F]|(TL & W & _)]; [congruence|].
    apply (raise_sleepless begins s0 t a s1); auto. }
  destruct (stopped_since_exec begins s1 l s1 s I1 S1 K X) as (_ & D). destruct (D Q L) as [(t2 & P)|[W _]].
  - destruct (I t2) as (_ & _ & B'). unfold passing in P. destruct (t_base (s_threads s t2)); try discriminate; contradiction.
  - assert (R' : reachable begins s).
    { destruct R as (l0 & R). exists (l0 ++ (t, a) :: l). revert R. generalize (st_init M) as z.
      induction l0 as [|[t0 a0] l0 IH]; cbn [exec app]; intros z R.
      - injection R as ->. cbn [exec]. rewrite ST. exact X.
      - destruct (step begins t0 a0 z) as [z1|]; [|discriminate]. cbn [bindo] in *. now apply IH. }
    apply (i_wait s (inv_reachable begins s R')) in B. rewrite W in B. destruct B.
Qed.

Lemma no_deadlock : forall s : state, reachable begins s -> orderly s -> (forall t o, uses s t o -> o_alive (s_objs s o) = true) ->
  (forall t, idle s t) \/ exists t, can_go begins s t.
Proof. exact (progress begins). Qed.

Lemma local_queue : forall s : state, reachable begins s -> forall t, t_base (s_threads s t) = HLocal -> s_local s <> [].
Proof. exact (local_nonempty begins). Qed.
End Proofs.

Ltac by_cases t := let k := fresh in intro t; destruct t as [|[|[|k]]]; vm_compute.

Lemma freed_used : exists (s : Manager.state N) t o, reachable is_begin s /\ uses s t o /\ o_alive (s_objs s o) = false.
Proof.
  eexists. exists 1, 0. split; [exists case_freed; vm_compute; reflexivity|]. split; vm_compute; reflexivity.
Qed.

Lemma stop_hangs : exists (s : Manager.state N) t, reachable is_begin s /\ s_stop s = true /\ s_requests s = [] /\
  (forall t, idle s t) /\ t_base (s_threads s t) = HWaiting.
Proof.
  eexists. exists 1. split; [exists case_hang; vm_compute; reflexivity|]. split; [reflexivity|]. split; [reflexivity|].
  split; [by_cases t; auto|reflexivity].
Qed.

Lemma lost_leak : exists (s : Manager.state N) l sk m o, exec is_begin l (st_init N) = Some s /\
  In (0, APush (mkRid sk 65535) m) l /\ valid sk s = false /\ (forall t, idle s t) /\
  o_alive (s_objs s o) = true /\ r_socket (o_rid (s_objs s o)) = sk.
Proof.
  eexists. exists case_leak, 5%N, 0%N, 0. split; [vm_compute; reflexivity|]. split.
  { assert (E : existsb (fun p => match p with (0, APush (mkRid 5 65535) 0%N) => true | _ => false end) case_leak = true) by (vm_compute; reflexivity).
    apply existsb_exists in E. destruct E as (p & I & E).
    assert (F : p = (0, APush (mkRid 5 65535) 0%N)).
    { destruct p as [[|]]; try discriminate. destruct a; try discriminate. destruct id as [a b].
      repeat match goal with H : match ?x with _ => _ end = true |- _ => destruct x; try discriminate end. reflexivity. }
    now rewrite <- F. }
  split; [reflexivity|]. split; [by_cases t; auto|]. split; reflexivity.
Qed.

Lemma id_65535 : exists (s s' : Manager.state N) l m o, reachable is_begin s /\ o_alive (s_objs s o) = true /\
  valid (r_socket (o_rid (s_objs s o))) s = true /\
  exec is_begin ((0, APush (mkRid (r_socket (o_rid (s_objs s o))) 65535) m) :: l) s = Some s' /\
  (forall t a, In (t, a) l -> t = 0 /\ a = ARun 1) /\ o_alive (s_objs s' o) = false /\
  valid (r_socket (o_rid (s_objs s o))) s' = true.
Proof.
  eexists. eexists. exists (run 0 5), 0%N, 0. split; [exists (do_begin a1); vm_compute; reflexivity|].
  split; [reflexivity|]. split; [reflexivity|]. split; [vm_compute; reflexivity|].
  split; [|split; reflexivity].
  intros t a H. cbn in H. repeat (destruct H as [H|H]; [injection H as <- <-; auto|]). destruct H.
Qed.

Lemma signal_deadlock : exists (s : Manager.state N) t, reachable is_begin s /\ ~ idle s t /\ forall t', ~ can_go is_begin s t'.
Proof.
  eexists. exists 1. split; [exists case_signal; vm_compute; reflexivity|].
  split; [intros (H & _); discriminate H|].
  intros t' [(a & s' & H & G) _]. destruct t' as [|[|k]], a; try contradiction G; vm_compute in H; discriminate H.
Qed.
