(** Proofs for C89: tasks are taken in order, and what keeps a thread from
    taking one. *)
From Coq Require Import List NArith Bool Arith Lia.
From Verif Require Import Model.Base Model.RequestMap Model.Manager Spec.ManagerSpec Spec.ManagerCases Spec.FairSpec Proofs.ManagerProofs Proofs.ManagerStep Proofs.ManagerFacts.
Import ListNotations.

Section Proofs.
Context {M : Type}.
Variable begins : M -> bool.
Notation state := (Manager.state M).
Notation tb s t := (t_base (s_threads s t)).
Notation tp s t := (t_push (s_threads s t)).
Notation ts s t := (t_sig (s_threads s t)).

(** Tasks. *)
Lemma tasks_step : forall (s : state) t a s', step begins t a s = Some s' ->
  s_tasks s ++ adds_task t a s = takes_task t a s ++ s_tasks s'.
Proof.
  intros s t a s' H. unfold adds_task, takes_task.
  assert (NA : forall s1 : state, s_tasks (notify_all M s1) = s_tasks s1) by (intro s1; apply all_fields).
  cases H S0 P0 B0; cbn -[notify_all]; rewrite ?S0, ?P0, ?B0, ?NA; cbn; rewrite ?app_nil_r; try reflexivity.
  all: try congruence.
  all: try (rewrite E; reflexivity).
Qed.

Lemma fifo : forall l (s s' : state), exec begins l s = Some s' ->
  s_tasks s ++ tasks_added begins l s = tasks_taken begins l s ++ s_tasks s'.
Proof.
  induction l as [|[t a] l IH]; cbn; intros s s' H; [injection H as <-; apply app_nil_r|].
  destruct (step begins t a s) as [s1|] eqn:E; [|discriminate]. cbn in H.
  rewrite app_assoc, (tasks_step s t a s1 E), <- !app_assoc. f_equal. now apply IH.
Qed.

(** How many steps a thread may take before something happens. *)
Definition phi (b : bpc) : nat :=
  match b with
  | BOther | HWaiting | HDone => 0
  | HWait => 1 | HExit2 => 1 | HExit1 => 2 | HCond2 => 3 | HRead2 => 4 | HInner => 5
  | HRelock => 6 | HCond => 6 | HRead => 7 | HStart => 8
  | HErase3 => 7 | HErase2 _ _ => 8 | HErase1 _ _ => 9 | HWant _ _ => 10 | HDrop _ _ => 11
  | HKeep2 _ _ => 7 | HKeep1 _ _ => 8 | HRet _ _ _ => 12
  | RCheck _ _ => 13 | RLock _ _ => 14 | RProc _ _ => 15 | RGot _ _ => 16
  | HFound _ _ => 15 | HFind _ => 16 | HLocal => 7 | HPopped _ => 17
  end.
Lemma phi_le b : phi b <= 17.
Proof. destruct b; cbn; lia. Qed.

Lemma own_step : forall (s : state) t a s', inv s -> step begins t a s = Some s' ->
  handler_step t a s + phi (tb s' t) <= phi (tb s t) + 13 * length (takes_task t a s) + 4 * takes_message t a s + 8 * starts_over t s s'.
Proof.
  intros s t a s' I H.
  assert (NW : forall s1 : state, inv s1 -> tb s1 t = tb s t -> tb (notify_all M s1) t = tb s t \/ tb s t = HWaiting /\ tb (notify_all M s1) t = HStart).
  { intros s1 I1 E. destruct (all_thread_cases s1 t I1) as [X|[X Y]]; [rewrite X; auto|rewrite Y]. right. split; [congruence|reflexivity]. }
  assert (PW : forall n ws w, tp s t <> None -> s_waiters s = n :: ws -> existsb (Nat.eqb w) (n :: ws) = true -> t <> w).
  { intros n ws w P W E ->. assert (tb s w = BOther \/ exists id o, tb s w = RProc id o) as X by (apply (i_push s I); congruence).
    apply existsb_exists in E. destruct E as (y & Y1 & Y2). apply Nat.eqb_eq in Y2. subst y. rewrite <- W in Y1. apply (i_wait s I) in Y1.
    destruct X as [X|(i & o & X)]; congruence. }
  unfold handler_step, takes_task, takes_message, starts_over.
  cases H S0 P0 B0; cbn -[notify_all Nat.mul phi existsb]; rewrite ?fupd_same; cbn -[notify_all Nat.mul phi existsb]; rewrite ?S0, ?P0, ?B0; cbn -[notify_all Nat.mul existsb]; try lia.
  - destruct (NW (set_flag M b s)) as [X|[X Y]].
    + apply (inv_same s _ I); auto.
    + reflexivity.
    + rewrite X. lia.
    + rewrite X, Y. cbn. lia.
  - rewrite fupd_other; [lia|]. eapply PW; [congruence|eassumption|eassumption].
Qed.

Lemma other_step : forall (s : state) t a s' x, inv s -> step begins t a s = Some s' -> x <> t ->
  phi (tb s' x) <= phi (tb s x) + 8 * starts_over x s s'.
Proof.
  intros s t a s' x I H N. destruct (step_others begins s t a s' I H x N) as [E|[W E]]; rewrite E; [lia|].
  unfold starts_over. rewrite W, E. cbn. lia.
Qed.

Lemma steps_inv : forall x l (s s' : state), inv s -> exec begins l s = Some s' ->
  own_steps begins x l s + phi (tb s' x) <= phi (tb s x) + 13 * own_tasks begins x l s + 4 * own_messages begins x l s + 8 * own_starts begins x l s.
Proof.
  intros x. induction l as [|[t a] l IH]; cbn -[Nat.mul]; intros s s' I H; [injection H as <-; lia|].
  destruct (step begins t a s) as [s1|] eqn:E; [|discriminate]. cbn -[Nat.mul] in H. specialize (IH s1 s' (inv_step begins s t a s1 I E) H).
  destruct (Nat.eqb_spec t x) as [->|N].
  - pose proof (own_step s x a s1 I E). lia.
  - assert (N' : x <> t) by congruence. pose proof (other_step s t a s1 x I E N'). lia.
Qed.

Lemma reach_inv : forall s : state, reachable begins s -> inv s.
Proof. apply reach_ind; [apply (inv_init begins)|]. intros s t a s' I _ H. eapply inv_step; eauto. Qed.

Lemma steps : forall (s s' : state) x l, reachable begins s -> exec begins l s = Some s' ->
  own_steps begins x l s <= 17 + 13 * own_tasks begins x l s + 4 * own_messages begins x l s + 8 * own_starts begins x l s.
Proof. intros s s' x l R H. pose proof (steps_inv x l s s' (reach_inv s R) H). pose proof (phi_le (tb s x)). lia. Qed.

Lemma own_le : forall x l (s : state), own_tasks begins x l s <= length (tasks_taken begins l s).
Proof.
  intros x. induction l as [|[t a] l IH]; cbn; intros s; [lia|]. rewrite app_length. destruct (step begins t a s) as [s1|]; cbn.
  - specialize (IH s1). destruct (t =? x); lia.
  - destruct (t =? x); lia.
Qed.

Lemma prefix_of {A} : forall (a : list A) x b t r, a ++ x :: b = t ++ r -> length a < length t -> exists y, t = a ++ x :: y.
Proof.
  induction a as [|z a IH]; intros x b [|w t] r E L; cbn in *; try lia; injection E as -> E; [now exists t|].
  destruct (IH x b t r E) as [y ->]; [lia|]. now exists y.
Qed.

Lemma served : forall (s s' : state) x l a id b, reachable begins s -> exec begins l s = Some s' -> s_tasks s = a ++ id :: b ->
  17 + 13 * length a + 4 * own_messages begins x l s + 8 * own_starts begins x l s < own_steps begins x l s ->
  exists r, tasks_taken begins l s = a ++ id :: r.
Proof.
  intros s s' x l a id b R H T L. pose proof (steps s s' x l R H) as S1. pose proof (own_le x l s) as S2.
  pose proof (fifo l s s' H) as F. rewrite T, <- app_assoc in F. cbn in F. apply prefix_of in F; [exact F|]. lia.
Qed.
End Proofs.

(** Starving. *)
Definition b_waits (s : Manager.state N) : Prop :=
  s_threads s 0 = mkThread BOther None None /\ s_threads s 1 = mkThread (RCheck a1 0) None None
  /\ s_objs s 0 = mkObj a1 true (Some 1) (Some 1) [7%N]
  /\ s_tasksLock s = None /\ s_writer s = None /\ s_readers s = [] /\ s_requests s = [(a1, 0); (b1, 1)] /\ s_waiters s = []
  /\ (exists r, s_tasks s = b1 :: r) /\ pushed 1 (s_log s) = [9%N] /\ taken 1 (s_log s) = []
  /\ (forall t, t <> 1 -> t_base (s_threads s t) = BOther) /\ s_terminate s = true.

Definition again : list (nat * action N) := run 1 2 ++ do_push a1 7 ++ (1, AReturn false) :: run 1 1.

Lemma pushed_app {M} o (a b : list (event M)) : pushed o (a ++ b) = pushed o a ++ pushed o b.
Proof. induction a as [|[o' m|o' m|o'|o' k] a IH]; cbn; rewrite ?IH; try reflexivity. now destruct (o =? o'). Qed.
Lemma taken_app {M} o (a b : list (event M)) : taken o (a ++ b) = taken o a ++ taken o b.
Proof. induction a as [|[o' m|o' m|o'|o' k] a IH]; cbn; rewrite ?IH; try reflexivity. now destruct (o =? o'). Qed.

Definition view (b : bpc) (p : option (ppc N)) (q : list N) (ms wr : option nat) (s : Manager.state N) : Prop :=
  s_threads s 0 = mkThread BOther p None /\ s_threads s 1 = mkThread b None None
  /\ s_objs s 0 = mkObj a1 true (Some 1) ms q
  /\ s_tasksLock s = None /\ s_writer s = wr /\ s_readers s = [] /\ s_requests s = [(a1, 0); (b1, 1)] /\ s_waiters s = []
  /\ (exists r, s_tasks s = b1 :: r) /\ pushed 1 (s_log s) = [9%N] /\ taken 1 (s_log s) = []
  /\ (forall t, t <> 1 -> t_base (s_threads s t) = BOther) /\ s_terminate s = true.

Ltac view :=
  intros s (T0 & T1 & O & A & B & C & D & E & (r & F) & G & H & K & L);
  unfold step; rewrite ?T0, ?T1; cbn [t_sig t_push t_base push_step base_step];
  unfold touch, lock_write, notify_one; cbn [s_waiters set_tasks]; rewrite ?O, ?A, ?B, ?C, ?D, ?E; cbn [o_alive o_msgs o_queue];
  eexists; (split; [reflexivity|]);
  unfold view; cbn; unfold fupd; cbn; rewrite ?T0, ?T1, ?O, ?A, ?B, ?C, ?D, ?E, ?F, ?L; cbn;
  rewrite ?pushed_app, ?taken_app, ?G, ?H;
  repeat (split; [first [reflexivity|eexists; reflexivity]|]); split; [|reflexivity];
  let t := fresh in let T := fresh in intros t T; specialize (K t T); destruct t as [|[|t]]; [first [reflexivity|exact K]|now contradiction T|exact K].

Lemma v1 : forall s, view (RCheck a1 0) None [7%N] (Some 1) None s -> exists s', step is_begin 1 (ARun 1) s = Some s' /\ view (RGot a1 0) None [] (Some 1) None s'.
Proof. view. Qed.
Lemma v2 : forall s, view (RGot a1 0) None [] (Some 1) None s -> exists s', step is_begin 1 (ARun 1) s = Some s' /\ view (RProc a1 0) None [] None None s'.
Proof. view. Qed.
Lemma v3 : forall s, view (RProc a1 0) None [] None None s -> exists s', step is_begin 0 (APush a1 7%N) s = Some s' /\ view (RProc a1 0) (Some (PStart a1 7%N)) [] None None s'.
Proof. view. Qed.
Lemma v4 : forall s, view (RProc a1 0) (Some (PStart a1 7%N)) [] None None s -> exists s', step is_begin 0 (ARun 1) s = Some s' /\ view (RProc a1 0) (Some (PWant a1 7%N)) [] None None s'.
Proof. view. Qed.
Lemma v5 : forall s, view (RProc a1 0) (Some (PWant a1 7%N)) [] None None s -> exists s', step is_begin 0 (ARun 1) s = Some s' /\ view (RProc a1 0) (Some (PFind a1 7%N)) [] None (Some 0) s'.
Proof. view. Qed.
Lemma v6 : forall s, view (RProc a1 0) (Some (PFind a1 7%N)) [] None (Some 0) s -> exists s', step is_begin 0 (ARun 1) s = Some s' /\ view (RProc a1 0) (Some (PMsg a1 0 7%N)) [] None (Some 0) s'.
Proof. view. Qed.
Lemma v7 : forall s, view (RProc a1 0) (Some (PMsg a1 0 7%N)) [] None (Some 0) s -> exists s', step is_begin 0 (ARun 1) s = Some s' /\ view (RProc a1 0) (Some (PUnlock a1)) [7%N] None (Some 0) s'.
Proof. view. Qed.
Lemma v8 : forall s, view (RProc a1 0) (Some (PUnlock a1)) [7%N] None (Some 0) s -> exists s', step is_begin 0 (ARun 1) s = Some s' /\ view (RProc a1 0) (Some (PTasks a1)) [7%N] None None s'.
Proof. view. Qed.
Lemma v9 : forall s, view (RProc a1 0) (Some (PTasks a1)) [7%N] None None s -> exists s', step is_begin 0 (ARun 1) s = Some s' /\ view (RProc a1 0) None [7%N] None None s'.
Proof. view. Qed.
Lemma v10 : forall s, view (RProc a1 0) None [7%N] None None s -> exists s', step is_begin 1 (AReturn false) s = Some s' /\ view (RLock a1 0) None [7%N] None None s'.
Proof. view. Qed.
Lemma v11 : forall s, view (RLock a1 0) None [7%N] None None s -> exists s', step is_begin 1 (ARun 1) s = Some s' /\ view (RCheck a1 0) None [7%N] (Some 1) None s'.
Proof. view. Qed.

Lemma exec_cons t a l (s s1 : Manager.state N) : step is_begin t a s = Some s1 -> exec is_begin ((t, a) :: l) s = exec is_begin l s1.
Proof. intros H. cbn [exec]. now rewrite H. Qed.

Lemma goes_again s : b_waits s -> exists s', exec is_begin again s = Some s' /\ b_waits s'.
Proof.
  intros V0. change (view (RCheck a1 0) None [7%N] (Some 1) None s) in V0.
  apply v1 in V0. destruct V0 as (s1 & E1 & V). apply v2 in V. destruct V as (s2 & E2 & V). apply v3 in V. destruct V as (s3 & E3 & V).
  apply v4 in V. destruct V as (s4 & E4 & V). apply v5 in V. destruct V as (s5 & E5 & V). apply v6 in V. destruct V as (s6 & E6 & V).
  apply v7 in V. destruct V as (s7 & E7 & V). apply v8 in V. destruct V as (s8 & E8 & V). apply v9 in V. destruct V as (s9 & E9 & V).
  apply v10 in V. destruct V as (s10 & E10 & V). apply v11 in V. destruct V as (s11 & E11 & V).
  exists s11. split; [|exact V]. unfold again, run, do_push. cbn [repeat app run].
  rewrite (exec_cons _ _ _ _ _ E1), (exec_cons _ _ _ _ _ E2), (exec_cons _ _ _ _ _ E3), (exec_cons _ _ _ _ _ E4), (exec_cons _ _ _ _ _ E5),
    (exec_cons _ _ _ _ _ E6), (exec_cons _ _ _ _ _ E7), (exec_cons _ _ _ _ _ E8), (exec_cons _ _ _ _ _ E9), (exec_cons _ _ _ _ _ E10),
    (exec_cons _ _ _ _ _ E11). reflexivity.
Qed.

Lemma again_takes s : b_waits s -> 0 < own_messages is_begin 1 again s.
Proof.
  intros (T0 & T1 & O & _). unfold again, run, do_push. cbn [repeat app run own_messages Nat.eqb takes_message]. rewrite T1. cbn [t_sig t_push t_base].
  rewrite O. cbn [o_queue]. lia.
Qed.

Definition b_starts : list (nat * action N) :=
  do_begin a1 ++ do_begin b1 ++ do_push a1 7 ++ do_push b1 9 ++ do_take 1 ++ run 1 1 ++ (0, ASignal true) :: run 0 1.
Definition or_init (x : option (Manager.state N)) : Manager.state N := match x with Some s => s | None => st_init N end.
Definition b_state : Manager.state N := or_init (exec is_begin b_starts (st_init N)).

Lemma b_state_waits : b_waits b_state.
Proof.
  unfold b_waits. split; [vm_compute; reflexivity|]. split; [vm_compute; reflexivity|]. split; [vm_compute; reflexivity|].
  do 5 (split; [vm_compute; reflexivity|]). split; [exists []; vm_compute; reflexivity|]. do 2 (split; [vm_compute; reflexivity|]).
  split; [|vm_compute; reflexivity]. intros [|[|t]] T; [vm_compute; reflexivity|now contradiction T|vm_compute; reflexivity].
Qed.

Fixpoint b_round (i : nat) : Manager.state N := match i with 0 => b_state | S i => or_init (exec is_begin again (b_round i)) end.

Lemma b_rounds i : b_waits (b_round i) /\ exec is_begin again (b_round i) = Some (b_round (S i)).
Proof.
  induction i as [|i [W E]].
  - destruct (goes_again _ b_state_waits) as (s' & E & _). split; [apply b_state_waits|]. cbn [b_round]. now rewrite E.
  - destruct (goes_again _ W) as (s' & E' & W'). assert (s' = b_round (S i)) by congruence. subst s'. split; [exact W'|].
    destruct (goes_again _ W') as (s2 & E2 & _). cbn [b_round]. cbn [b_round] in E2. now rewrite E2.
Qed.

Lemma starved : exists g : nat -> Manager.state N, reachable is_begin (g 0) /\
  forall i, (exists l, exec is_begin l (g i) = Some (g (S i)) /\ 0 < own_messages is_begin 1 l (g i)) /\
    (exists r, s_tasks (g i) = b1 :: r) /\ pushed 1 (s_log (g i)) = [9%N] /\ taken 1 (s_log (g i)) = [] /\
    s_terminate (g i) = true /\ t_base (s_threads (g i) 1) <> HDone /\ (forall t, t <> 1 -> t_base (s_threads (g i) t) = BOther).
Proof.
  exists b_round. split.
  - exists b_starts. vm_compute. reflexivity.
  - intros i. destruct (b_rounds i) as [W E]. pose proof (again_takes _ W) as A. pose proof W as (T0 & T1 & _ & _ & _ & _ & _ & _ & F & G & H & K & L).
    split; [exists again; split; assumption|]. split; [exact F|]. split; [exact G|]. split; [exact H|]. split; [exact L|].
    split; [rewrite T1; discriminate|exact K].
Qed.
