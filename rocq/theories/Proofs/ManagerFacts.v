(** Consequences of the invariants: who handles what, and the history. *)
From Coq Require Import List NArith Bool Arith Lia.
From Verif Require Import Model.Base Model.RequestMap Model.Manager Spec.ManagerSpec Proofs.RequestMapProofs
  Proofs.ManagerProofs Proofs.ManagerStep.
Import ListNotations.

(** All cases of a step: the state after it, in terms of the state before. *)
Ltac cases H S0 P0 B0 :=
  match type of H with step _ ?t ?a ?s = Some _ =>
    destruct a; cbn [step] in H;
    [ destruct (t_sig (s_threads s t)) eqn:S0;
      [ unfold sig_step in H
      | destruct (t_push (s_threads s t)) as [p|] eqn:P0;
        [ destruct p; cbn [push_step] in H; try (match type of H with context[PBad _ ?l] => destruct l as [|[? ?] ?] end)
        | destruct (t_base (s_threads s t)) eqn:B0; cbn [base_step] in H ] ]
    | destruct (t_sig (s_threads s t)) eqn:S0; try discriminate H;
      destruct (t_push (s_threads s t)) eqn:P0; try discriminate H;
      destruct (t_base (s_threads s t)) eqn:B0; try discriminate H
    | destruct (t_sig (s_threads s t)) eqn:S0; try discriminate H;
      destruct (t_push (s_threads s t)) eqn:P0; try discriminate H;
      destruct (t_base (s_threads s t)) eqn:B0; try discriminate H
    | destruct (t_base (s_threads s t)) eqn:B0; try discriminate H
    | destruct (t_sig (s_threads s t)) eqn:S0; try discriminate H
    | destruct (t_push (s_threads s t)) eqn:P0; try discriminate H;
      destruct (t_base (s_threads s t)) eqn:B0; try discriminate H
    | ];
    unfold lock_tasks, lock_read, lock_write, bindo, touch, notify_one in H; break H; try discriminate H;
    injection H as <-
  end.

Section Proofs.
Context {M : Type}.
Variable begins : M -> bool.
Notation state := (Manager.state M).
Notation tb s t := (t_base (s_threads s t)).
Notation tp s t := (t_push (s_threads s t)).
Notation ts s t := (t_sig (s_threads s t)).
Notation ob s o := (s_objs s o).

Lemma all_thread_cases : forall (s : state) t, inv s ->
  s_threads (notify_all M s) t = s_threads s t \/
  (tb s t = HWaiting /\ s_threads (notify_all M s) t = mkThread HStart (tp s t) (ts s t)).
Proof.
  intros s t I. destruct (all_threads (s_waiters s) s t) as (A1 & A2 & A3). fold (notify_all M s) in A1, A2, A3.
  destruct (existsb (Nat.eqb t) (s_waiters s)) eqn:E.
  - right. apply existsb_exists in E. destruct E as (y & Y1 & Y2). apply Nat.eqb_eq in Y2. subst y.
    apply (i_wait s I) in Y1. split; [exact Y1|]. destruct (s_threads (notify_all M s) t). cbn in *. congruence.
  - left. destruct (s_threads (notify_all M s) t), (s_threads s t). cbn in *. congruence.
Qed.

(** Other threads stay where they are, or are woken. *)
Lemma step_others : forall (s : state) t a s', inv s -> step begins t a s = Some s' ->
  forall t', t' <> t -> s_threads s' t' = s_threads s t' \/
    (tb s t' = HWaiting /\ s_threads s' t' = mkThread HStart (tp s t') (ts s t')).
Proof.
  intros s t a s' I H t' N.
  assert (K : forall (f : nat -> thread M) th, fupd f t th t' = f t') by (intros; now apply fupd_other).
  assert (WK : forall n ws (s1 : state), s_waiters s = n :: ws -> s_threads s1 = s_threads s -> forall w, existsb (Nat.eqb w) (n :: ws) = true ->
     s_threads (wakeup M w s1) t' = s_threads s t' \/
     tb s t' = HWaiting /\ s_threads (wakeup M w s1) t' = mkThread HStart (tp s t') (ts s t')).
  { intros n ws s1 W T w E. cbn. rewrite T. unfold fupd. destruct (Nat.eqb_spec t' w) as [->|]; [|now left]. right.
    split; [|reflexivity]. apply existsb_exists in E. destruct E as (y & Y1 & Y2). apply Nat.eqb_eq in Y2. subst y.
    rewrite <- W in Y1. now apply (i_wait s I) in Y1. }
  cases H S0 P0 B0; cbn [s_threads goto goto_push goto_sig set_threads]; rewrite ?K; try (left; reflexivity);
  try (left; cbn; now rewrite K);
  first [match goal with |- context[notify_all M ?s1] => 
           apply (all_thread_cases s1); apply (inv_same s _ I); auto end
        |eapply WK; eauto].
Qed.

(** What a step does to the requests. *)
Definition kept (s s' : state) (o : nat) : Prop :=
  o_rid (ob s' o) = o_rid (ob s o) /\ o_alive (ob s' o) = o_alive (ob s o) /\ o_queue (ob s' o) = o_queue (ob s o).

Inductive effect (t : nat) (s s' : state) : Prop :=
| FxSame : s_log s' = s_log s -> s_requests s' = s_requests s -> s_next s' = s_next s -> (forall o, kept s s' o) -> effect t s s'
| FxTake : forall id o m q, tp s t = None -> tb s t = RCheck id o -> o_alive (ob s o) = true -> o_queue (ob s o) = m :: q ->
    tb s' t = RGot id o -> s_log s' = s_log s ++ [ETaken o m] -> s_requests s' = s_requests s -> s_next s' = s_next s ->
    ob s' o = mkObj (o_rid (ob s o)) true (o_mutex (ob s o)) (o_msgs (ob s o)) q ->
    (forall o', o' <> o -> kept s s' o') -> effect t s s'
| FxPush : forall id o m, tp s t = Some (PMsg id o m) -> o_alive (ob s o) = true -> o_msgs (ob s o) = None ->
    tp s' t = Some (PUnlock id) -> s_log s' = s_log s ++ [EPushed o m] ->
    s_requests s' = s_requests s -> s_next s' = s_next s ->
    ob s' o = mkObj (o_rid (ob s o)) true (o_mutex (ob s o)) (o_msgs (ob s o)) (o_queue (ob s o) ++ [m]) ->
    (forall o', o' <> o -> kept s s' o') -> effect t s s'
| FxNew : forall id m, tp s t = Some (PFind id m) -> map_find id (s_requests s) = None -> begins m = true ->
    tp s' t = Some PEnd -> s_log s' = s_log s -> s_requests s' = map_emplace id (s_next s) (s_requests s) ->
    s_next s' = S (s_next s) -> ob s' (s_next s) = mkObj id true None None [] ->
    (forall o', o' <> s_next s -> kept s s' o') -> effect t s s'
| FxEnd : forall id o, tp s t = None -> tb s t = HErase2 id o -> o_alive (ob s o) = true -> tp s' t = None -> tb s' t = HErase3 ->
    s_log s' = s_log s ++ [EEnded o] -> s_requests s' = map_erase id (s_requests s) -> s_next s' = s_next s ->
    o_alive (ob s' o) = false -> o_rid (ob s' o) = o_rid (ob s o) -> o_queue (ob s' o) = o_queue (ob s o) ->
    (forall o', o' <> o -> kept s s' o') -> effect t s s'
| FxLost : forall sk k o todo, tp s t = Some (PBad sk ((k, o) :: todo)) -> o_alive (ob s o) = true -> o_mutex (ob s o) = None ->
    tp s' t = Some (PBad sk todo) ->
    s_log s' = s_log s ++ [ELost o sk] -> s_requests s' = map_erase k (s_requests s) -> s_next s' = s_next s ->
    o_alive (ob s' o) = false -> o_rid (ob s' o) = o_rid (ob s o) -> o_queue (ob s' o) = o_queue (ob s o) ->
    (forall o', o' <> o -> kept s s' o') -> effect t s s'.

Lemma kept_refl : forall (s s' : state) o, ob s' o = ob s o -> kept s s' o.
Proof. intros s s' o E. unfold kept. now rewrite E. Qed.

Lemma step_effect : forall (s : state) t a s', step begins t a s = Some s' -> effect t s s'.
Proof.
  intros s t a s' H.
  assert (KE : forall (s1 : state) o, s_objs s1 = s_objs s -> kept s s1 o) by (intros s1 o E; apply kept_refl; now rewrite E).
  Ltac km o := let o' := fresh in intro o'; unfold kept; cbn; unfold fupd; destruct (Nat.eqb_spec o' o); subst; auto; try (intro; contradiction).
  cases H S0 P0 B0;
  try (apply FxSame; [reflexivity|reflexivity|reflexivity|intro; apply KE; reflexivity]);
  try (apply FxSame; [reflexivity|reflexivity|reflexivity|match goal with |- context[set_mutex M ?o] => km o | |- context[set_msgs M ?o] => km o end]).
  all: try (apply FxSame;
    match goal with |- context[notify_all M ?s1] => pose proof (all_fields (s_waiters s1) s1) as F; cbn zeta in F; fold (notify_all M s1) in F;
      destruct F as (F1 & F2 & F3 & F4 & F5 & F6 & F7 & F8 & F9 & F10 & F11 & F12) end; cbn;
      [exact F12|exact F5|exact F7|intro; apply KE; exact F6]).
  - eapply FxLost; try reflexivity; try eassumption; cbn; rewrite ?fupd_same; try reflexivity. km n.
  - eapply FxNew; try reflexivity; try eassumption; cbn; rewrite ?fupd_same; try reflexivity. km (s_next s).
  - eapply FxPush; try reflexivity; try eassumption; cbn; rewrite ?fupd_same; cbn; try congruence. km o.
  - eapply FxEnd; try reflexivity; try eassumption; cbn; rewrite ?fupd_same; try reflexivity; try assumption. km o.
  - eapply FxTake; try reflexivity; try eassumption; cbn; rewrite ?fupd_same; cbn; try congruence. km o.
Qed.

(** Where a thread goes on. *)
Inductive flow (s : state) : bpc -> bpc -> Prop :=
| FSpawn : flow s BOther HStart
| FStart : s_tasksLock s = None -> flow s HStart HRead
| FRead : s_writer s = None -> flow s HRead HCond
| FCond : running s = true -> flow s HCond HInner
| FCondExit : running s = false -> flow s HCond HExit1
| FNoTask : s_tasks s = [] -> flow s HInner HRead2
| FTask : forall id r, s_tasks s = id :: r -> flow s HInner (HPopped id)
| FLocal : forall id, r_id id = 0%N -> flow s (HPopped id) HLocal
| FSearch : forall id, r_id id <> 0%N -> s_writer s = None -> flow s (HPopped id) (HFind id)
| FLocalDone : s_local s <> [] -> flow s HLocal HRelock
| FAbsent : forall id, map_find id (s_requests s) = None -> flow s (HFind id) (HFound id None)
| FBusy : forall id o t, map_find id (s_requests s) = Some o -> o_mutex (ob s o) = Some t -> flow s (HFind id) (HFound id None)
| FLocked : forall id o, map_find id (s_requests s) = Some o -> o_mutex (ob s o) = None -> flow s (HFind id) (HFound id (Some o))
| FNothing : forall id, flow s (HFound id None) HRelock
| FHandle : forall id o, flow s (HFound id (Some o)) (RLock id o)
| FLook : forall id o, o_msgs (ob s o) = None -> flow s (RLock id o) (RCheck id o)
| FEmpty : forall id o, o_queue (ob s o) = [] -> flow s (RCheck id o) (HRet id o true)
| FMessage : forall id o m q, o_queue (ob s o) = m :: q -> flow s (RCheck id o) (RGot id o)
| FProcess : forall id o, flow s (RGot id o) (RProc id o)
| FAgain : forall id o, flow s (RProc id o) (RLock id o)
| FComplete : forall id o, flow s (RProc id o) (HRet id o false)
| FRemove : forall id o, flow s (HRet id o false) (HWant id o)
| FClosed : forall id o, valid (r_socket id) s = false -> flow s (HRet id o true) (HDrop id o)
| FKeep : forall id o, valid (r_socket id) s = true -> flow s (HRet id o true) (HKeep1 id o)
| FDrop : forall id o, flow s (HDrop id o) (HWant id o)
| FWant : forall id o, s_writer s = None -> s_readers s = [] -> flow s (HWant id o) (HErase1 id o)
| FErase1 : forall id o, flow s (HErase1 id o) (HErase2 id o)
| FErase2 : forall id o, flow s (HErase2 id o) HErase3
| FErase3 : flow s HErase3 HRelock
| FKeep1 : forall id o, flow s (HKeep1 id o) (HKeep2 id o)
| FKeep2 : forall id o, flow s (HKeep2 id o) HRelock
| FRelock : s_tasksLock s = None -> flow s HRelock HInner
| FRead2 : s_writer s = None -> flow s HRead2 HCond2
| FSleep : running s = true -> flow s HCond2 HWait
| FCond2Exit : running s = false -> flow s HCond2 HExit1
| FWaiting : flow s HWait HWaiting
| FExit1 : flow s HExit1 HExit2
| FExit2 : flow s HExit2 HDone.

Lemma step_own : forall (s : state) t a s', inv s -> step begins t a s = Some s' ->
  tb s' t = tb s t \/
  (tb s t = HWaiting /\ tb s' t = HStart) \/
  (tp s t = None /\ flow s (tb s t) (tb s' t)).
Proof.
  intros s t a s' I H.
  assert (NW : forall s1 : state, inv s1 -> tb s1 t = tb s t -> tb (notify_all M s1) t = tb s t \/ tb s t = HWaiting /\ tb (notify_all M s1) t = HStart).
  { intros s1 I1 E. destruct (all_thread_cases s1 t I1) as [X|[X Y]]; [rewrite X; auto|rewrite Y]. right. split; [congruence|reflexivity]. }
  cases H S0 P0 B0; cbn; rewrite ?fupd_same; cbn; try (left; congruence);
  try (right; right; split; [solve [reflexivity|assumption]|]; solve [econstructor; eauto]).
  - destruct (NW (set_flag M b s)) as [X|X]; auto. apply (inv_same s _ I); auto.
  - assert (tb s t = BOther \/ exists id o, tb s t = RProc id o) as X by (apply (i_push s I); congruence).
    left. unfold fupd. destruct (Nat.eqb_spec t w); [|reflexivity]. subst. exfalso.
    apply orb_true_iff in E1. destruct E1 as [E1|E1].
    + apply Nat.eqb_eq in E1. subst. assert (Y : tb s n = HWaiting) by (apply (i_wait s I); cbn in E0; rewrite E0; now left).
      destruct X as [X|(i & o & X)]; congruence.
    + apply existsb_exists in E1. destruct E1 as (y & Y1 & Y2). apply Nat.eqb_eq in Y2. subst.
      assert (Y : tb s y = HWaiting) by (apply (i_wait s I); cbn in E0; rewrite E0; now right).
      destruct X as [X|(i & o & X)]; congruence.
  - right; right. split; [reflexivity|]. apply N.eqb_eq in E. now constructor.
  - right; right. split; [reflexivity|]. apply N.eqb_neq in E. now constructor.
  - right; right. split; [reflexivity|]. constructor. congruence.
  - right; right. split; [reflexivity|]. cbn in E. apply negb_true_iff in E. now constructor.
  - right; right. split; [reflexivity|]. destruct held; [|discriminate]. cbn in E. apply negb_false_iff in E. now constructor.
  - right; left. auto.
Qed.

Inductive pflow (s s' : state) : option (ppc M) -> option (ppc M) -> Prop :=
| PfCall : forall id m, pflow s s' None (Some (PStart id m))
| PfLocal : forall id m, r_id id = 0%N -> pflow s s' (Some (PStart id m)) (Some (PLocal id m))
| PfBad : forall id m, r_id id = 65535%N -> pflow s s' (Some (PStart id m)) (Some (PBadWant (r_socket id)))
| PfWant : forall id m, r_id id <> 0%N -> r_id id <> 65535%N -> pflow s s' (Some (PStart id m)) (Some (PWant id m))
| PfStored : forall id m, s_local s' = s_local s ++ [(m, r_socket id)] -> pflow s s' (Some (PLocal id m)) (Some (PTasks id))
| PfRange : forall sk, s_writer s = None -> s_readers s = [] ->
    pflow s s' (Some (PBadWant sk)) (Some (PBad sk (map_equal_range sk (s_requests s))))
| PfNext : forall sk k o todo, o_alive (ob s o) = true -> pflow s s' (Some (PBad sk ((k, o) :: todo))) (Some (PBad sk todo))
| PfAll : forall sk, pflow s s' (Some (PBad sk [])) (Some PEnd)
| PfLock : forall id m, s_writer s = None -> s_readers s = [] -> pflow s s' (Some (PWant id m)) (Some (PFind id m))
| PfNone : forall id m, map_find id (s_requests s) = None -> pflow s s' (Some (PFind id m)) (Some PEnd)
| PfSome : forall id o m, map_find id (s_requests s) = Some o -> pflow s s' (Some (PFind id m)) (Some (PMsg id o m))
| PfMsg : forall id o m, o_alive (ob s o) = true -> pflow s s' (Some (PMsg id o m)) (Some (PUnlock id))
| PfUnlock : forall id, pflow s s' (Some (PUnlock id)) (Some (PTasks id))
| PfTask : forall id, s_tasksLock s = None -> s_tasks s' = s_tasks s ++ [id] -> pflow s s' (Some (PTasks id)) None
| PfEnd : pflow s s' (Some PEnd) None.

Lemma step_pushes : forall (s : state) t a s', step begins t a s = Some s' -> tp s' t = tp s t \/ pflow s s' (tp s t) (tp s' t).
Proof.
  intros s t a s' H.
  assert (NA : forall s1 : state, tp (notify_all M s1) t = tp s1 t) by (intro s1; apply all_threads).
  cases H S0 P0 B0; cbn -[notify_all]; rewrite ?fupd_same; cbn -[notify_all]; rewrite ?NA; try (left; reflexivity);
  try (left; assumption).
  all: right; repeat match goal with H : N.eqb _ _ = true |- _ => apply N.eqb_eq in H | H : N.eqb _ _ = false |- _ => apply N.eqb_neq in H end.
  all: econstructor; first [assumption|reflexivity].
Qed.

(** What a step does to the tasks. *)
Lemma step_tasks : forall (s : state) t a s', inv s -> step begins t a s = Some s' ->
  s_tasks s' = s_tasks s \/
  (exists id, tp s t = None /\ tb s t = HInner /\ s_tasks s = id :: s_tasks s' /\ tb s' t = HPopped id) \/
  (exists id, tp s t = Some (PTasks id) /\ tp s' t = None /\ s_tasks s' = s_tasks s ++ [id]).
Proof.
  intros s t a s' I H.
  assert (NA : forall s1 : state, s_tasks (notify_all M s1) = s_tasks s1) by (intro s1; apply all_fields).
  cases H S0 P0 B0; cbn -[notify_all]; rewrite ?fupd_same; cbn -[notify_all]; rewrite ?NA; try (left; reflexivity); try (left; assumption); right;
  first [left; eexists; repeat split; first [eassumption|reflexivity]|right; eexists; repeat split; first [eassumption|reflexivity]].
Qed.

(** Induction over executions. *)
Lemma reach_ind : forall P : state -> Prop, P (st_init M) ->
  (forall s t a s', inv s -> P s -> step begins t a s = Some s' -> P s') ->
  forall s, reachable begins s -> P s.
Proof.
  intros P P0 PS s (l & H).
  assert (X : forall l s0 s, inv s0 -> P s0 -> exec begins l s0 = Some s -> P s).
  { clear - PS. induction l as [|[t a] l IH]; intros s0 s I H0 H; cbn in H; [now injection H as <-|].
    destruct (step begins t a s0) as [s1|] eqn:E; cbn in H; [|discriminate].
    eapply IH; [| |exact H]; [eapply inv_step; eauto|eapply PS; eauto]. }
  eapply X; [apply (inv_init begins)|exact P0|exact H].
Qed.

(* ------------------------------------------------------------------ *)
(** * One thread per request *)

Lemma handler_one : forall s : state, reachable begins s -> forall t t' o, in_handler s t o -> in_handler s t' o -> t = t'.
Proof.
  intros s R t t' o (i & A) (i' & B). pose proof (inv_reachable begins s R) as I.
  assert (X : base_req (tb s t) = Some o) by (destruct A as [->|[->|[->| ->]]]; reflexivity).
  assert (Y : base_req (tb s t') = Some o) by (destruct B as [->|[->|[->| ->]]]; reflexivity).
  apply (i_req s I) in X, Y. destruct X, Y. congruence.
Qed.

(* ------------------------------------------------------------------ *)
(** * History *)

Lemma pushed_app : forall o (l l' : list (event M)), pushed o (l ++ l') = pushed o l ++ pushed o l'.
Proof. induction l as [|[] l IH]; intro l'; cbn; auto. rewrite IH. destruct (Nat.eqb o o0); reflexivity. Qed.
Lemma taken_app : forall o (l l' : list (event M)), taken o (l ++ l') = taken o l ++ taken o l'.
Proof. induction l as [|[] l IH]; intro l'; cbn; auto. rewrite IH. destruct (Nat.eqb o o0); reflexivity. Qed.

Definition hist (s : state) : Prop :=
  forall o, pushed o (s_log s) = taken o (s_log s) ++ o_queue (ob s o) /\ (s_next s <= o -> pushed o (s_log s) = []).

Lemma hist_step : forall (s : state) t a s', inv s -> hist s -> step begins t a s = Some s' -> hist s'.
Proof.
  intros s t a s' I H S. apply step_effect in S. intro o0. specialize (H o0) as [H1 H2]. destruct S.
  - rewrite H, H3. destruct (H4 o0) as (_ & _ & ->). auto.
  - rewrite H6, H8, pushed_app, taken_app. cbn. destruct (Nat.eqb_spec o0 o) as [->|N].
    + rewrite H9. cbn. rewrite app_nil_r, H1, H4, <- app_assoc. split; [reflexivity|]. intro X. rewrite <- H4, <- H1. auto.
    + destruct (H10 o0 N) as (_ & _ & ->). rewrite !app_nil_r. auto.
  - rewrite H5, H7, pushed_app, taken_app. cbn. destruct (Nat.eqb_spec o0 o) as [->|N].
    + rewrite H8. cbn. rewrite app_nil_r, H1, app_assoc. split; [reflexivity|]. intro X. apply (i_next s I) in H0. lia.
    + destruct (H9 o0 N) as (_ & _ & ->). rewrite !app_nil_r. auto.
  - rewrite H5, H7. destruct (Nat.eq_dec o0 (s_next s)) as [->|N].
    + rewrite H8. cbn. specialize (H2 (Nat.le_refl _)). rewrite H2 in *. symmetry in H1. apply app_eq_nil in H1. destruct H1 as [-> _]. auto.
    + destruct (H9 o0 N) as (_ & _ & ->). split; [exact H1|]. intro. apply H2. lia.
  - rewrite H6, H8, pushed_app, taken_app. cbn. rewrite !app_nil_r. destruct (Nat.eq_dec o0 o) as [->|N].
    + rewrite H11. auto.
    + destruct (H12 o0 N) as (_ & _ & ->). auto.
  - rewrite H5, H7, pushed_app, taken_app. cbn. rewrite !app_nil_r. destruct (Nat.eq_dec o0 o) as [->|N].
    + rewrite H10. auto.
    + destruct (H11 o0 N) as (_ & _ & ->). auto.
Qed.

Lemma hist_reachable : forall s : state, reachable begins s -> hist s.
Proof. apply reach_ind; [intro o; cbn; auto|]. intros. eapply hist_step; eauto. Qed.

(** Why a request was destroyed. *)
Definition fate (s : state) : Prop :=
  (forall o, o < s_next s -> o_alive (ob s o) = false -> (exists sk, In (ELost o sk) (s_log s)) \/ In (EEnded o) (s_log s)) /\
  (forall o sk, In (ELost o sk) (s_log s) -> o < s_next s /\ o_alive (ob s o) = false /\ r_socket (o_rid (ob s o)) = sk) /\
  (forall o, In (EEnded o) (s_log s) -> o < s_next s /\ o_alive (ob s o) = false).

Lemma fate_step : forall (s : state) t a s', inv s -> fate s -> step begins t a s = Some s' -> fate s'.
Proof.
  intros s t a s' I (A & B & C) S. apply step_effect in S. destruct S.
  - unfold fate. rewrite H, H1. split; [|split].
    + intros o. destruct (H2 o) as (_ & -> & _). apply A.
    + intros o sk. destruct (H2 o) as (-> & -> & _). apply B.
    + intros o. destruct (H2 o) as (_ & -> & _). apply C.
  - unfold fate. rewrite H4, H6.
    assert (K : forall o', o_alive (ob s' o') = o_alive (ob s o') /\ o_rid (ob s' o') = o_rid (ob s o')).
    { intro o'. destruct (Nat.eq_dec o' o) as [->|N]; [rewrite H7; cbn; auto|]. destruct (H8 o' N) as (? & ? & _). auto. }
    split; [|split].
    + intros o'. destruct (K o') as [-> _]. intros X Y. destruct (A o' X Y) as [(sk & Z)|Z]; [left; exists sk|right]; apply in_or_app; auto.
    + intros o' sk X. destruct (K o') as [-> ->]. apply in_app_or in X. destruct X as [X|[X|[]]]; [auto|discriminate].
    + intros o' X. destruct (K o') as [-> _]. apply in_app_or in X. destruct X as [X|[X|[]]]; [auto|discriminate].
  - unfold fate. rewrite H3, H5.
    assert (K : forall o', o_alive (ob s' o') = o_alive (ob s o') /\ o_rid (ob s' o') = o_rid (ob s o')).
    { intro o'. destruct (Nat.eq_dec o' o) as [->|N]; [rewrite H6; cbn; auto|]. destruct (H7 o' N) as (? & ? & _). auto. }
    split; [|split].
    + intros o'. destruct (K o') as [-> _]. intros X Y. destruct (A o' X Y) as [(sk & Z)|Z]; [left; exists sk|right]; apply in_or_app; auto.
    + intros o' sk X. destruct (K o') as [-> ->]. apply in_app_or in X. destruct X as [X|[X|[]]]; [auto|discriminate].
    + intros o' X. destruct (K o') as [-> _]. apply in_app_or in X. destruct X as [X|[X|[]]]; [auto|discriminate].
  - unfold fate. rewrite H3, H5. split; [|split].
    + intros o X. destruct (Nat.eq_dec o (s_next s)) as [->|N]; [rewrite H6; discriminate|]. destruct (H7 o N) as (_ & -> & _).
      intro Y. apply A; [lia|exact Y].
    + intros o sk X. apply B in X. destruct X as (X & Y & Z). destruct (H7 o) as (-> & -> & _); [lia|]. split; [lia|auto].
    + intros o X. apply C in X. destruct X as (X & Y). destruct (H7 o) as (_ & -> & _); [lia|]. split; [lia|auto].
  - unfold fate. rewrite H4, H6. split; [|split].
    + intros o' X Y. destruct (Nat.eq_dec o' o) as [->|N].
      * right. apply in_or_app. right. now left.
      * destruct (H10 o' N) as (_ & E & _). rewrite E in Y. destruct (A o' X Y) as [(sk & Z)|Z]; [left; exists sk|right]; apply in_or_app; auto.
    + intros o' sk X. apply in_app_or in X. destruct X as [X|[X|[]]]; [|discriminate]. apply B in X. destruct X as (X & Y & Z).
      destruct (H10 o') as (-> & -> & _); [congruence|auto].
    + intros o' X. apply in_app_or in X. destruct X as [X|[X|[]]].
      * apply C in X. destruct X as (X & Y). destruct (H10 o') as (_ & -> & _); [congruence|auto].
      * injection X as <-. split; [apply (i_next s I); assumption|assumption].
  - unfold fate. rewrite H3, H5. split; [|split].
    + intros o' X Y. destruct (Nat.eq_dec o' o) as [->|N].
      * left. exists sk. apply in_or_app. right. now left.
      * destruct (H9 o' N) as (_ & E & _). rewrite E in Y. destruct (A o' X Y) as [(sk' & Z)|Z]; [left; exists sk'|right]; apply in_or_app; auto.
    + intros o' sk' X. apply in_app_or in X. destruct X as [X|[X|[]]].
      * apply B in X. destruct X as (X & Y & Z). destruct (H9 o') as (-> & -> & _); [congruence|auto].
      * injection X as <- <-. split; [apply (i_next s I); assumption|]. split; [assumption|].
        apply (i_pbad s I) in H. destruct H as [_ H]. apply Forall_inv in H. cbn in H. rewrite H7. destruct H as (_ & -> & ?). assumption.
    + intros o' X. apply in_app_or in X. destruct X as [X|[X|[]]]; [|discriminate].
      apply C in X. destruct X as (X & Y). destruct (H9 o') as (_ & -> & _); [congruence|auto].
Qed.

Lemma fate_reachable : forall s : state, reachable begins s -> fate s.
Proof.
  apply reach_ind; [|intros; eapply fate_step; eauto].
  split; [|split]; cbn; try tauto. intros. lia.
Qed.

(* ------------------------------------------------------------------ *)
(** * Use of destroyed requests *)

(** A thread that is past the point where it took the lock on the messages. *)
Definition late (b : bpc) : option nat :=
  match b with
  | RCheck _ o | RGot _ o | RProc _ o | HRet _ o _ | HDrop _ o | HWant _ o | HErase1 _ o | HErase2 _ o | HKeep1 _ o => Some o
  | _ => None
  end.

Definition keepers (s : state) : Prop :=
  forall t id o, tb s t = HKeep2 id o ->
    (o_alive (ob s o) = true -> forall t', late (tb s t') <> Some o) /\
    (o_alive (ob s o) = false -> exists sk, In (ELost o sk) (s_log s)).

Lemma log_grows : forall (s : state) t a s' e, step begins t a s = Some s' -> In e (s_log s) -> In e (s_log s').
Proof.
  intros s t a s' e S X. apply step_effect in S.
  destruct S; repeat match goal with H : s_log s' = _ |- _ => rewrite H end; auto; apply in_or_app; auto.
Qed.

(** Other threads, seen through a function that does not tell waiting from
    woken. *)
Lemma step_other_base : forall (A : Type) (f : bpc -> A) (s : state) t a s', f HWaiting = f HStart -> inv s -> step begins t a s = Some s' ->
  forall t', t' <> t -> f (tb s' t') = f (tb s t').
Proof.
  intros A f s t a s' E I S t' N. destruct (step_others s t a s' I S t' N) as [X|[X Y]]; [now rewrite X|].
  rewrite X, Y. cbn. now symmetry.
Qed.

Lemma step_other_push : forall (s : state) t a s', inv s -> step begins t a s = Some s' ->
  forall t', t' <> t -> tp s' t' = tp s t'.
Proof.
  intros s t a s' I S t' N. destruct (step_others s t a s' I S t' N) as [X|[X Y]]; [now rewrite X|]. now rewrite Y.
Qed.

(** A request that is alive after a step was alive before, or is new. *)
Lemma step_alive : forall (s : state) t a s' o, inv s -> step begins t a s = Some s' -> o_alive (ob s' o) = true ->
  (o_alive (ob s o) = true /\ o_rid (ob s' o) = o_rid (ob s o)) \/ (o = s_next s /\ o_queue (ob s' o) = []).
Proof.
  intros s t a s' o I S X. apply step_effect in S. destruct S.
  - left. destruct (H2 o) as (-> & E & _). split; congruence.
  - left. destruct (Nat.eq_dec o o0) as [->|N]; [rewrite H7; auto|]. destruct (H8 o N) as (-> & E & _). split; congruence.
  - left. destruct (Nat.eq_dec o o0) as [->|N]; [rewrite H6; auto|]. destruct (H7 o N) as (-> & E & _). split; congruence.
  - destruct (Nat.eq_dec o (s_next s)) as [->|N]; [right; rewrite H6; auto|]. left. destruct (H7 o N) as (-> & E & _). split; congruence.
  - left. destruct (Nat.eq_dec o o0) as [->|N]; [congruence|]. destruct (H10 o N) as (-> & E & _). split; congruence.
  - left. destruct (Nat.eq_dec o o0) as [->|N]; [congruence|]. destruct (H9 o N) as (-> & E & _). split; congruence.
Qed.

Lemma late_msgs : forall (s : state) t o, inv s -> late (tb s t) = Some o -> o_alive (ob s o) = true.
Proof.
  intros s t o I H. destruct (tb s t) eqn:B; try discriminate H; injection H as <-;
  eapply (i_obj s I t); rewrite B; reflexivity.
Qed.

Lemma keepers_step : forall (s : state) t a s', inv s -> keepers s -> step begins t a s = Some s' -> keepers s'.
Proof.
  intros s t a s' I K S t1 id o B.
  assert (I' : inv s') by (eapply inv_step; eauto).
  assert (LT : o < s_next s') by (apply (i_lt s' I' t1); rewrite B; reflexivity).
  (* the thread was there before, or came from HKeep1 *)
  assert (C : tb s t1 = HKeep2 id o \/ (t1 = t /\ tb s t = HKeep1 id o)).
  { destruct (Nat.eq_dec t1 t) as [->|N].
    - destruct (step_own s t a s' I S) as [E|[[E E']|[_ F]]]; [left; congruence|congruence|].
      rewrite B in F. inversion F. right. auto.
    - left. destruct (step_others s t a s' I S t1 N) as [E|[E E']]; [congruence|]. rewrite E' in B. discriminate. }
  assert (AL : o_alive (ob s' o) = true -> o_alive (ob s o) = true).
  { intro A. destruct (step_alive s t a s' o I S A) as [[X _]|[X _]]; [exact X|]. exfalso.
    assert (Y : base_msgs (tb s t1) = Some o) by (destruct C as [->|[-> ->]]; reflexivity).
    apply (i_lt s I) in Y. lia. }
  split.
  - intros A t' L.
    assert (L' : late (tb s t') = Some o \/ (t' = t /\ exists i, tb s t = RLock i o /\ o_msgs (ob s o) = None)).
    { destruct (Nat.eq_dec t' t) as [->|N].
      - destruct (step_own s t a s' I S) as [E|[[E E']|[_ F]]]; [left; congruence|rewrite E' in L; discriminate|].
        inversion F as [| | | | | | | | | | | | | | |? ? MS EQ EQ'| | | | | | | | | | | | | | | | | | | | | |];
        match goal with X : _ = tb s' t |- _ => rewrite <- X in L; cbn in L; try discriminate L; injection L as <- end; cbn; eauto.
      - left. rewrite <- L. symmetry. eapply (step_other_base _ late); eauto. }
    destruct C as [C|[-> C]].
    + destruct (K t1 id o C) as [K1 _]. destruct L' as [L'|[-> (i & L1 & L2)]]; [now apply (K1 (AL A) t')|].
      assert (X : o_msgs (ob s o) = Some t1) by (apply (i_msgs s I); [rewrite C; reflexivity|auto]). congruence.
    + destruct L' as [L'|[-> (i & L1 & L2)]]; [|congruence].
      assert (X : o_mutex (ob s o) = Some t) by (apply (i_req s I); rewrite C; reflexivity).
      destruct (Nat.eq_dec t' t) as [->|N]; [rewrite B in L; discriminate|].
      destruct (tb s t') eqn:B'; try discriminate L'; injection L' as ->;
      try (assert (Z : o_mutex (ob s o) = Some t') by (apply (i_req s I); rewrite B'; reflexivity); congruence).
      rewrite (i_er2 s I t' _ _ B') in X. discriminate.
  - intros A. destruct (o_alive (ob s o)) eqn:A0.
    + (* destroyed in this step *)
      pose proof (step_effect s t a s' S) as FX. destruct FX.
      * destruct (H2 o) as (_ & E & _). congruence.
      * destruct (Nat.eq_dec o o0) as [->|N]; [rewrite H7 in A; discriminate|]. destruct (H8 o N) as (_ & E & _). congruence.
      * destruct (Nat.eq_dec o o0) as [->|N]; [rewrite H6 in A; discriminate|]. destruct (H7 o N) as (_ & E & _). congruence.
      * destruct (Nat.eq_dec o (s_next s)) as [->|N]; [rewrite H6 in A; discriminate|]. destruct (H7 o N) as (_ & E & _). congruence.
      * destruct (Nat.eq_dec o o0) as [->|N]; [|destruct (H10 o N) as (_ & E & _); congruence]. exfalso.
        destruct C as [C|[-> C]]; [|congruence]. destruct (K t1 id o0 C) as [K1 _]. apply (K1 A0 t). rewrite H0. reflexivity.
      * destruct (Nat.eq_dec o o0) as [->|N]; [|destruct (H9 o N) as (_ & E & _); congruence].
        exists sk. rewrite H3. apply in_or_app. right. now left.
    + destruct C as [C|[-> C]].
      * destruct (K t1 id o C) as [_ K2]. destruct (K2 A0) as (sk & X). exists sk. eapply log_grows; eauto.
      * assert (X : o_alive (ob s o) = true) by (apply (i_req s I t); rewrite C; reflexivity). congruence.
Qed.

Lemma keepers_reachable : forall s : state, reachable begins s -> keepers s.
Proof. apply reach_ind; [intros t id o X; discriminate X|]. intros. eapply keepers_step; eauto. Qed.

Lemma uses_alive : forall s : state, reachable begins s -> forall t o, uses s t o -> o_alive (ob s o) = true \/
  (exists id sk, tb s t = HKeep2 id o /\ tp s t = None /\ In (ELost o sk) (s_log s)).
Proof.
  intros s R t o U. pose proof (inv_reachable begins s R) as I. unfold uses in U.
  destruct (tp s t) as [p|] eqn:P.
  - left. destruct p; try contradiction.
    + destruct todo as [|[k o'] todo]; [contradiction|]. subst o'. apply (i_pbad s I) in P. destruct P as [_ P].
      apply Forall_inv in P. cbn in P. tauto.
    + subst. eapply (i_pmsg s I); eauto.
  - destruct (tb s t) eqn:B; try contradiction; subst;
    try (left; eapply (i_obj s I t); rewrite B; reflexivity).
    + left. apply (i_map s I) in U. tauto.
    + destruct (o_alive (ob s o0)) eqn:A; [now left|]. right. destruct (keepers_reachable s R t id o0 B) as [_ K].
      destruct (K A) as (sk & X). eauto 6.
Qed.

(* ------------------------------------------------------------------ *)
(** * No message is stranded *)

Definition cared (s : state) (o : nat) : Prop :=
  In (o_rid (ob s o)) (s_tasks s) \/ (exists t, queueing s t (o_rid (ob s o))) \/ (exists t, looking s t (o_rid (ob s o))) \/
  (exists t, will_look s t o) \/ (exists t, removing s t o).

Definition stranded_not (s : state) : Prop :=
  forall o, o_alive (ob s o) = true -> o_queue (ob s o) <> [] -> cared s o.

Definition stay (b b' : bpc) : Prop := b' = b \/ (b = HWaiting /\ b' = HStart).

Lemma care_base : forall (s s' : state) t o, (o_rid (ob s' o) = o_rid (ob s o)) -> stay (tb s t) (tb s' t) ->
  (looking s t (o_rid (ob s o)) -> looking s' t (o_rid (ob s' o))) /\
  (will_look s t o -> will_look s' t o) /\ (removing s t o -> removing s' t o).
Proof.
  intros s s' t o R [E|[E E']].
  - unfold looking, will_look, in_handler, removing. rewrite E, R. tauto.
  - unfold looking, will_look, in_handler, removing. rewrite E. split; [|split]; [intuition discriminate| |].
    + intros [X|(id & X)]; [discriminate|]. intuition discriminate.
    + intros (id & X). intuition discriminate.
Qed.

Lemma erase_step : forall (s : state) t a s' id o, inv s -> tb s t = HErase2 id o -> step begins t a s = Some s' -> tb s' t = HErase3 ->
  o_alive (ob s' o) = false.
Proof.
  intros s t a s' id o I B H B'.
  assert (NA : forall s1 : state, tb s1 t = HErase2 id o -> inv s1 -> tb (notify_all M s1) t = HErase2 id o).
  { intros s1 E J. destruct (all_thread_cases s1 t J) as [X|[X Y]]; [now rewrite X|congruence]. }
  cases H S0 P0 B0; try congruence; cbn -[notify_all] in B'; rewrite ?fupd_same in B'; cbn -[notify_all] in B'; try congruence.
  - rewrite NA in B'; [discriminate|exact B|]. apply (inv_same s _ I); auto.
  - assert (tb s t = BOther \/ exists id o, tb s t = RProc id o) as [X|(i & o' & X)]; try congruence.
    apply (i_push s I). congruence.
  - injection B as -> ->. cbn. now rewrite fupd_same.
Qed.

Lemma stranded_step : forall (s : state) t a s', inv s -> stranded_not s -> step begins t a s = Some s' -> stranded_not s'.
Proof.
  intros s t a s' I K S o A Q.
  assert (I' : inv s') by (eapply inv_step; eauto).
  destruct (step_alive s t a s' o I S A) as [[A0 R]|[_ X]]; [|contradiction].
  pose proof (step_effect s t a s' S) as FX.
  assert (D : o_queue (ob s o) <> [] \/ (exists m, tp s' t = Some (PUnlock (o_rid (ob s o))) /\ tp s t = Some (PMsg (o_rid (ob s o)) o m))).
  { destruct FX.
    - destruct (H2 o) as (_ & _ & E). left. congruence.
    - left. destruct (Nat.eq_dec o o0) as [->|N]; [congruence|]. destruct (H8 o N) as (_ & _ & E). congruence.
    - destruct (Nat.eq_dec o o0) as [->|N]; [|left; destruct (H7 o N) as (_ & _ & E); congruence].
      right. exists m. destruct (i_pmsg s I t id o0 m H) as [_ ->]. auto.
    - left. destruct (H7 o) as (_ & _ & E); [|congruence]. intros ->. apply (i_next s I) in A0. lia.
    - left. destruct (Nat.eq_dec o o0) as [->|N]; [congruence|]. destruct (H10 o N) as (_ & _ & E). congruence.
    - left. destruct (Nat.eq_dec o o0) as [->|N]; [congruence|]. destruct (H9 o N) as (_ & _ & E). congruence. }
  destruct D as [D|(m & D & _)].
  2: { right; left. exists t. left. rewrite R. exact D. }
  clear FX.
  assert (OTH : forall t', t' <> t -> stay (tb s t') (tb s' t') /\ tp s' t' = tp s t').
  { intros t' N. destruct (step_others s t a s' I S t' N) as [X|[X Y]]; rewrite ?X, ?Y; unfold stay; auto. }
  assert (RID : r_id (o_rid (ob s o)) <> 0%N) by now apply (i_rid s I).
  unfold cared. rewrite R.
  (* the request seen by a thread that finds it locked *)
  assert (BUSY : forall t', o_mutex (ob s o) = Some t' -> will_look s t' o \/ removing s t' o).
  { intros t' X. pose proof (i_mutex s I t' o A0 X) as Y. unfold will_look, removing, in_handler.
    destruct (tb s t') eqn:B; cbn in Y; try discriminate Y; try (injection Y as ->);
    try (left; right; eexists; solve [eauto 6]); try (right; eexists; solve [eauto 6]);
    try (exfalso; apply D; apply (i_final s I t' o); [rewrite B; reflexivity|exact A0]).
    - subst. left; left. destruct (i_obj s I t' id o) as [_ <-]; [rewrite B; reflexivity|]. reflexivity.
    - destruct held; [|right; eexists; eauto].
      exfalso; apply D; apply (i_final s I t' o); [rewrite B; reflexivity|exact A0]. }
  assert (MOVE : forall t', will_look s t' o \/ removing s t' o -> (exists t', will_look s' t' o) \/ (exists t', removing s' t' o)).
  { intros t' W. destruct (Nat.eq_dec t' t) as [->|N].
    - destruct (step_own s t a s' I S) as [E|[[E E']|[_ F]]].
      + destruct (care_base s s' t o R (or_introl E)) as (_ & X & Y). destruct W as [W|W]; eauto.
      + destruct (care_base s s' t o R (or_intror (conj E E'))) as (_ & X & Y). destruct W as [W|W]; eauto.
      + destruct W as [W|(id & W)].
        * destruct W as [W|(id & [W|[W|[W|W]]])]; rewrite W in F; inversion F;
          match goal with X : _ = tb s' t |- _ => symmetry in X; rename X into B' end.
          -- left. exists t. right. eexists. left. exact B'.
          -- left. exists t. right. eexists. right; left. exact B'.
          -- contradiction.
          -- left. exists t. right. eexists. right; right; left. exact B'.
          -- left. exists t. right. eexists. right; right; right. exact B'.
          -- left. exists t. right. eexists. left. exact B'.
          -- right. exists t. eexists. left. exact B'.
        * destruct W as [W|[W|[W|W]]]; rewrite W in F; inversion F;
          match goal with X : _ = tb s' t |- _ => symmetry in X; rename X into B' end.
          -- right. exists t. eexists. right; left. exact B'.
          -- right. exists t. eexists. right; right; left. exact B'.
          -- right. exists t. eexists. right; right; right. exact B'.
          -- pose proof (erase_step s t a s' id o I W S B'). congruence.
    - destruct (OTH t' N) as [ST _]. destruct (care_base s s' t' o R ST) as (_ & X & Y). destruct W as [W|W]; eauto. }
  destruct (K o A0 D) as [C|[(t' & C)|[(t' & C)|[(t' & C)|(t' & C)]]]].
  - (* a task *)
    destruct (step_tasks s t a s' I S) as [E|[(id & P & B & E & B')|(id & P & P' & E)]].
    + left. now rewrite E.
    + rewrite E in C. destruct C as [->|C]; [|now left]. right; right; left. exists t. left. exact B'.
    + left. rewrite E. apply in_or_app. now left.
  - (* a push about to queue a task *)
    destruct (Nat.eq_dec t' t) as [->|N].
    + destruct (step_pushes s t a s' S) as [E|F]; [right; left; exists t; unfold queueing; now rewrite E|].
      destruct C as [C|C]; rewrite C in F; inversion F;
      match goal with X : _ = tp s' t |- _ => symmetry in X; rename X into P' end.
      * right; left. exists t. right. exact P'.
      * left. match goal with X : s_tasks s' = _ |- _ => rewrite X end. apply in_or_app. right. now left.
    + right; left. exists t'. unfold queueing. destruct (OTH t' N) as [_ ->]. exact C.
  - (* a thread about to look *)
    destruct (Nat.eq_dec t' t) as [->|N].
    + destruct (step_own s t a s' I S) as [E|[[E E']|[_ F]]].
      * right; right; left. exists t. unfold looking. now rewrite E.
      * destruct C; congruence.
      * destruct C as [C|C]; rewrite C in F; inversion F;
        match goal with X : _ = tb s' t |- _ => symmetry in X; rename X into B' end.
        -- contradiction.
        -- right; right; left. exists t. right. exact B'.
        -- exfalso. assert (Y : map_find (o_rid (ob s o)) (s_requests s) = Some o) by (apply (i_map s I); auto). congruence.
        -- assert (Y : map_find (o_rid (ob s o)) (s_requests s) = Some o) by (apply (i_map s I); auto).
           assert (o0 = o) by congruence. subst o0.
           destruct (MOVE t0 (BUSY t0 ltac:(assumption))); auto.
        -- assert (Y : map_find (o_rid (ob s o)) (s_requests s) = Some o) by (apply (i_map s I); auto).
           assert (o0 = o) by congruence. subst o0. right; right; right; left. exists t. left. now rewrite R.
    + destruct (OTH t' N) as [ST _]. destruct (care_base s s' t' o R ST) as (X & _). rewrite R in X. right; right; left. eauto.
  - destruct (MOVE t' (or_introl C)); auto.
  - destruct (MOVE t' (or_intror C)); auto.
Qed.

Lemma stranded_reachable : forall s : state, reachable begins s -> stranded_not s.
Proof. apply reach_ind; [intros o X; discriminate X|]. intros. eapply stranded_step; eauto. Qed.

(* ------------------------------------------------------------------ *)
(** * Sleeping *)

(** The flags are only ever raised. *)
Lemma step_flags : forall (s : state) t a s', step begins t a s = Some s' ->
  (s_terminate s' = s_terminate s /\ s_stop s' = s_stop s) \/
  (s_tasksLock s = None /\ s_waiters s' = [] /\ s_requests s' = s_requests s /\
   ((s_terminate s' = true /\ s_stop s' = s_stop s) \/ (s_terminate s' = s_terminate s /\ s_stop s' = true))).
Proof.
  intros s t a s' H.
  assert (NA : forall s1 : state, s_terminate (notify_all M s1) = s_terminate s1 /\ s_stop (notify_all M s1) = s_stop s1 /\ s_requests (notify_all M s1) = s_requests s1)
    by (intro s1; repeat split; apply all_fields).
  cases H S0 P0 B0; cbn -[notify_all]; try (left; split; reflexivity).
  - right. destruct (NA (set_flag M b s)) as (-> & -> & ->). split; [reflexivity|]. split; [apply notify_all_waiters|]. split; [reflexivity|].
    destruct b; cbn; auto.
  - left. destruct (NA s) as (-> & -> & _). auto.
Qed.

Lemma awake_stay : forall (s s' : state) t, stay (tb s t) (tb s' t) -> awake s t -> awake s' t.
Proof. intros s s' t [E|[E E']]; unfold awake; [now rewrite E|now rewrite E, E']. Qed.

Definition roused (s : state) : Prop :=
  s_terminate s = false -> s_stop s = false -> s_tasks s <> [] -> s_waiters s <> [] -> exists t, awake s t.

Lemma roused_step : forall (s : state) t a s', inv s -> roused s -> step begins t a s = Some s' -> roused s'.
Proof.
  intros s t a s' I K S T0 T1 TA W.
  assert (I' : inv s') by (eapply inv_step; eauto).
  assert (F : s_terminate s = false /\ s_stop s = false).
  { destruct (step_flags s t a s' S) as [[X Y]|(_ & X & _)]; [split; congruence|congruence]. }
  destruct F as [F0 F1].
  assert (RUN : running s = true) by (unfold running; rewrite F0, F1; reflexivity).
  assert (OTH : forall t', t' <> t -> stay (tb s t') (tb s' t')).
  { intros t' N. destruct (step_others s t a s' I S t' N) as [X|[X Y]]; rewrite ?X, ?Y; unfold stay; auto. }
  assert (MOVE : forall t', awake s t' -> s_tasks s' = [] \/ exists t', awake s' t').
  { intros t' A. destruct (Nat.eq_dec t' t) as [->|N].
    - destruct (step_own s t a s' I S) as [E|[[E E']|[_ F]]].
      + right. exists t. eapply awake_stay; [left|]; eauto.
      + right. exists t. unfold awake. now rewrite E'.
      + unfold awake in A. inversion F; match goal with X : _ = tb s t, Y : _ = tb s' t |- _ => rename X into B; rename Y into B' end;
        rewrite <- B in A; try contradiction A; try congruence; try (right; exists t; unfold awake; rewrite <- B'; exact Logic.I).
        left. destruct (step_tasks s t a s' I S) as [E|[(id & P & B1 & E & B1')|(id & P & P' & E)]]; [|congruence|].
        * rewrite E. apply (i_empty s I t). auto.
        * exfalso. assert (X : tb s t = BOther \/ exists i o, tb s t = RProc i o) by (apply (i_push s I); congruence).
          destruct X as [X|(i & o & X)]; congruence.
    - right. exists t'. eapply awake_stay; eauto. }
  destruct (step_tasks s t a s' I S) as [E|[(id & P & B & E & B')|(id & P & P' & E)]].
  - assert (WW : s_waiters s <> [] \/ exists t', awake s t').
    { destruct (s_waiters s') as [|x ws] eqn:WE; [congruence|]. 
      assert (X : tb s' x = HWaiting) by (apply (i_wait s' I'); rewrite WE; now left).
      destruct (Nat.eq_dec x t) as [->|N].
      - destruct (step_own s t a s' I S) as [E0|[[E0 E1]|[_ F]]].
        + left. assert (Y : In t (s_waiters s)) by (apply (i_wait s I); congruence). intro Z. rewrite Z in Y. destruct Y.
        + congruence.
        + rewrite X in F. inversion F. right. exists t. unfold awake. match goal with Y : HWait = _ |- _ => rewrite <- Y end. exact Logic.I.
      - left. destruct (step_others s t a s' I S x N) as [Y|[Y Y']].
        + assert (Z : In x (s_waiters s)) by (apply (i_wait s I); congruence). intro V. rewrite V in Z. destruct Z.
        + rewrite Y' in X. discriminate. }
    destruct WW as [WW|(t' & WW)].
    + destruct (K F0 F1) as (t' & A); [congruence|exact WW|]. destruct (MOVE t' A) as [|]; [contradiction|assumption].
    + destruct (MOVE t' WW) as [|]; [contradiction|assumption].
  - exists t. unfold awake. rewrite B'. exact Logic.I.
  - (* a task is queued and one thread notified *)
    assert (X : tb s t = BOther \/ exists i o, tb s t = RProc i o) by (apply (i_push s I); congruence).
    destruct a; cbn [step] in S.
    + destruct (ts s t) eqn:S0.
      * unfold sig_step in S. destruct (s_tasksLock s); [discriminate|]. injection S as <-. cbn -[notify_all] in W.
        rewrite notify_all_waiters in W. congruence.
      * rewrite P in S. cbn [push_step] in S. destruct (s_tasksLock s); [discriminate|]. unfold bindo, notify_one in S. cbn [set_tasks s_waiters] in S.
        destruct (s_waiters s) eqn:WE.
        -- injection S as <-. cbn in W. congruence.
        -- destruct (existsb (Nat.eqb w) (n :: l)) eqn:EX; [|discriminate]. injection S as <-. exists w.
           unfold awake. cbn. unfold fupd. destruct (Nat.eqb_spec w t); cbn; [|rewrite Nat.eqb_refl; exact Logic.I].
           subst w. rewrite Nat.eqb_refl. exact Logic.I.
    + rewrite P in S. destruct (ts s t); discriminate.
    + rewrite P in S. destruct (ts s t); discriminate.
    + destruct X as [X|(i & o & X)]; rewrite X in S; discriminate.
    + destruct (ts s t); [discriminate|]. injection S as <-. cbn in P'. rewrite fupd_same in P'. cbn in P'. congruence.
    + rewrite P in S. discriminate.
    + injection S as <-. cbn in P'. congruence.
Qed.

Lemma roused_reachable : forall s : state, reachable begins s -> roused s.
Proof. apply reach_ind; [intros _ _ X; cbn in X; congruence|]. intros. eapply roused_step; eauto. Qed.
End Proofs.
