(** Stopping, losing connections, and progress. *)
From Coq Require Import List NArith Bool Arith Lia.
From Verif Require Import Model.Base Model.RequestMap Model.Manager Spec.ManagerSpec Proofs.RequestMapProofs
  Proofs.ManagerProofs Proofs.ManagerStep Proofs.ManagerFacts.
Import ListNotations.

Section Proofs.
Context {M : Type}.
Variable begins : M -> bool.
Notation state := (Manager.state M).
Notation tb s t := (t_base (s_threads s t)).
Notation tp s t := (t_push (s_threads s t)).
Notation ts s t := (t_sig (s_threads s t)).
Notation ob s o := (s_objs s o).

(* ------------------------------------------------------------------ *)
(** * Leaving the loop *)

(** Only the holder of the exclusive lock changes the set of requests. *)
Lemma step_requests : forall (s : state) t a s', inv s -> step begins t a s = Some s' -> s_requests s' = s_requests s \/ s_writer s = Some t.
Proof.
  intros s t a s' I S. apply step_effect in S. destruct S; auto; right; apply (i_writer s I).
  - rewrite H. now right.
  - rewrite H0. now left.
  - rewrite H. now right.
Qed.

Lemma running_false : forall s : state, running s = false <-> (s_terminate s = true \/ (s_stop s = true /\ s_requests s = [])).
Proof.
  intros s. unfold running. destruct (s_terminate s), (s_stop s), (s_requests s); cbn; intuition congruence.
Qed.

Definition leaving (s : state) : Prop := forall t, tb s t = HExit1 -> running s = false.

Lemma leaving_step : forall (s : state) t a s', inv s -> leaving s -> step begins t a s = Some s' -> leaving s'.
Proof.
  intros s t a s' I K S t1 B.
  assert (X : running s = false /\ s_writer s = None).
  { destruct (Nat.eq_dec t1 t) as [->|N].
    - destruct (step_own begins s t a s' I S) as [E|[[E E']|[_ F]]].
      + rewrite B in E. split; [apply (K t); congruence|]. apply (hold_read s t I). now rewrite <- E.
      + congruence.
      + rewrite B in F. inversion F; split; auto; apply (hold_read s t I);
        match goal with X : _ = tb s t |- _ => now rewrite <- X end.
    - assert (E : tb s t1 = HExit1).
      { destruct (step_others begins s t a s' I S t1 N) as [X|[X Y]]; [congruence|]. rewrite Y in B. discriminate. }
      split; [now apply (K t1)|]. apply (hold_read s t1 I). now rewrite E. }
  destruct X as [X W]. destruct (step_requests s t a s' I S) as [R|R]; [|congruence].
  apply running_false. apply running_false in X. rewrite R.
  destruct (step_flags begins s t a s' S) as [[-> ->]|(_ & _ & _ & [[-> ->]|[-> ->]])]; tauto.
Qed.

Lemma leaving_reachable : forall s : state, reachable begins s -> leaving s.
Proof. apply reach_ind; [intros t X; discriminate X|]. intros. eapply leaving_step; eauto. Qed.

(* ------------------------------------------------------------------ *)
(** * Nobody sleeps after terminate *)

Definition sleepless (s : state) : Prop := s_waiters s = [] /\ forall t, tb s t <> HWait.

Lemma no_wait_unlocked : forall s : state, inv s -> s_tasksLock s = None -> forall t, tb s t <> HWait.
Proof.
  intros s I L t B. assert (X : s_tasksLock s = Some t) by (apply (i_tasks s I); now rewrite B). congruence.
Qed.

Lemma sleepless_step : forall (s : state) t a s', inv s -> sleepless s -> running s = false -> step begins t a s = Some s' -> sleepless s'.
Proof.
  intros s t a s' I (W & NH) R S. assert (I' : inv s') by (eapply inv_step; eauto).
  assert (X : forall t1, tb s' t1 <> HWaiting /\ tb s' t1 <> HWait).
  { intro t1. assert (Y : tb s t1 <> HWaiting /\ tb s t1 <> HWait).
    { split; [|apply NH]. intro Z. apply (i_wait s I) in Z. rewrite W in Z. destruct Z. }
    destruct Y as [Y1 Y2]. destruct (Nat.eq_dec t1 t) as [->|N].
    - destruct (step_own begins s t a s' I S) as [E|[[E E']|[_ F]]].
      + rewrite E. auto.
      + contradiction.
      + inversion F; match goal with X : _ = tb s t, Y : _ = tb s' t |- _ => rename X into B; rename Y into B' end; split; congruence.
    - destruct (step_others begins s t a s' I S t1 N) as [X|[X Z]]; [rewrite X; auto|contradiction]. }
  split; [|apply X]. destruct (s_waiters s') as [|x ws] eqn:E; [reflexivity|]. exfalso.
  apply (proj1 (X x)). apply (i_wait s' I'). rewrite E. now left.
Qed.

Lemma raise_sleepless : forall (s : state) t a s', inv s -> step begins t a s = Some s' -> s_tasksLock s = None -> s_waiters s' = [] -> sleepless s'.
Proof.
  intros s t a s' I S TL W. split; [exact W|]. intros t1 B. pose proof (no_wait_unlocked s I TL t1) as NW.
  destruct (Nat.eq_dec t1 t) as [->|N].
  - destruct (step_own begins s t a s' I S) as [E|[[E E']|[_ F]]]; try congruence.
    rewrite B in F. inversion F. assert (X : s_tasksLock s = Some t) by (apply (i_tasks s I); match goal with X : HCond2 = _ |- _ => now rewrite <- X end).
    congruence.
  - destruct (step_others begins s t a s' I S t1 N) as [X|[X Z]]; [congruence|]. rewrite Z in B. discriminate.
Qed.

Definition terminated (s : state) : Prop := s_terminate s = true -> sleepless s.

Lemma terminated_step : forall (s : state) t a s', inv s -> terminated s -> step begins t a s = Some s' -> terminated s'.
Proof.
  intros s t a s' I K S T. destruct (s_terminate s) eqn:T0.
  - apply (sleepless_step s t a s'); auto. apply running_false. now left.
  - destruct (step_flags begins s t a s' S) as [[X Y]|(TL & W & _)]; [congruence|]. apply (raise_sleepless s t a s'); auto.
Qed.

Lemma terminated_reachable : forall s : state, reachable begins s -> terminated s.
Proof. apply reach_ind; [intro X; discriminate X|]. intros. eapply terminated_step; eauto. Qed.

(* ------------------------------------------------------------------ *)
(** * After stop *)

Definition passing (b : bpc) : bool :=
  match b with
  | BOther | HStart | HRead | HCond | HWait | HWaiting | HExit1 | HExit2 | HDone => false
  | _ => true
  end.

Definition stopped (s : state) : Prop :=
  s_stop s = true -> s_requests s = [] -> (forall o sk, ~ In (ELost o sk) (s_log s)) ->
  (exists t, passing (tb s t) = true) \/ sleepless s.

Lemma exit_waiters : forall (s : state) t a s', inv s -> tb s t = HCond2 -> step begins t a s = Some s' -> tb s' t = HExit1 -> sleepless s'.
Proof.
  intros s t a s' I B H B'.
  assert (NH : forall t1, t1 <> t -> tb s t1 <> HWait).
  { intros t1 N X. assert (Y : s_tasksLock s = Some t1) by (apply (i_tasks s I); now rewrite X).
    assert (Z : s_tasksLock s = Some t) by (apply (i_tasks s I); now rewrite B). congruence. }
  assert (NH' : forall t1, tb s' t1 <> HWait).
  { intros t1 X. destruct (Nat.eq_dec t1 t) as [->|N]; [congruence|].
    destruct (step_others begins s t a s' I H t1 N) as [Y|[Y Z]]; [apply (NH t1 N); congruence|]. rewrite Z in X. discriminate. }
  split; [|exact NH']. clear NH NH'.
  assert (TL : s_tasksLock s = Some t) by (apply (i_tasks s I); now rewrite B).
  assert (PN : tp s t = None).
  { destruct (tp s t) eqn:P; [|reflexivity]. exfalso. destruct (i_push s I t) as [X|(i & o & X)]; congruence. }
  destruct a; cbn [step] in H; rewrite ?PN, ?B in H.
  - destruct (ts s t).
    + unfold sig_step in H. rewrite TL in H. discriminate.
    + cbn [base_step] in H. destruct (running s); injection H as <-; cbn -[notify_all] in *; rewrite ?fupd_same in B'; cbn in B'; [discriminate|].
      apply notify_all_waiters.
  - destruct (ts s t); discriminate.
  - destruct (ts s t); discriminate.
  - discriminate.
  - destruct (ts s t); [discriminate|]. injection H as <-. cbn in B'. rewrite fupd_same in B'. cbn in B'. congruence.
  - discriminate.
  - injection H as <-. cbn in B'. congruence.
Qed.

Lemma stopped_step : forall (s : state) t a s', inv s -> stopped s -> step begins t a s = Some s' -> stopped s'.
Proof.
  intros s t a s' I K S ST RQ NL.
  assert (I' : inv s') by (eapply inv_step; eauto).
  destruct (step_flags begins s t a s' S) as [[T1 T2]|(TL & W & _)]; [|right; apply (raise_sleepless s t a s'); auto].
  assert (ST0 : s_stop s = true) by congruence.
  assert (NL0 : forall o sk, ~ In (ELost o sk) (s_log s)) by (intros o sk X; apply (NL o sk); eapply log_grows; eauto).
  destruct (s_requests s) as [|r0 rs] eqn:RQ0.
  - assert (RF : running s = false) by (apply running_false; auto).
    destruct (K ST0 RQ0 NL0) as [(t' & P)|SL]; [|right; apply (sleepless_step s t a s'); auto].
    destruct (Nat.eq_dec t' t) as [->|N].
    + destruct (step_own begins s t a s' I S) as [E|[[E E']|[_ F]]].
      * left. exists t. now rewrite E.
      * rewrite E in P. discriminate.
      * inversion F; match goal with X : _ = tb s t, Y : _ = tb s' t |- _ => rename X into B; rename Y into B' end;
        rewrite <- B in P; try discriminate P; try congruence; try (left; exists t; rewrite <- B'; reflexivity).
        right. apply (exit_waiters s t a s' I); auto.
    + left. exists t'. rewrite <- P. eapply (step_other_base begins _ passing); eauto.
  - pose proof (step_effect begins s t a s' S) as FX. destruct FX; try congruence.
    + exfalso. assert (X : map_find id (s_requests s') = Some (s_next s)) by (apply (i_map s' I'); rewrite H6; auto).
      rewrite RQ in X. discriminate.
    + left. exists t. now rewrite H3.
    + exfalso. apply (NL o sk). rewrite H3. apply in_or_app. right. now left.
Qed.

Lemma stopped_reachable : forall s : state, reachable begins s -> stopped s.
Proof. apply reach_ind; [intro X; discriminate X|]. intros. eapply stopped_step; eauto. Qed.

(** The same, with only the losses since some moment counting, and only when
    they come last. *)
Definition stopped_since (s0 s : state) : Prop :=
  (exists l, s_log s = s_log s0 ++ l) /\
  (s_requests s = [] -> losses_followed (since s0 (s_log s)) ->
   (exists t, passing (tb s t) = true) \/ sleepless s).

Lemma followed_app : forall (l : list (event M)) e, (forall o sk, e <> ELost o sk) -> (forall o, e <> EEnded o) ->
  losses_followed (l ++ [e]) -> losses_followed l.
Proof.
  intros l e N1 N2 H pre o sk post ->. destruct (H pre o sk (post ++ [e])) as (o' & X); [now rewrite <- app_assoc|].
  exists o'. apply in_app_or in X. destruct X as [X|[X|[]]]; [exact X|]. now apply N2 in X.
Qed.

Lemma since_app : forall (s0 : state) l, since s0 (s_log s0 ++ l) = l.
Proof. intros. unfold since. rewrite skipn_app, skipn_all, Nat.sub_diag. reflexivity. Qed.

Lemma stopped_since_step : forall (s0 s : state) t a s', inv s -> s_stop s = true -> stopped_since s0 s ->
  step begins t a s = Some s' -> stopped_since s0 s'.
Proof.
  intros s0 s t a s' I ST ((l & LG) & K) S.
  assert (I' : inv s') by (eapply inv_step; eauto).
  pose proof (step_effect begins s t a s' S) as FX.
  assert (G : exists l', s_log s' = s_log s0 ++ l').
  { destruct FX; rewrite ?H, ?H0, ?H1, ?H2, ?H3, ?H4, ?LG, <- ?app_assoc; eauto. }
  split; [exact G|]. intros RQ LF.
  assert (EASY : s_requests s = [] -> losses_followed (since s0 (s_log s)) -> (exists t1, passing (tb s' t1) = true) \/ sleepless s').
  { intros RQ0 LF0.
    assert (RF : running s = false) by (apply running_false; auto).
    destruct (K RQ0 LF0) as [(t' & P)|SL]; [|right; apply (sleepless_step s t a s'); auto].
    destruct (Nat.eq_dec t' t) as [->|N].
    + destruct (step_own begins s t a s' I S) as [E|[[E E']|[_ F]]].
      * left. exists t. now rewrite E.
      * rewrite E in P. discriminate.
      * inversion F; match goal with X : _ = tb s t, Y : _ = tb s' t |- _ => rename X into B; rename Y into B' end;
        rewrite <- B in P; try discriminate P; try congruence; try (left; exists t; rewrite <- B'; reflexivity).
        right. apply (exit_waiters s t a s' I); auto.
    + left. exists t'. rewrite <- P. eapply (step_other_base begins _ passing); eauto. }
  assert (SAPP : forall e, s_log s' = s_log s ++ [e] -> since s0 (s_log s') = since s0 (s_log s) ++ [e]).
  { intros e ->. rewrite LG, <- app_assoc, !since_app. reflexivity. }
  destruct FX as [L R _ _|id o m q _ _ _ _ _ L R _ _ _|id o m _ _ _ _ L R _ _ _|id m _ _ _ _ L R _ OB _|id o _ _ _ _ B _ _ _ _ _ _|sk k o todo _ _ _ _ L _ _ _ _ _ _].
  - apply EASY; [congruence|]. now rewrite <- L.
  - apply EASY; [congruence|]. rewrite (SAPP _ L) in LF. eapply followed_app; [| |exact LF]; discriminate.
  - apply EASY; [congruence|]. rewrite (SAPP _ L) in LF. eapply followed_app; [| |exact LF]; discriminate.
  - exfalso. assert (X : map_find id (s_requests s') = Some (s_next s)) by (apply (i_map s' I'); rewrite OB; auto).
    rewrite RQ in X. discriminate.
  - left. exists t. now rewrite B.
  - exfalso. rewrite (SAPP _ L) in LF. destruct (LF (since s0 (s_log s)) o sk [] eq_refl) as (o' & []).
Qed.

Lemma step_stop_stays : forall (s : state) t a s', step begins t a s = Some s' -> s_stop s = true -> s_stop s' = true.
Proof.
  intros s t a s' S ST. destruct (step_flags begins s t a s' S) as [[_ ->]|(_ & _ & _ & [[_ ->]|[_ ->]])]; auto.
Qed.

Lemma stopped_since_exec : forall s0 l (s s' : state), inv s -> s_stop s = true -> stopped_since s0 s ->
  exec begins l s = Some s' -> stopped_since s0 s'.
Proof.
  intros s0. induction l as [|[t a] l IH]; cbn [exec]; intros s s' I ST K H.
  - now injection H as <-.
  - destruct (step begins t a s) as [s1|] eqn:S; [|discriminate]. cbn [bindo] in H.
    apply (IH s1 s'); auto.
    + eapply inv_step; eauto.
    + eapply step_stop_stays; eauto.
    + eapply stopped_since_step; eauto.
Qed.

(* ------------------------------------------------------------------ *)
(** * Management records *)

Definition owes_of (b : bpc) (p : option (ppc M)) : bool :=
  match b with HLocal => true | HPopped id => N.eqb (r_id id) 0 | _ => false end
  || match p with Some (PTasks id) => N.eqb (r_id id) 0 | _ => false end.
Notation owes s t := (owes_of (tb s t) (tp s t)).
Definition zeros (l : list rid) : nat := length (filter (fun id => N.eqb (r_id id) 0) l).
Definition b2n (b : bool) : nat := if b then 1 else 0.

Definition nonzero (s : state) : Prop := forall t id,
  (tp s t = Some (PUnlock id) -> r_id id <> 0%N) /\ (forall m, tp s t = Some (PLocal id m) -> r_id id = 0%N).

Lemma nonzero_step : forall (s : state) t a s', inv s -> nonzero s -> step begins t a s = Some s' -> nonzero s'.
Proof.
  intros s t a s' I K S t1 id. destruct (Nat.eq_dec t1 t) as [->|N].
  - destruct (step_pushes begins s t a s' S) as [E|F]; [rewrite E; apply (K t)|]. split.
    + intro P. rewrite P in F. inversion F.
      match goal with X : Some (PMsg _ _ _) = _ |- _ => symmetry in X; apply (i_pmsg s I) in X; destruct X as [X Y] end.
      replace id with (o_rid (ob s o)) by congruence. now apply (i_rid s I).
    + intros m P. rewrite P in F. inversion F. assumption.
  - rewrite (step_other_push begins s t a s' I S t1 N). apply (K t1).
Qed.

Lemma zeros_app : forall l l', zeros (l ++ l') = zeros l + zeros l'.
Proof. intros. unfold zeros. now rewrite filter_app, app_length. Qed.

Lemma balance : forall (s : state) t a s', inv s -> nonzero s -> step begins t a s = Some s' ->
  length (s_local s') + zeros (s_tasks s) + b2n (owes s t) = length (s_local s) + zeros (s_tasks s') + b2n (owes s' t).
Proof.
  intros s t a s' I NZ H.
  assert (BB : tp s t <> None -> tb s t = BOther \/ exists id o, tb s t = RProc id o) by apply (i_push s I).
  assert (NA : forall s1 : state, inv s1 -> s_local (notify_all M s1) = s_local s1 /\ s_tasks (notify_all M s1) = s_tasks s1 /\ 
     owes (notify_all M s1) t = owes s1 t).
  { intros s1 I1. destruct (all_fields (s_waiters s1) s1) as (F1 & _ & _ & _ & _ & _ & _ & F8 & _). split; [exact F8|]. split; [exact F1|].
    destruct (all_thread_cases s1 t I1) as [X|[X Y]]; [now rewrite X|]. rewrite Y, X. reflexivity. }
  cases H S0 P0 B0; cbn -[notify_all owes_of zeros b2n]; rewrite ?fupd_same; cbn -[notify_all owes_of zeros b2n].
  all: rewrite ?P0; try reflexivity.
  - destruct (NA (set_flag M b s)) as (-> & -> & ->); [apply (inv_same s _ I); auto|]. reflexivity.
  - destruct (NZ t id) as [_ X]. specialize (X m P0). destruct BB as [->|(i & o & ->)]; [congruence| |];
    unfold owes_of; rewrite X, app_length; cbn; lia.
  - destruct (NZ t id) as [X _]. specialize (X P0). apply N.eqb_neq in X. destruct BB as [->|(i & o & ->)]; [congruence| |];
    unfold owes_of; rewrite X; reflexivity.
  - rewrite zeros_app. destruct BB as [->|(i & o & ->)]; [congruence| |]; unfold owes_of, zeros; cbn; destruct (N.eqb (r_id id) 0); cbn; lia.
  - rewrite zeros_app. assert (X : tb s t = BOther \/ exists id o, tb s t = RProc id o) by (apply BB; congruence).
    assert (Y : t <> w).
    { intros ->. apply existsb_exists in E1. destruct E1 as (y & Y1 & Y2). apply Nat.eqb_eq in Y2. subst y.
      assert (Z : tb s w = HWaiting) by (apply (i_wait s I); cbn in E0; rewrite E0; exact Y1). destruct X as [X|(i & o & X)]; congruence. }
    rewrite fupd_other by exact Y.
    destruct X as [->|(i & o & ->)]; unfold owes_of, zeros; cbn; destruct (N.eqb (r_id id) 0); cbn; lia.
  - rewrite E. reflexivity.
  - unfold owes_of, zeros. cbn. destruct (N.eqb (r_id r) 0); cbn; lia.
  - unfold owes_of. rewrite E. reflexivity.
  - unfold owes_of. rewrite E. reflexivity.
  - unfold owes_of. cbn. lia.
  - destruct (NA s I) as (-> & -> & _). destruct (all_threads (s_waiters s) s t) as (A & _). fold (notify_all M s) in A. rewrite A, P0. reflexivity.
  - rewrite B0. reflexivity.
  - rewrite B0. reflexivity.
Qed.

(** The threads that owe a call of localHandler, and the tasks for it, are
    as many as the messages. *)
Definition local_ok (s : state) : Prop :=
  nonzero s /\ exists l, NoDup l /\ (forall t, In t l <-> owes s t = true) /\ length (s_local s) = zeros (s_tasks s) + length l.

Lemma remove_length : forall x (l : list nat), NoDup l -> In x l -> length l = S (length (remove Nat.eq_dec x l)).
Proof.
  induction l as [|y l IH]; intros N I; [destruct I|]. inversion N; subst. cbn. destruct (Nat.eq_dec x y) as [->|D].
  - now rewrite notin_remove.
  - destruct I as [I|I]; [congruence|]. cbn. rewrite <- IH; auto.
Qed.
Lemma remove_nodup : forall x (l : list nat), NoDup l -> NoDup (remove Nat.eq_dec x l).
Proof.
  induction l as [|y l IH]; intros N; [constructor|]. inversion N; subst. cbn. destruct (Nat.eq_dec x y); auto.
  constructor; auto. rewrite in_remove_iff. tauto.
Qed.

Lemma local_step : forall (s : state) t a s', inv s -> local_ok s -> step begins t a s = Some s' -> local_ok s'.
Proof.
  intros s t a s' I (NZ & l & ND & IN & LEN) S. split; [eapply nonzero_step; eauto|].
  pose proof (balance s t a s' I NZ S) as BAL.
  assert (OTH : forall t', t' <> t -> owes s' t' = owes s t').
  { intros t' N. rewrite (step_other_push begins s t a s' I S t' N). 
    apply (step_other_base begins _ (fun b => owes_of b (tp s t')) s t a s'); auto. }
  destruct (owes s t) eqn:O1, (owes s' t) eqn:O2; cbn in BAL.
  - exists l. split; [exact ND|]. split; [|lia]. intro t'. rewrite IN. destruct (Nat.eq_dec t' t) as [->|N]; [rewrite O1, O2; tauto|now rewrite OTH].
  - exists (remove Nat.eq_dec t l). split; [now apply remove_nodup|]. split.
    + intro t'. rewrite in_remove_iff, IN. destruct (Nat.eq_dec t' t) as [->|N]; [rewrite O2; intuition congruence|]. rewrite OTH by auto. tauto.
    + assert (X : In t l) by now apply IN. rewrite (remove_length t l ND X) in LEN. lia.
  - exists (t :: l). split; [|split].
    + constructor; auto. rewrite IN. congruence.
    + intro t'. cbn. rewrite IN. destruct (Nat.eq_dec t' t) as [->|N]; [rewrite O2; tauto|]. rewrite OTH by auto. intuition congruence.
    + cbn. lia.
  - exists l. split; [exact ND|]. split; [|lia]. intro t'. rewrite IN. destruct (Nat.eq_dec t' t) as [->|N]; [rewrite O1, O2; tauto|now rewrite OTH].
Qed.

Lemma local_reachable : forall s : state, reachable begins s -> local_ok s.
Proof.
  apply reach_ind; [|intros; eapply local_step; eauto]. split.
  - intros t id. split; discriminate.
  - exists []. split; [constructor|]. split; [|reflexivity]. intro t. cbn. split; [tauto|discriminate].
Qed.

Lemma local_nonempty : forall s : state, reachable begins s -> forall t, tb s t = HLocal -> s_local s <> [].
Proof.
  intros s R t B. destruct (local_reachable s R) as (_ & l & _ & IN & LEN).
  assert (X : In t l) by (apply IN; unfold owes_of; now rewrite B).
  destruct l; [destruct X|]. cbn in LEN. destruct (s_local s); [cbn in LEN; lia|discriminate].
Qed.
End Proofs.
