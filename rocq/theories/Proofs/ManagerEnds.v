(** Left to themselves the threads of the manager come to rest. *)
From Coq Require Import List NArith Bool Arith Lia Wf_nat.
From Verif Require Import Model.Base Model.RequestMap Model.Manager Spec.ManagerSpec Proofs.RequestMapProofs
  Proofs.ManagerProofs Proofs.ManagerStep Proofs.ManagerFacts Proofs.ManagerStop Proofs.ManagerUse Proofs.ManagerHist Spec.ManagerCases.
Import ListNotations.

Fixpoint sumf (n : nat) (f : nat -> nat) : nat := match n with O => 0 | S n => f n + sumf n f end.
Lemma sumf_ext : forall n f g, (forall i, i < n -> f i = g i) -> sumf n f = sumf n g.
Proof. induction n; cbn; intros f g H; [reflexivity|]. rewrite (H n), (IHn f g); auto. Qed.
Lemma sumf_at : forall n f g t, t < n -> (forall i, i <> t -> f i = g i) -> sumf n f + g t = sumf n g + f t.
Proof.
  induction n; cbn; intros f g t L H; [lia|]. destruct (Nat.eq_dec t n) as [->|N].
  - rewrite (sumf_ext n f g); [lia|]. intros i I. apply H. lia.
  - specialize (IHn f g t ltac:(lia) H). rewrite (H n) by auto. lia.
Qed.

Section Ends.
Context {M : Type}.
Variable begins : M -> bool.
Notation state := (Manager.state M).
Notation tb s t := (t_base (s_threads s t)).
Notation tp s t := (t_push (s_threads s t)).
Notation ts s t := (t_sig (s_threads s t)).
Notation ob s o := (s_objs s o).

Definition live (b : bpc) : nat := match b with BOther | HExit1 | HExit2 | HDone => 0 | _ => 1 end.
Definition isSome {A} (x : option A) : nat := match x with Some _ => 1 | None => 0 end.
Definition a1 (th : thread M) : nat := isSome (t_push th) + isSome (t_sig th) + live (t_base th).
Definition a2 (th : thread M) : nat := match t_push th with Some (PStart _ _) => 2 | Some (PBadWant _) => 1 | _ => 0 end.
Definition rank (b : bpc) : nat :=
  match b with
  | BOther | HDone => 0 | HExit2 => 1 | HExit1 => 2 | HWaiting => 3 | HWait => 4 | HCond2 => 5 | HRead2 => 6 | HInner => 7
  | HRelock | HCond => 8 | HRead | HErase3 => 9 | HStart | HErase2 _ _ => 10 | HErase1 _ _ => 11
  | HKeep2 _ _ | HWant _ _ => 12 | HKeep1 _ _ | HDrop _ _ => 13 | HRet _ _ _ => 14 | RCheck _ _ => 15 | RLock _ _ => 16
  | RProc _ _ => 17 | RGot _ _ | HFound _ _ => 18 | HFind _ | HLocal => 19 | HPopped _ => 20
  end.
Definition prank (p : option (ppc M)) : nat :=
  match p with
  | None | Some (PStart _ _) | Some (PBadWant _) => 0
  | Some PEnd => 1 | Some (PTasks _) => 2 | Some (PUnlock _) | Some (PLocal _ _) => 3
  | Some (PMsg _ _ _) => 8 | Some (PFind _ _) => 9 | Some (PWant _ _) => 10 | Some (PBad _ todo) => 2 + length todo
  end.
Definition a3 (th : thread M) : nat := rank (t_base th) + prank (t_push th).

Definition queued (s : state) : nat := sumf (s_next s) (fun o => length (o_queue (ob s o))).
Definition rest (s : state) : nat := 4 * queued s + 14 * length (s_tasks s).

Lemma queued_step : forall (s : state) t a s', inv s -> step begins t a s = Some s' ->
  queued s' = queued s \/
  (exists id o, tp s t = None /\ tb s t = RCheck id o /\ tb s' t = RGot id o /\ queued s = S (queued s')) \/
  (exists id o m, tp s t = Some (PMsg id o m) /\ tp s' t = Some (PUnlock id) /\ queued s' = S (queued s)).
Proof.
  intros s t a s' I H. unfold queued.
  destruct (step_effect begins s t a s' H) as [L R X K|id o m q T B AL Q B' L R X O K|id o m T AL MS T' L R X O K
    |id m T FI BG T' L R X O K|id o T B AL T' B' L R X O1 O2 O3 K|sk k o todo T AL MU T' L R X O1 O2 O3 K].
  - left. rewrite X. apply sumf_ext. intros o _. destruct (K o) as (_ & _ & ->). reflexivity.
  - right; left. exists id, o. split; [exact T|]. split; [exact B|]. split; [exact B'|]. rewrite X.
    pose proof (sumf_at (s_next s) (fun o => length (o_queue (ob s o))) (fun o => length (o_queue (ob s' o))) o (i_next s I o AL)) as Y.
    specialize (Y ltac:(intros i N; destruct (K i N) as (_ & _ & ->); reflexivity)). cbn in Y. rewrite O, Q in Y. cbn in Y. lia.
  - right; right. exists id, o, m. split; [exact T|]. split; [exact T'|]. rewrite X.
    pose proof (sumf_at (s_next s) (fun o => length (o_queue (ob s o))) (fun o => length (o_queue (ob s' o))) o (i_next s I o AL)) as Y.
    specialize (Y ltac:(intros i N; destruct (K i N) as (_ & _ & ->); reflexivity)). cbn in Y. rewrite O in Y. cbn in Y.
    rewrite app_length in Y. cbn in Y. lia.
  - left. rewrite X. cbn [sumf]. rewrite O. cbn. apply sumf_ext. intros i L'. destruct (K i ltac:(lia)) as (_ & _ & ->). reflexivity.
  - left. rewrite X. apply sumf_ext. intros i _. destruct (Nat.eq_dec i o) as [->|N]; [now rewrite O3|].
    destruct (K i N) as (_ & _ & ->). reflexivity.
  - left. rewrite X. apply sumf_ext. intros i _. destruct (Nat.eq_dec i o) as [->|N]; [now rewrite O3|].
    destruct (K i N) as (_ & _ & ->). reflexivity.
Qed.

(** What the step does to the thread itself. *)
Lemma own_step : forall (s : state) t a s', inv s -> step begins t a s = Some s' ->
  match a with ARun _ | AReturn _ => True | _ => False end ->
  a1 (s_threads s' t) < a1 (s_threads s t) \/
  (a1 (s_threads s' t) = a1 (s_threads s t) /\ (forall t', t' <> t -> s_threads s' t' = s_threads s t') /\
   (a2 (s_threads s' t) < a2 (s_threads s t) \/
    (a2 (s_threads s' t) = a2 (s_threads s t) /\ a3 (s_threads s' t) + rest s' < a3 (s_threads s t) + rest s))).
Proof.
  intros s t a s' I H IN. pose proof (queued_step s t a s' I H) as QS. unfold rest.
  assert (K : forall (f : nat -> thread M) th t', t' <> t -> fupd f t th t' = f t') by (intros; now apply fupd_other).
  unfold a1, a2, a3. pose proof (i_push s I t) as IP.
  assert (NW : forall s1 : state, inv s1 -> live (tb (notify_all M s1) t) = live (tb s1 t) /\ tp (notify_all M s1) t = tp s1 t /\ ts (notify_all M s1) t = ts s1 t).
  { intros s1 I1. destruct (all_thread_cases s1 t I1) as [X|[X Y]]; [rewrite X; auto|rewrite Y, X; auto]. }
  cases H S0 P0 B0; try contradiction; cbn -[notify_all]; rewrite ?fupd_same; cbn -[notify_all];
    cbn -[notify_all] in QS; rewrite ?fupd_same in QS; cbn -[notify_all] in QS;
    rewrite ?S0, ?P0, ?B0; rewrite ?S0, ?P0, ?B0 in QS; cbn -[notify_all queued]; cbn -[notify_all queued] in QS.
  all: try (left; lia).
  all: destruct QS as [Q|[(id1 & o1 & T & B & B' & Q)|(id1 & o1 & m1 & T & T' & Q)]]; try congruence.
  all: try (right; split; [lia|]; split; [intros; now apply fupd_other|]; first [left; lia|right; split; [lia|]]; cbn -[queued] in Q |- *; rewrite ?app_length; cbn [length]; lia).
  1-3: (left; destruct (NW (set_flag M b s)) as (-> & -> & _); [apply (inv_same s _ I); auto|]; cbn; lia).
  - left. unfold fupd. destruct (Nat.eqb_spec t w) as [->|]; cbn.
    + assert (Y : tb s w = HWaiting).
      { apply (i_wait s I). cbn in E0. rewrite E0. apply existsb_exists in E1. destruct E1 as (y & Y1 & Y2). apply Nat.eqb_eq in Y2. now subst. }
      rewrite S0, Y. cbn. lia.
    + rewrite S0. cbn. lia.
  - right. split; [lia|]. split; [intros; now apply fupd_other|]. right. split; [lia|]. match goal with X : s_tasks s = [] |- _ => rewrite X end. cbn. fold (queued s). lia.
  - left. destruct (NW s I) as (_ & -> & ->). rewrite S0, P0. cbn. lia.
  - exfalso. pose proof (sumf_at (s_next s) (fun o => length (o_queue (ob s o))) 
      (fun o0 => length (o_queue (fupd (s_objs s) o (mkObj (o_rid (ob s o)) (o_alive (ob s o)) (o_mutex (ob s o)) (o_msgs (ob s o)) l) o0))) o (i_next s I o E)) as Y.
    specialize (Y ltac:(intros i N; cbn; now rewrite fupd_other)). cbn in Y, Q. rewrite fupd_same, E0 in Y. cbn in Y. unfold queued in Q. lia.
Qed.

(** Only so many threads ever did anything. *)
Lemma few_threads : forall s : state, reachable begins s -> exists n, forall t, n <= t -> s_threads s t = mkThread BOther None None.
Proof.
  apply reach_ind; [exists 0; reflexivity|]. intros s t a s' I (n & H) S. exists (Nat.max n (t + 1)). intros t' L.
  rewrite <- (H t') by lia. destruct (step_others begins s t a s' I S t' ltac:(lia)) as [X|[X _]]; [exact X|].
  rewrite H in X by lia. discriminate.
Qed.

Definition all (f : thread M -> nat) (n : nat) (s : state) : nat := sumf n (fun t => f (s_threads s t)).

Lemma less_acc : forall n (s : state), inv s -> (forall t, n <= t -> s_threads s t = mkThread BOther None None) ->
  Acc (fun s' s => goes_on begins s s') s.
Proof.
  intros n s. remember (all a1 n s) as x eqn:X. revert s X. induction x as [x IHx] using lt_wf_ind. intros s X.
  remember (all a2 n s) as y eqn:Y. revert s X Y. induction y as [y IHy] using lt_wf_ind. intros s X Y.
  remember (all a3 n s + rest s) as z eqn:Z. revert s X Y Z. induction z as [z IHz] using lt_wf_ind. intros s -> -> -> I N.
  constructor. intros s' (t & a & S & IN). pose proof (inv_step begins s t a s' I S) as I'.
  assert (LT : t < n).
  { destruct (Nat.lt_ge_cases t n) as [L|L]; [exact L|]. exfalso. specialize (N t L).
    destruct a; try contradiction; cbn in S; rewrite N in S; cbn in S; discriminate S. }
  assert (N' : forall t, n <= t -> s_threads s' t = mkThread BOther None None).
  { intros t' L. rewrite <- (N t' L). destruct (step_others begins s t a s' I S t' ltac:(lia)) as [E|[E _]]; [exact E|].
    rewrite (N t' L) in E. discriminate. }
  assert (O1 : forall t', t' <> t -> a1 (s_threads s' t') = a1 (s_threads s t')).
  { intros t' D. destruct (step_others begins s t a s' I S t' D) as [->|[E ->]]; [reflexivity|]. unfold a1. rewrite E. reflexivity. }
  pose proof (sumf_at n (fun t => a1 (s_threads s' t)) (fun t => a1 (s_threads s t)) t LT O1) as E1. cbn in E1.
  destruct (own_step s t a s' I S IN) as [L|(E & O & [L|(E2 & L)])].
  - eapply IHx; [|reflexivity|exact I'|exact N']. unfold all. lia.
  - pose proof (sumf_at n (fun t => a2 (s_threads s' t)) (fun t => a2 (s_threads s t)) t LT ltac:(intros i D; cbn; now rewrite (O i D))) as F2. cbn in F2.
    eapply IHy; [|unfold all; lia|reflexivity|exact I'|exact N']. unfold all. lia.
  - pose proof (sumf_at n (fun t => a2 (s_threads s' t)) (fun t => a2 (s_threads s t)) t LT ltac:(intros i D; cbn; now rewrite (O i D))) as F2. cbn in F2.
    pose proof (sumf_at n (fun t => a3 (s_threads s' t)) (fun t => a3 (s_threads s t)) t LT ltac:(intros i D; cbn; now rewrite (O i D))) as F3. cbn in F3.
    eapply IHz; [|unfold all; lia|unfold all; lia|reflexivity|exact I'|exact N']. unfold all. lia.
Qed.

Lemma comes_to_rest : forall s : state, reachable begins s -> Acc (fun s' s => goes_on begins s s') s.
Proof. intros s R. destruct (few_threads s R) as (n & N). exact (less_acc n s (inv_reachable begins s R) N). Qed.

Lemma no_endless : forall s : state, reachable begins s ->
  ~ exists f : nat -> state, f 0 = s /\ forall i, goes_on begins (f i) (f (S i)).
Proof.
  intros s R. pose proof (comes_to_rest s R) as A. clear R. induction A as [s _ IH]. intros (f & E & F).
  apply (IH (f 1)); [rewrite <- E; apply F|]. exists (fun i => f (S i)). auto.
Qed.

Lemma rest_is_idle : forall s : state, reachable begins s -> (forall s', ~ goes_on begins s s') -> orderly s ->
  (forall t o, uses s t o -> o_alive (s_objs s o) = true) -> forall t, idle s t.
Proof.
  intros s R N O U. destruct (no_deadlock begins s R O U) as [H|(t & (a & s' & S & A) & _)]; [exact H|].
  exfalso. apply (N s'). now exists t, a.
Qed.

Lemma nothing_left : forall s : state, reachable begins s -> (forall t, idle s t) -> s_terminate s = false -> s_stop s = false ->
  (exists t, tb s t = HWaiting) ->
  s_tasks s = [] /\ local_out (s_hist s) = local_in (s_hist s) /\
  forall o, o_alive (ob s o) = true -> taken o (s_log s) = pushed o (s_log s).
Proof.
  intros s R ID T P (w & W). pose proof (inv_reachable begins s R) as I.
  assert (TK : s_tasks s = []).
  { destruct (s_tasks s) as [|x l] eqn:E; [reflexivity|]. exfalso.
    destruct (somebody_awake begins s R T P) as (t & A); [now rewrite E|intro X; apply (i_wait s I) in W; now rewrite X in W|].
    unfold awake in A. destruct (ID t) as (_ & _ & B). destruct (tb s t); contradiction. }
  split; [exact TK|]. split.
  - rewrite (locals_reachable begins s R). destruct (local_reachable begins s R) as (_ & l & _ & IN & L). rewrite TK in L. cbn in L.
    destruct l as [|t l].
    + destruct (s_local s); [now rewrite app_nil_r|discriminate L].
    + exfalso. assert (X : In t (t :: l)) by now left. apply IN in X. unfold owes_of in X. destruct (ID t) as (_ & Y & B). rewrite Y in X.
      destruct (tb s t); try contradiction; discriminate X.
  - intros o A. rewrite (in_order begins s R o). destruct (o_queue (ob s o)) as [|m q] eqn:Q; [now rewrite app_nil_r|]. exfalso.
    assert (NQ : o_queue (ob s o) <> []) by congruence.
    destruct (not_stranded begins s R o A NQ) as [X|[(t & X)|[(t & X)|[(t & X)|(t & X)]]]].
    + rewrite TK in X. destruct X.
    + destruct (ID t) as (_ & Y & _). destruct X as [X|X]; congruence.
    + destruct (ID t) as (_ & _ & B). destruct X as [X|X]; rewrite X in B; exact B.
    + destruct (ID t) as (_ & _ & B). destruct X as [X|X]; [rewrite X in B; exact B|].
      destruct X as (id & X). destruct (tb s t); try contradiction; decompose [or] X; discriminate.
    + destruct (ID t) as (_ & _ & B). destruct X as (id & [X|[X|[X|X]]]); rewrite X in B; exact B.
Qed.

(** After [terminate] every handler thread ends. *)
Lemma terminate_done : forall s : state, reachable begins s -> s_terminate s = true -> (forall s', ~ goes_on begins s s') -> orderly s ->
  (forall t o, uses s t o -> o_alive (s_objs s o) = true) -> forall t, tb s t = BOther \/ tb s t = HDone.
Proof.
  intros s R T N O U t. destruct (rest_is_idle s R N O U t) as (_ & _ & B). pose proof (terminate_ends begins s R T t) as W.
  destruct (tb s t); try contradiction; auto.
Qed.

(** Where no handler thread is left, nothing is handled. *)
Lemma deserted_step : forall (s : state) t a s', inv s -> deserted s -> a <> ASpawn -> step begins t a s = Some s' ->
  deserted s' /\ forall o, taken o (s_log s') = taken o (s_log s).
Proof.
  intros s t a s' I D A S. split.
  - intro t'. destruct (Nat.eq_dec t' t) as [->|N].
    + destruct (step_own begins s t a s' I S) as [E|[(E & _)|(_ & F)]]; [rewrite E; apply D|specialize (D t); rewrite E in D; contradiction|].
      specialize (D t). remember (tb s t) as b eqn:B. remember (tb s' t) as b' eqn:B'. destruct F; try contradiction. exfalso.
      symmetry in B, B'. cases S S0 P0 B0; try congruence; cbn -[notify_all] in B'; rewrite ?fupd_same in B'; cbn -[notify_all] in B'; try congruence.
      * destruct (all_thread_cases (set_flag M b s) t) as [X|[X _]]; [apply (inv_same s _ I); auto|rewrite X in B'; cbn in B'; congruence|cbn in X; congruence].
      * destruct (Nat.eq_dec t w) as [->|N]; [|rewrite fupd_other in B' by exact N; congruence].
        assert (Y : tb s w = HWaiting); [|congruence].
        apply (i_wait s I). cbn in E0. rewrite E0. apply existsb_exists in E1. destruct E1 as (y & Y1 & Y2). apply Nat.eqb_eq in Y2. now subst.
    + destruct (step_others begins s t a s' I S t' N) as [E|[E _]]; [rewrite E; apply D|]. specialize (D t'). rewrite E in D. contradiction.
  - intro o. destruct (step_effect begins s t a s' S) as [L R X K|id o' m q T B AL Q B' L R X O K|id o' m T AL MS T' L R X O K
    |id m T FI BG T' L R X O K|id o' T B AL T' B' L R X O1 O2 O3 K|sk k o' todo T AL MU T' L R X O1 O2 O3 K]; rewrite L; try reflexivity;
    rewrite ?taken_app; cbn; rewrite ?app_nil_r; try reflexivity.
    exfalso. specialize (D t). rewrite B in D. exact D.
Qed.

Lemma deserted_exec : forall l (s s' : state), inv s -> deserted s -> Forall (fun x => snd x <> ASpawn) l -> exec begins l s = Some s' ->
  deserted s' /\ forall o, taken o (s_log s') = taken o (s_log s).
Proof.
  induction l as [|[t a] l IH]; intros s s' I D F H; cbn in H; [injection H as <-; auto|].
  inversion F as [|? ? F1 F2]; subst. destruct (step begins t a s) as [s1|] eqn:S; cbn in H; [|discriminate].
  destruct (deserted_step s t a s1 I D F1 S) as (D1 & T1).
  destruct (IH s1 s' (inv_step begins s t a s1 I S) D1 F2 H) as (D2 & T2). split; [exact D2|]. intro o. now rewrite T2, T1.
Qed.
End Ends.

Lemma late_request : exists s : Manager.state N, reachable is_begin s /\ s_stop s = true /\ s_terminate s = false /\
  o_alive (s_objs s 0) = true /\ pushed 0 (s_log s) = [7%N] /\
  forall l s', Forall (fun x => snd x <> ASpawn) l -> exec is_begin l s = Some s' -> taken 0 (s_log s') = [].
Proof.
  assert (X : after case_late (fun s => reachable is_begin s /\ deserted s /\ s_stop s = true /\ s_terminate s = false /\
    o_alive (s_objs s 0) = true /\ pushed 0 (s_log s) = [7%N] /\ taken 0 (s_log s) = [])).
  { eexists. split; [vm_compute; reflexivity|]. split; [exists case_late; vm_compute; reflexivity|].
    split; [intro t; destruct t as [|[|t]]; vm_compute; exact I|]. repeat (split; [reflexivity|]). reflexivity. }
  destruct X as (s & _ & R & D & A & B & C & E & F). exists s. do 5 (split; [assumption|]). intros l s' FA H.
  destruct (deserted_exec is_begin l s s' (inv_reachable is_begin s R) D FA H) as (_ & ->). exact F.
Qed.

Lemma rest_example : after case_resting (fun s => reachable is_begin s /\ (forall t, idle s t) /\ s_terminate s = false /\ s_stop s = false /\
  t_base (s_threads s 1) = HWaiting /\ o_alive (s_objs s 0) = true /\ pushed 0 (s_log s) = [7; 8]%N).
Proof.
  eexists. split; [vm_compute; reflexivity|]. split; [exists case_resting; vm_compute; reflexivity|].
  split; [intro t; destruct t as [|[|t]]; vm_compute; auto|]. repeat (split; [reflexivity|]). reflexivity.
Qed.
