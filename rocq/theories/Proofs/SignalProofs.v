(** Lemmas for C79. *)
From Coq Require Import List Bool Arith Lia.
From Verif Require Import Model.Race Model.Signals Spec.RaceSpec Spec.SignalSpec Proofs.RaceProofs.
Import ListNotations.

(** ** Signals to threads without the locks in question keep the discipline. *)
Lemma calm_below : forall t, harmless t -> forall m, (m = MTasks \/ m = MWaking) -> below m (t_held t) = true.
Proof.
  intros t H m M. unfold below. apply forallb_forall. intros [n x] I. cbn [fst]. apply Nat.ltb_lt.
  assert (N : harmful n = false).
  { destruct (harmful n) eqn:Q; [|reflexivity]. apply H in Q. exfalso. rewrite <- not_true_iff_false in Q. apply Q.
    apply existsb_exists. exists (n, x). split; [exact I|]. apply mutex_eqb_refl. }
  assert (rank n < 3) by (destruct n; cbn in *; try discriminate; lia).
  destruct M as [->| ->]; cbn [rank]; lia.
Qed.

Lemma holds_cons : forall m n x h, holds m ((n, x) :: h) = mutex_eqb n m || holds m h.
Proof. reflexivity. Qed.
Lemma release_cons : forall m x h, holds m h = false -> release m ((m, x) :: h) = h.
Proof.
  intros m x h H. unfold release. cbn [filter fst]. rewrite mutex_eqb_refl. cbn [negb].
  induction h as [|[n y] h IH]; [reflexivity|]. rewrite holds_cons in H. apply orb_false_iff in H as [A B].
  cbn [filter fst]. rewrite A. cbn [negb]. now rewrite IH.
Qed.
Lemma wt_signal : forall r t s k, harmless t -> wt r (t_held t) k [] -> wt r (t_held t) (signal_code s ++ k) [].
Proof.
  intros r t s k H W. apply (wt_app r _ _ (t_held t)); [|exact W].
  pose proof (calm_below t H MTasks (or_introl eq_refl)) as B1. pose proof (calm_below t H MWaking (or_intror eq_refl)) as B2.
  pose proof (H MTasks eq_refl) as F1. pose proof (H MWaking eq_refl) as F2.
  assert (R : release MTasks ((MTasks, true) :: t_held t) = t_held t) by now apply release_cons.
  assert (K : wt r ((MTasks, true) :: t_held t) wake ((MTasks, true) :: t_held t)).
  { unfold wake. apply wt_lock; [cbn [below forallb fst]; unfold below in B2; now rewrite B2|rewrite holds_cons; exact F2|].
    apply wt_read; [reflexivity|]. eapply wt_alt; [discriminate| |].
    - alt_case; [apply wt_nil|]. apply wt_write; [reflexivity|apply wt_nil].
    - apply wt_unlock; [reflexivity|]. rewrite release_cons; [apply wt_nil|]. rewrite holds_cons. exact F2. }
  destruct s; cbn [signal_code]; unfold mgr_stop, mgr_terminate; cbn [app].
  - apply wt_lock; [exact B1|exact F1|]. apply wt_write; [reflexivity|]. unfold accept. cbn [app].
    eapply wt_alt; [discriminate| |].
    + alt_case; [apply wt_nil|exact K].
    + apply wt_unlock; [reflexivity|]. rewrite R. apply wt_nil.
  - apply wt_lock; [exact B1|exact F1|]. apply wt_write; [reflexivity|]. eapply wt_app; [exact K|].
    apply wt_unlock; [reflexivity|]. rewrite R. apply wt_nil.
Qed.

Lemma calm_inv : forall rs l c c', cinv rs c -> calm l c -> srun l c = Some c' -> cinv rs c'.
Proof.
  intros rs l. induction l as [|e l IH]; intros c c' I C H; [now injection H as <-|].
  cbn [calm srun] in *. destruct C as [C1 C2]. destruct (sstep e c) as [c1|] eqn:E; [|discriminate].
  apply (IH c1); auto. destruct e as [i ch|i s]; cbn [sstep] in E; [eapply tstep_inv; eauto|].
  destruct (nth_error c i) as [t|] eqn:N; [|discriminate]. specialize (C1 t eq_refl).
  pose proof (ci_wt _ _ I i t N) as W. pose proof (wt_signal _ _ s _ C1 W) as W'.
  destruct (t_code t) as [|o k]; [discriminate|]. injection E as <-. eapply keep; eauto.
Qed.
Lemma calm_reach_inv : forall c, calm_reach c -> exists n m, cinv (roles n m) c.
Proof. intros c (n & m & l & C & H). exists n, m. eapply calm_inv; [apply init_inv|exact C|exact H]. Qed.

Lemma calm_no_cycle : forall c i, calm_reach c -> ~ waits_chain c i i.
Proof. intros c i R. destruct (calm_reach_inv c R) as (a & b & I). exact (no_cycle_inv _ c i I). Qed.
Lemma calm_no_deadlock : forall c i t, calm_reach c -> nth_error c i = Some t -> t_code t <> [] ->
  free_to_go c i \/ exists j, waits_chain c i j /\ free_to_go c j.
Proof. intros c i t R. destruct (calm_reach_inv c R) as (a & b & I). exact (no_deadlock_inv _ c i t I). Qed.
Lemma calm_races : forall c f r1 w1 r2 w2, calm_reach c -> race c f r1 w1 r2 w2 ->
  known_race f r1 w1 r2 w2 \/ known_race f r2 w2 r1 w1.
Proof. intros c f r1 w1 r2 w2 R. destruct (calm_reach_inv c R) as (n & m & I). exact (races_inv n m c f r1 w1 r2 w2 I). Qed.
Lemma calm_disciplined : forall c i t, calm_reach c -> nth_error c i = Some t ->
  (forall m, about_lock t = Some m -> holds m (t_held t) = false)
  /\ (forall m, about_unlock t = Some m -> holds m (t_held t) = true)
  /\ (t_code t = [] -> t_held t = []).
Proof. intros c i t R. destruct (calm_reach_inv c R) as (n & m & I). exact (disciplined_inv _ c i t I). Qed.

(** ** What is stuck stays stuck. *)
Lemma blocked_stays : forall c i j t u ch, nth_error c i = Some t -> nth_error c j = Some u -> blocks t u -> tstep i ch c = None.
Proof.
  intros c i j t u ch E F B. unfold tstep. rewrite E. unfold blocks in B. apply nth_error_In in F.
  destruct (t_code t) as [|[]]; try contradiction.
  - replace (existsb _ c) with true; [reflexivity|]. symmetry. apply existsb_exists. eauto.
  - replace (existsb _ c) with true; [reflexivity|]. symmetry. apply existsb_exists. eauto.
Qed.
Lemma tstep_other : forall i ch c c', tstep i ch c = Some c' -> forall j, j <> i -> nth_error c' j = nth_error c j.
Proof.
  intros i ch c c' H j N. unfold tstep in H. destruct (nth_error c i) as [t|] eqn:E; [|discriminate].
  assert (L : i < length c) by (apply nth_error_Some; congruence).
  assert (P : forall t', nth_error (put i t' c) j = nth_error c j).
  { intro t'. rewrite put_nth by exact L. now apply Nat.eqb_neq in N as ->. }
  destruct (t_code t) as [|o k]; [discriminate|]. destruct o; cbv zeta in H;
    repeat match type of H with
    | context [if ?b then _ else _] => destruct b
    | context [match nth_error ?l ?n with _ => _ end] => destruct (nth_error l n)
    end; try discriminate; injection H as <-; apply P.
Qed.

(** What is left of a thread: the same with handlers on top. *)
Definition grown (c c' : list thread) (i : nat) : Prop :=
  exists t t' pre, nth_error c i = Some t /\ nth_error c' i = Some t' /\ t_held t' = t_held t /\ t_code t' = pre ++ t_code t.

Lemma signal_first : forall s k, exists k', signal_code s ++ k = Lock MTasks :: k'.
Proof. intros [] k; cbn; eauto. Qed.

Lemma stuck_step : forall S e c c', stuck c S -> with_tasks c S -> sstep e c = Some c' ->
  stuck c' S /\ with_tasks c' S /\ forall i, In i S -> grown c c' i.
Proof.
  intros S e c c' K T H. destruct e as [i ch|i s]; cbn [sstep] in H.
  - assert (N : ~ In i S).
    { intro Q. destruct (K i Q) as (t & j & u & A & _ & B & D). rewrite (blocked_stays c i j t u ch A B D) in H. discriminate. }
    assert (O : forall j, In j S -> nth_error c' j = nth_error c j).
    { intros j Q. apply (tstep_other i ch c c' H). intro. subst. contradiction. }
    split; [|split].
    + intros j Q. destruct (K j Q) as (t & k & u & A & B & D & E). exists t, k, u. rewrite !O by assumption. auto.
    + destruct T as (j & t & A & B & D). exists j, t. rewrite O by assumption. auto.
    + intros j Q. destruct (K j Q) as (t & _ & _ & A & _). exists t, t, []. rewrite O by assumption. auto.
  - destruct (nth_error c i) as [t|] eqn:E; [|discriminate]. assert (L : i < length c) by (apply nth_error_Some; congruence).
    assert (exists k, c' = put i (mkT (t_role t) (t_held t) (signal_code s ++ k)) c /\ t_code t = k) as (k & -> & Ck).
    { destruct (t_code t) as [|o k] eqn:Q; [discriminate|]. injection H as <-. eauto. }
    clear H. set (t1 := mkT (t_role t) (t_held t) (signal_code s ++ k)).
    assert (O : forall j u, nth_error c j = Some u -> exists u', nth_error (put i t1 c) j = Some u' /\ t_held u' = t_held u).
    { intros j u Q. rewrite put_nth by exact L. destruct (Nat.eqb_spec j i) as [->|]; [|eauto]. exists t1. split; [reflexivity|].
      assert (u = t) by congruence. now subst. }
    split; [|split].
    + intros j Q. destruct (Nat.eq_dec j i) as [->|Nj].
      * destruct T as (n & v & A & B & D). destruct (O n v B) as (v' & B' & Hv).
        exists t1, n, v'. rewrite put_nth, Nat.eqb_refl by exact L. split; [reflexivity|]. split; [exact A|]. split; [exact B'|].
        unfold blocks. cbn [t_code t1]. destruct (signal_first s k) as [k' Ek]. unfold t1. cbn [t_code]. rewrite Ek, Hv. exact D.
      * destruct (K j Q) as (v & n & u & A & B & D & F). destruct (O n u D) as (u' & D' & Hu). exists v, n, u'.
        rewrite put_nth by exact L. apply Nat.eqb_neq in Nj. rewrite Nj. split; [exact A|]. split; [exact B|]. split; [exact D'|].
        unfold blocks in *. now rewrite Hu.
    + destruct T as (n & v & A & B & D). destruct (O n v B) as (v' & B' & Hv). exists n, v'. rewrite Hv. auto.
    + intros j Q. destruct (Nat.eq_dec j i) as [->|Nj].
      * exists t, t1, (signal_code s). rewrite put_nth, Nat.eqb_refl by exact L. rewrite Ck. auto.
      * destruct (K j Q) as (v & _ & _ & A & _). exists v, v, []. rewrite put_nth by exact L. apply Nat.eqb_neq in Nj. rewrite Nj. auto.
Qed.
Lemma grown_trans : forall a b c i, grown a b i -> grown b c i -> grown a c i.
Proof.
  intros a b c i (t & t1 & p & A & B & C & D) (t2 & t3 & q & E & F & G & H). assert (t2 = t1) by congruence. subst t2.
  exists t, t3, (q ++ p). rewrite <- app_assoc, <- D, <- C. auto.
Qed.
Lemma stuck_forever : forall S l c c', stuck c S -> with_tasks c S -> srun l c = Some c' ->
  stuck c' S /\ forall i, In i S -> exists t t' pre, nth_error c i = Some t /\ nth_error c' i = Some t'
                                     /\ t_held t' = t_held t /\ t_code t' = pre ++ t_code t.
Proof.
  intros S l. induction l as [|e l IH]; intros c c' K T H.
  - injection H as <-. split; [exact K|]. intros i Q. destruct (K i Q) as (t & _ & _ & A & _). exists t, t, []. auto.
  - cbn [srun] in H. destruct (sstep e c) as [c1|] eqn:E; [|discriminate].
    destruct (stuck_step S e c c1 K T E) as (K1 & T1 & G1). destruct (IH c1 c' K1 T1 H) as (K2 & G2).
    split; [exact K2|]. intros i Q. exact (grown_trans c c1 c' i (G1 i Q) (G2 i Q)).
Qed.

(** ** Each of the four locks does harm. *)
Ltac kill h o l1 i l2 S := exists h, o, l1; eexists; exists i; eexists; exists l2; eexists; exists S;
  split; [vm_compute; reflexivity|]; split; [vm_compute; reflexivity|];
  split; [intros [| | |r|r| | | | | |] H; try discriminate H; try reflexivity; destruct r; reflexivity|];
  split; [vm_compute; reflexivity|]; split; [cbn; auto 10|].
Ltac one j := eexists; exists j; eexists; split; [reflexivity|]; split; [cbn; auto 10|]; split; reflexivity.
Ltac has j := exists j; eexists; split; [cbn; auto 10|]; split; reflexivity.

Lemma kills_tasks : forall s, kills MTasks s.
Proof.
  intros []; kill 1 1 (at_thread 1 [1;2;0]) 1 (@nil (nat * nat)) [1]; (split; [intros i [<-|[]]; one 1|has 1]).
Qed.
Definition io_woken : list (nat * nat) := at_thread 0 [0;1;1;0;0;0;0;1;0;2;0].
Lemma kills_waking : forall s, kills MWaking s.
Proof.
  intros []; [kill 1 1 io_woken 0 (at_thread 0 [0;0;1]) [0]|kill 1 1 io_woken 0 (at_thread 0 [0;0]) [0]];
    (split; [intros i [<-|[]]; one 0|has 0]).
Qed.
Lemma kills_requests : forall s, kills MRequests s.
Proof.
  intros []; kill 1 1 (at_thread 6 [1;2;0]) 6 (at_thread 5 [0]) [5;6];
    (split; [intros i [<-|[<-|[]]]; [one 6|one 5]|has 5]).
Qed.
Lemma kills_queue : forall s, kills (MQueue 0) s.
Proof.
  intros []; kill 2 1 (at_thread 5 (handler_in ++ [1;0;0;1;0;1;0;0])) 5 (at_thread 7 [1;2;0;0;2;0] ++ at_thread 6 [0]) [5;6;7];
    (split; [intros i [<-|[<-|[<-|[]]]]; [one 6|one 7|one 5]|has 6]).
Qed.
