(** Progress of the threads, and the notification of a lost connection. *)
From Coq Require Import List NArith Bool Arith Lia.
From Verif Require Import Model.Base Model.RequestMap Model.Manager Spec.ManagerSpec Proofs.RequestMapProofs
  Proofs.ManagerProofs Proofs.ManagerStep Proofs.ManagerFacts Proofs.ManagerStop.
Import ListNotations.

Section Proofs.
Context {M : Type}.
Variable begins : M -> bool.
Notation state := (Manager.state M).
Notation tb s t := (t_base (s_threads s t)).
Notation tp s t := (t_push (s_threads s t)).
Notation ts s t := (t_sig (s_threads s t)).
Notation ob s o := (s_objs s o).

(* ------------------------------------------------------------------ *)
(** * Progress *)

Lemma go_run : forall (s : state) t w s', step begins t (ARun w) s = Some s' -> ~ wants_read s t -> can_go begins s t.
Proof. intros s t w s' H N. split; [exists (ARun w), s'; auto|contradiction]. Qed.

Lemma go_base : forall (s : state) t s', ts s t = None -> tp s t = None -> base_step M t (tb s t) s = Some s' -> ~ wants_read s t -> can_go begins s t.
Proof. intros s t s' S P H N. apply (go_run s t 0 s'); auto. cbn. now rewrite S, P. Qed.

Lemma go_push : forall (s : state) t p w s', ts s t = None -> tp s t = Some p -> push_step M begins t w p s = Some s' -> can_go begins s t.
Proof.
  intros s t p w s' S P H. apply (go_run s t w s'); auto; [cbn; now rewrite S, P|].
  intros (_ & X & _). congruence.
Qed.

Ltac nowr B := let X := fresh in intros (_ & _ & X); rewrite B in X; exact X.

(** Who holds the lock on the messages of a request can go on. *)
Lemma msgs_go : forall (s : state) t o, inv s -> orderly s -> o_alive (ob s o) = true -> o_msgs (ob s o) = Some t -> can_go begins s t.
Proof.
  intros s t o I OR A H. pose proof (i_msgs' s I t o A H) as B.
  assert (P : tp s t = None).
  { destruct (tp s t) eqn:P; [|reflexivity]. exfalso. destruct (i_push s I t) as [X|(i & x & X)]; [congruence| |]; rewrite X in B; discriminate. }
  assert (S : ts s t = None).
  { destruct (ts s t) as [k|] eqn:S; [|reflexivity]. exfalso. destruct (OR t k S) as [_ X]. destruct (tb s t); cbn in B; try discriminate; contradiction. }
  destruct (tb s t) eqn:E; cbn in B; try discriminate B.
  - destruct held; [|discriminate]. destruct (valid (r_socket id) s) eqn:V.
    + eapply go_base; eauto; [rewrite E; cbn; rewrite V; reflexivity|nowr E].
    + eapply go_base; eauto; [rewrite E; cbn; rewrite V; reflexivity|nowr E].
  - injection B as ->. eapply go_base; eauto; [rewrite E; cbn; unfold touch; rewrite A; reflexivity|nowr E].
  - injection B as ->. eapply go_base; eauto; [rewrite E; cbn; unfold touch; rewrite A; reflexivity|nowr E].
  - injection B as ->. eapply go_base; eauto; [rewrite E; cbn; unfold touch; rewrite A; reflexivity|nowr E].
  - injection B as ->. destruct (o_queue (ob s o)) eqn:Q;
    (eapply go_base; eauto; [rewrite E; cbn; unfold touch; rewrite A, Q; reflexivity|nowr E]).
  - injection B as ->. eapply go_base; eauto; [rewrite E; cbn; unfold touch; rewrite A; reflexivity|nowr E].
Qed.

(** Only finitely many threads have ever done anything. *)
Lemma finite_reachable : forall s : state, reachable begins s -> exists n, forall t, n <= t -> s_threads s t = mkThread BOther None None.
Proof.
  apply (reach_ind begins (fun s => exists n, forall t, n <= t -> s_threads s t = mkThread BOther None None)).
  - exists 0. reflexivity.
  - intros s t a s' I (n & F) S. exists (max n (Datatypes.S t)). intros t' L.
    destruct (step_others begins s t a s' I S t') as [X|[X Y]]; [lia| |].
    + rewrite X. apply F. lia.
    + rewrite F in X by lia. discriminate.
Qed.

Lemma bounded_search : forall (p : nat -> bool) n, (exists t, p t = true) \/ (forall t, t < n -> p t = false).
Proof.
  induction n as [|n IH]; [right; intros; lia|]. destruct IH as [IH|IH]; [now left|].
  destruct (p n) eqn:E; [left; eauto|]. right. intros t L. destruct (Nat.eq_dec t n) as [->|]; [exact E|]. apply IH. lia.
Qed.

Definition wants_writeb (s : state) (t : nat) : bool :=
  match ts s t with
  | Some _ => false
  | None =>
      match tp s t with
      | Some (PWant _ _) | Some (PBadWant _) => true
      | Some _ => false
      | None => match tb s t with HWant _ _ => true | _ => false end
      end
  end.
Lemma wants_writeb_ok : forall (s : state) t, wants_writeb s t = true <-> wants_write s t.
Proof.
  intros s t. unfold wants_writeb, wants_write. destruct (ts s t); [split; [discriminate|intros []; discriminate]|].
  destruct (tp s t) as [[]|]; cbn; try (split; [tauto|reflexivity]); try (split; [discriminate|tauto]).
  destruct (tb s t); split; try discriminate; try tauto; reflexivity.
Qed.
Definition idleb (s : state) (t : nat) : bool :=
  match ts s t, tp s t, tb s t with
  | None, None, BOther | None, None, HWaiting | None, None, HDone => true
  | _, _, _ => false
  end.
Lemma idleb_ok : forall (s : state) t, idleb s t = true -> idle s t.
Proof.
  intros s t. unfold idleb, idle. destruct (ts s t); [discriminate|]. destruct (tp s t); [discriminate|].
  destruct (tb s t); try discriminate; auto.
Qed.

Lemma progress : forall s : state, reachable begins s -> orderly s -> (forall t o, uses s t o -> o_alive (ob s o) = true) ->
  (forall t, idle s t) \/ exists t, can_go begins s t.
Proof.
  intros s R OR US. pose proof (inv_reachable begins s R) as I.
  (* a holder of the exclusive lock *)
  destruct (s_writer s) as [w|] eqn:W.
  { right.
    assert (X : base_write (tb s w) = true \/ push_write (tp s w) = true) by now apply (i_writer s I).
    assert (S : ts s w = None).
    { destruct (ts s w) as [k|] eqn:S; [|reflexivity]. exfalso. destruct (OR w k S) as [P B].
      rewrite P in X. destruct X as [X|X]; [|discriminate]. destruct (tb s w); try discriminate; contradiction. }
    destruct (tp s w) as [p|] eqn:P.
    - destruct p; cbn in X; try (exfalso; destruct X as [X|X]; [|discriminate];
        destruct (i_push s I w) as [Z|(i & x & Z)]; [congruence| |]; rewrite Z in X; discriminate).
      + destruct todo as [|[k o] todo]; [exists w; eapply (go_push s w _ 0); eauto; reflexivity|].
        assert (A : o_alive (ob s o) = true) by (apply (US w); unfold uses; rewrite P; reflexivity).
        destruct (o_mutex (ob s o)) eqn:MX; exists w; eapply (go_push s w _ 0); eauto; cbn; unfold touch; rewrite A, MX; reflexivity.
      + destruct (map_find id (s_requests s)) eqn:F; [|destruct (begins m) eqn:BG];
        exists w; eapply (go_push s w _ 0); eauto; cbn; rewrite F, ?BG; reflexivity.
      + assert (A : o_alive (ob s o) = true) by (apply (US w); unfold uses; rewrite P; reflexivity).
        destruct (o_msgs (ob s o)) as [t'|] eqn:MS; [exists t'; eapply msgs_go; eauto|].
        exists w; eapply (go_push s w _ 0); eauto; cbn; unfold touch; rewrite A, MS; reflexivity.
      + exists w; eapply (go_push s w _ 0); eauto; reflexivity.
      + exists w; eapply (go_push s w _ 0); eauto; reflexivity.
    - destruct X as [X|X]; [|discriminate]. exists w. destruct (tb s w) eqn:B; try discriminate X.
      + assert (A : o_alive (ob s o) = true) by (apply (US w); unfold uses; rewrite P, B; reflexivity).
        eapply go_base; eauto; [rewrite B; cbn; unfold touch; rewrite A; reflexivity|nowr B].
      + assert (A : o_alive (ob s o) = true) by (apply (US w); unfold uses; rewrite P, B; reflexivity).
        eapply go_base; eauto; [rewrite B; cbn; unfold touch; rewrite A; reflexivity|nowr B].
      + eapply go_base; eauto; [rewrite B; reflexivity|nowr B]. }
  (* a holder of the shared lock *)
  destruct (s_readers s) as [|r rs] eqn:RD.
  2: { right. exists r.
    assert (X : base_read (tb s r) = true) by (apply (i_readers s I); rewrite RD; now left).
    assert (P : tp s r = None).
    { destruct (tp s r) eqn:P; [|reflexivity]. exfalso. destruct (i_push s I r) as [Z|(i & x & Z)]; [congruence| |]; rewrite Z in X; discriminate. }
    assert (S : ts s r = None).
    { destruct (ts s r) as [k|] eqn:S; [|reflexivity]. exfalso. destruct (OR r k S) as [_ B].
      destruct (tb s r); try discriminate; contradiction. }
    destruct (tb s r) eqn:B; try discriminate X.
    - destruct (running s) eqn:RN; (eapply go_base; eauto; [rewrite B; cbn [base_step]; rewrite RN; reflexivity|nowr B]).
    - destruct (map_find id (s_requests s)) as [o|] eqn:F.
      + assert (A : o_alive (ob s o) = true) by (apply (US r); unfold uses; rewrite P, B; exact F).
        destruct (o_mutex (ob s o)) eqn:MX; (eapply go_base; eauto; [rewrite B; cbn; rewrite F; unfold touch; rewrite A, MX; reflexivity|nowr B]).
      + eapply go_base; eauto; [rewrite B; cbn; rewrite F; reflexivity|nowr B].
    - eapply go_base; eauto; [rewrite B; reflexivity|nowr B].
    - destruct (running s) eqn:RN; (eapply go_base; eauto; [rewrite B; cbn [base_step]; rewrite RN; reflexivity|nowr B]).
    - eapply go_base; eauto; [rewrite B; reflexivity|nowr B]. }
  destruct (finite_reachable s R) as (n & FIN).
  (* someone wants the exclusive lock *)
  destruct (bounded_search (wants_writeb s) n) as [(t & WW)|NW].
  { right. exists t. apply wants_writeb_ok in WW. destruct WW as [S WW].
    destruct (tp s t) as [p|] eqn:P.
    - destruct p; try contradiction WW.
      + eapply (go_push s t _ 0); eauto. cbn. unfold lock_write. rewrite W, RD. reflexivity.
      + eapply (go_push s t _ 0); eauto. cbn. unfold lock_write. rewrite W, RD. reflexivity.
    - destruct (tb s t) eqn:B; try contradiction WW.
      eapply go_base; eauto; [rewrite B; cbn; unfold lock_write; rewrite W, RD; reflexivity|nowr B]. }
  assert (NWW : forall t, ~ wants_write s t).
  { intros t X. apply wants_writeb_ok in X. destruct (Nat.lt_ge_cases t n) as [L|L]; [rewrite NW in X by exact L; discriminate|].
    unfold wants_writeb in X. rewrite FIN in X by exact L. discriminate. }
  assert (GO : forall t w s', step begins t (ARun w) s = Some s' -> can_go begins s t).
  { intros t w s' H. split; [exists (ARun w), s'; auto|intros; apply NWW]. }
  assert (GB : forall t s', ts s t = None -> tp s t = None -> base_step M t (tb s t) s = Some s' -> can_go begins s t).
  { intros t s' S P H. apply (GO t 0 s'). cbn. now rewrite S, P. }
  (* a holder of the lock on the tasks *)
  destruct (s_tasksLock s) as [h|] eqn:TL.
  { right. exists h.
    assert (X : base_tasks (tb s h) = true) by now apply (i_tasks s I).
    assert (P : tp s h = None).
    { destruct (tp s h) eqn:P; [|reflexivity]. exfalso. destruct (i_push s I h) as [Z|(i & x & Z)]; [congruence| |]; rewrite Z in X; discriminate. }
    assert (S : ts s h = None).
    { destruct (ts s h) as [k|] eqn:S; [|reflexivity]. exfalso. destruct (OR h k S) as [_ B].
      destruct (tb s h); try discriminate; contradiction. }
    destruct (tb s h) eqn:B; try discriminate X.
    - eapply GB; eauto. rewrite B. cbn. unfold lock_read. rewrite W. reflexivity.
    - destruct (running s) eqn:RN; eapply GB; eauto; rewrite B; cbn [base_step]; rewrite RN; reflexivity.
    - destruct (s_tasks s) eqn:T; eapply GB; eauto; rewrite B; cbn [base_step]; rewrite T; reflexivity.
    - eapply GB; eauto. rewrite B. cbn. unfold lock_read. rewrite W. reflexivity.
    - destruct (running s) eqn:RN; eapply GB; eauto; rewrite B; cbn [base_step]; rewrite RN; reflexivity.
    - eapply GB; eauto. rewrite B. reflexivity.
    - eapply GB; eauto. rewrite B. reflexivity.
    - eapply GB; eauto. rewrite B. reflexivity. }
  (* nobody holds any of these *)
  destruct (bounded_search (fun t => negb (idleb s t)) n) as [(t & NI)|AI].
  2: { left. intro t. apply idleb_ok. destruct (Nat.lt_ge_cases t n) as [L|L]; [apply AI in L; now apply negb_false_iff in L|].
       unfold idleb. now rewrite FIN. }
  right. apply negb_true_iff in NI. unfold idleb in NI.
  destruct (ts s t) as [k|] eqn:S.
  { exists t. eapply (GO t 0). cbn. rewrite S. unfold sig_step. rewrite TL. reflexivity. }
  destruct (tp s t) as [p|] eqn:P.
  { assert (PW : push_write (tp s t) = false).
    { destruct (push_write (tp s t)) eqn:E; [|reflexivity]. assert (X : s_writer s = Some t) by (apply (i_writer s I); now right). congruence. }
    rewrite P in PW. exists t. destruct p; try discriminate PW.
    - cbn in *. destruct (N.eqb (r_id id) 0) eqn:Z1; [|destruct (N.eqb (r_id id) 65535) eqn:Z2]; eapply (GO t 0); cbn; rewrite S, P; cbn; rewrite Z1, ?Z2; reflexivity.
    - eapply (GO t 0). cbn. rewrite S, P. reflexivity.
    - eapply (GO t 0). cbn. rewrite S, P. cbn. unfold lock_write. rewrite W, RD. reflexivity.
    - eapply (GO t 0). cbn. rewrite S, P. cbn. unfold lock_write. rewrite W, RD. reflexivity.
    - destruct (s_waiters s) as [|x ws] eqn:WS; eapply (GO t (hd 0 (s_waiters s))); cbn [step]; rewrite S, P; cbn [push_step]; rewrite TL;
      unfold notify_one; cbn [set_tasks s_waiters]; rewrite WS; [reflexivity|]. cbn [hd existsb]. rewrite Nat.eqb_refl. reflexivity. }
  destruct (tb s t) eqn:B; try discriminate NI;
  try (exists t; eapply GB; eauto; rewrite B; reflexivity);
  try (exfalso; assert (X : s_writer s = Some t) by (apply (i_writer s I); rewrite B; now left); congruence);
  try (exfalso; assert (X : s_tasksLock s = Some t) by (apply (i_tasks s I); rewrite B; reflexivity); congruence);
  try (exfalso; assert (X : In t (s_readers s)) by (apply (i_readers s I); rewrite B; reflexivity); rewrite RD in X; destruct X);
  try (exists t; eapply GB; eauto; rewrite B; cbn; unfold lock_tasks, lock_read, lock_write; rewrite ?TL, ?W, ?RD; reflexivity);
  try (assert (A : o_alive (ob s o) = true) by (apply (US t); unfold uses; rewrite P, B; reflexivity);
       exists t; eapply GB; eauto; rewrite B; cbn; unfold touch; rewrite A; reflexivity).
  - (* HPopped *)
    exists t. destruct (N.eqb (r_id id) 0) eqn:Z; eapply GB; eauto; rewrite B; cbn; rewrite Z; unfold lock_read; rewrite ?W; reflexivity.
  - (* HLocal *)
    pose proof (local_nonempty begins s R t B) as LN. destruct (s_local s) as [|[lm lsk] ll] eqn:L; [congruence|].
    exists t. eapply GB; eauto. rewrite B. cbn. rewrite L. reflexivity.
  - (* HRet *)
    exists t. destruct (negb held || negb (valid (r_socket id) s)) eqn:Z; eapply GB; eauto; rewrite B; cbn; rewrite Z; reflexivity.
  - (* RLock *)
    assert (A : o_alive (ob s o) = true) by (apply (US t); unfold uses; rewrite P, B; reflexivity).
    destruct (o_msgs (ob s o)) as [t'|] eqn:MS; [exists t'; eapply msgs_go; eauto|].
    exists t. eapply GB; eauto. rewrite B. cbn. unfold touch. rewrite A, MS. reflexivity.
  - (* RCheck *)
    assert (A : o_alive (ob s o) = true) by (apply (US t); unfold uses; rewrite P, B; reflexivity).
    exists t. destruct (o_queue (ob s o)) eqn:Q; eapply GB; eauto; rewrite B; cbn; unfold touch; rewrite A, Q; reflexivity.
  - (* RProc *)
    assert (A : o_alive (ob s o) = true) by (apply (US t); unfold uses; rewrite P, B; reflexivity).
    exists t. split; [|intros; apply NWW]. exists (AReturn true). eexists. split; [|exact Logic.I].
    cbn. rewrite S, P, B. unfold touch. rewrite A. reflexivity.
Qed.

(* ------------------------------------------------------------------ *)
(** * Notification of a lost connection *)

Lemma handles_mutex : forall (s : state) t o, inv s -> o_alive (ob s o) = true -> o_mutex (ob s o) = Some t -> handles s t o.
Proof.
  intros s t o I A H. apply (i_mutex s I) in H; [|exact A]. unfold handles.
  destruct (tb s t); cbn in H; try discriminate; try (injection H as ->; reflexivity).
  destruct o0; congruence.
Qed.

(** While another thread has the exclusive lock no request comes or goes. *)
Lemma locked_alive : forall (s : state) t t' a s', inv s -> s_writer s = Some t -> t' <> t -> step begins t' a s = Some s' ->
  forall o, o_alive (ob s' o) = o_alive (ob s o) /\ o_rid (ob s' o) = o_rid (ob s o).
Proof.
  intros s t t' a s' I W N S o.
  assert (X : forall b p, base_write b = true \/ push_write p = true -> tb s t' = b -> tp s t' = p -> False).
  { intros b p H E1 E2. assert (Y : s_writer s = Some t') by (apply (i_writer s I); rewrite E1, E2; exact H). congruence. }
  apply step_effect in S. destruct S.
  - destruct (H2 o) as (-> & -> & _). auto.
  - destruct (Nat.eq_dec o o0) as [->|NO]; [rewrite H7; cbn; auto|]. destruct (H8 o NO) as (-> & -> & _). auto.
  - exfalso. eapply X; [|reflexivity|exact H]. now right.
  - exfalso. eapply X; [|reflexivity|exact H]. now right.
  - exfalso. eapply X; [|exact H0|reflexivity]. now left.
  - exfalso. eapply X; [|reflexivity|exact H]. now right.
Qed.

(** A request nobody handles is erased. *)
Lemma bad_erases : forall (s : state) t a s' sk k o todo, step begins t a s = Some s' -> tp s t = Some (PBad sk ((k, o) :: todo)) ->
  tp s' t = Some (PBad sk todo) -> o_mutex (ob s o) = None -> o_alive (ob s' o) = false.
Proof.
  intros s t a s' sk k o todo H P P' MX.
  assert (NA : forall s1 : state, tp (notify_all M s1) t = tp s1 t) by (intro s1; apply all_threads).
  assert (L : Some (PBad sk ((k, o) :: todo)) <> Some (PBad sk todo) :> option (ppc M)).
  { intro E. injection E as E. apply (f_equal (@length _)) in E. cbn in E. lia. }
  cases H S0 P0 B0; try discriminate P; try (rewrite P in P0; discriminate P0);
  try (exfalso; apply L; rewrite <- P, <- P'; cbn -[notify_all]; rewrite ?fupd_same; cbn -[notify_all]; rewrite ?NA; try reflexivity; assumption).
  all: injection P as -> -> -> ->; try congruence.
  cbn. now rewrite fupd_same.
Qed.

Lemma bad_segment : forall l (s1 s2 : state) t sk todo, inv s1 ->
  tp s1 t = Some (PBad sk todo) ->
  (forall l1 l2 s', l = l1 ++ l2 -> l2 <> [] -> exec begins l1 s1 = Some s' -> exists todo, tp s' t = Some (PBad sk todo)) ->
  exec begins l s1 = Some s2 -> tp s2 t = Some PEnd ->
  (forall o, o_alive (ob s2 o) = true -> r_socket (o_rid (ob s2 o)) = sk ->
     o_alive (ob s1 o) = true /\ o_rid (ob s1 o) = o_rid (ob s2 o) /\
     (In o (map snd todo) -> exists l1 l2 s' t', l = l1 ++ l2 /\ exec begins l1 s1 = Some s' /\ o_alive (ob s' o) = true /\ handles s' t' o)) /\
  (forall o, o_alive (ob s1 o) = true -> r_socket (o_rid (ob s1 o)) <> sk -> o_alive (ob s2 o) = true).
Proof.
  induction l as [|[t1 a] l IH]; intros s1 s2 t sk todo I P SEG X PE.
  { cbn in X. injection X as <-. congruence. }
  cbn in X. destruct (step begins t1 a s1) as [s1'|] eqn:S; cbn in X; [|discriminate].
  assert (I' : inv s1') by (eapply inv_step; eauto).
  assert (W : s_writer s1 = Some t) by (apply (i_writer s1 I); rewrite P; now right).
  (* the end is reached in this step, or later *)
  assert (C : (l = [] /\ s1' = s2) \/ exists todo', tp s1' t = Some (PBad sk todo')).
  { destruct l as [|x l]; [left; cbn in X; injection X as ->; auto|right].
    apply (SEG [(t1, a)] (x :: l)); [reflexivity|discriminate|]. cbn. rewrite S. reflexivity. }
  (* what this step does *)
  assert (STEP : (forall o, o_alive (ob s1' o) = true -> o_alive (ob s1 o) = true /\ o_rid (ob s1' o) = o_rid (ob s1 o)) /\
     (forall o, o_alive (ob s1 o) = true -> r_socket (o_rid (ob s1 o)) <> sk -> o_alive (ob s1' o) = true /\ o_rid (ob s1' o) = o_rid (ob s1 o)) /\
     (forall todo', tp s1' t = Some (PBad sk todo') -> forall o, In o (map snd todo) -> o_alive (ob s1' o) = true ->
        In o (map snd todo') \/ exists t', handles s1 t' o) /\
     (tp s1' t = Some PEnd -> todo = [])).
  { destruct (Nat.eq_dec t1 t) as [->|N].
    - pose proof (step_effect begins s1 t a s1' S) as FX.
      destruct (step_pushes begins s1 t a s1' S) as [E|F].
      + (* the push did not move *)
        destruct FX; try congruence.
        * split; [|split; [|split]].
          -- intros o A. destruct (H2 o) as (-> & EA & _). split; congruence.
          -- intros o A _. destruct (H2 o) as (-> & EA & _). split; congruence.
          -- intros todo' P' o J _. left. assert (todo' = todo) by congruence. now subst.
          -- congruence.
        * exfalso. rewrite E, H in H2. injection H2 as H2. apply (f_equal (@length _)) in H2. cbn in H2. lia.
      + rewrite P in F. inversion F as [| | | | | |sk0 k o0 todo0 EA E1 E2|sk0 E1 E2| | | | | | |]; subst.
        * (* the next request *)
          symmetry in E2. destruct FX; try congruence.
          -- split; [|split; [|split]].
             ++ intros o A. destruct (H2 o) as (-> & EB & _). split; congruence.
             ++ intros o A _. destruct (H2 o) as (-> & EB & _). split; congruence.
             ++ intros todo' P' o J A. injection P' as <-. cbn in J. destruct J as [<-|J]; [|now left].
                right. destruct (o_mutex (ob s1 o0)) as [t'|] eqn:MX; [exists t'; now apply handles_mutex|]. exfalso.
                rewrite (bad_erases s1 t a s1' sk k o0 todo0 S P E2 MX) in A. discriminate.
             ++ congruence.
          -- rewrite P in H. injection H as <- <- <- <-.
             destruct (i_pbad s1 I t sk _ P) as [ND FA]. apply Forall_inv in FA. cbn in FA. destruct FA as (_ & FR & FS).
             split; [|split; [|split]].
             ++ intros o A. destruct (Nat.eq_dec o o0) as [->|NO]; [congruence|]. destruct (H9 o NO) as (-> & EB & _). split; congruence.
             ++ intros o A B. destruct (Nat.eq_dec o o0) as [->|NO]; [congruence|]. destruct (H9 o NO) as (-> & EB & _). split; congruence.
             ++ intros todo' P' o J A. injection P' as <-. cbn in J. destruct J as [<-|J]; [congruence|now left].
             ++ congruence.
        * (* the end *)
          symmetry in E2. destruct FX; try congruence.
          -- split; [|split; [|split]].
             ++ intros o A. destruct (H2 o) as (-> & EB & _). split; congruence.
             ++ intros o A _. destruct (H2 o) as (-> & EB & _). split; congruence.
             ++ congruence.
             ++ reflexivity.
    - pose proof (locked_alive s1 t t1 a s1' I W N S) as LA. pose proof (step_other_push begins s1 t1 a s1' I S t (not_eq_sym N)) as PP.
      split; [|split; [|split]].
      + intros o A. destruct (LA o) as [E ->]. split; congruence.
      + intros o A _. destruct (LA o) as [E ->]. split; congruence.
      + intros todo' P' o J A. left. assert (todo' = todo) by congruence. now subst.
      + congruence. }
  destruct STEP as (ST1 & ST2 & ST3 & ST4).
  destruct C as [[-> ->]|(todo' & P')].
  - split.
    + intros o A E. destruct (ST1 o A) as [A1 E1]. split; [exact A1|]. split; [congruence|].
      rewrite (ST4 PE). intros [].
    + intros o A B. now apply ST2.
  - destruct (IH s1' s2 t sk todo' I' P') as [IH1 IH2]; auto.
    { intros l1 l2 s' E NE X1. apply (SEG ((t1, a) :: l1) l2); [now rewrite E|exact NE|]. cbn. rewrite S. exact X1. }
    split.
    + intros o A E. destruct (IH1 o A E) as (A1 & E1 & J). destruct (ST1 o A1) as [A0 E0].
      split; [exact A0|]. split; [congruence|]. intro Q. destruct (ST3 todo' P' o Q A1) as [Q'|(t' & Q')].
      * destruct (J Q') as (l1 & l2 & s' & t' & EL & EX & AL & HH). exists ((t1, a) :: l1), l2, s', t'.
        rewrite EL. split; [reflexivity|]. cbn. rewrite S. auto.
      * exists [], ((t1, a) :: l), s1, t'. auto.
    + intros o A B. destruct (ST2 o A B) as [A1 E1]. apply IH2; congruence.
Qed.

Lemma notification : forall (s0 s1 s2 : state) t w l sk, reachable begins s0 ->
  tp s0 t = Some (PBadWant sk) -> ts s0 t = None -> step begins t (ARun w) s0 = Some s1 ->
  (forall l1 l2 s', l = l1 ++ l2 -> l2 <> [] -> exec begins l1 s1 = Some s' -> exists todo, tp s' t = Some (PBad sk todo)) ->
  exec begins l s1 = Some s2 -> tp s2 t = Some PEnd ->
  (forall o, o_alive (ob s2 o) = true -> r_socket (o_rid (ob s2 o)) = sk ->
     o_alive (ob s0 o) = true /\
     exists l1 l2 s' t', l = l1 ++ l2 /\ exec begins l1 s1 = Some s' /\ o_alive (ob s' o) = true /\ handles s' t' o) /\
  (forall o, o_alive (ob s0 o) = true -> r_socket (o_rid (ob s0 o)) <> sk -> o_alive (ob s2 o) = true).
Proof.
  intros s0 s1 s2 t w l sk R P S0 S SEG X PE. pose proof (inv_reachable begins s0 R) as I.
  assert (I1 : inv s1) by (eapply inv_step; eauto).
  cbn [step] in S. rewrite S0, P in S. cbn [push_step] in S. unfold bindo, lock_write in S.
  destruct (s_writer s0) eqn:W; [discriminate|]. destruct (s_readers s0) eqn:RD; [|discriminate].
  injection S as E. assert (OB : s_objs s1 = s_objs s0) by (rewrite <- E; reflexivity).
  assert (P1 : tp s1 t = Some (PBad sk (map_equal_range sk (s_requests s0)))) by (rewrite <- E; cbn; now rewrite fupd_same).
  clear E.
  destruct (bad_segment l s1 s2 t sk _ I1 P1 SEG X PE) as [A B]. split.
  - intros o AL SK. destruct (A o AL SK) as (A1 & A2 & A3). rewrite OB in A1, A2. split; [exact A1|]. apply A3.
    destruct (range_filter sk (s_requests s0) (i_sorted s0 I)) as [RF _]. rewrite RF. apply in_map_iff.
    exists (o_rid (ob s0 o), o). split; [reflexivity|]. apply filter_In. split.
    + apply find_sorted; [apply (i_sorted s0 I)|]. apply (i_map s0 I). auto.
    + cbn. apply N.eqb_eq. congruence.
  - intros o AL SK. apply B; now rewrite OB.
Qed.
End Proofs.
