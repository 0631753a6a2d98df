(** Invariants of the threads of the manager. *)
From Coq Require Import List NArith Bool Arith Lia ZifyBool ZifyNat ZifyN.
From Verif Require Import Model.Base Model.RequestMap Model.Manager Spec.ManagerSpec Proofs.RequestMapProofs.
Import ListNotations.

Section Proofs.
Context {M : Type}.
Variable begins : M -> bool.
Notation state := (Manager.state M).

(* ------------------------------------------------------------------ *)
(** * What a thread holds *)

Definition base_tasks (b : bpc) : bool :=
  match b with HRead | HCond | HInner | HRead2 | HCond2 | HWait | HExit1 | HExit2 => true | _ => false end.
Definition base_read (b : bpc) : bool :=
  match b with HCond | HFind _ | HFound _ _ | HCond2 | HExit1 => true | _ => false end.
Definition base_write (b : bpc) : bool :=
  match b with HErase1 _ _ | HErase2 _ _ | HErase3 => true | _ => false end.
Definition push_write (p : option (ppc M)) : bool :=
  match p with Some (PBad _ _) | Some (PFind _ _) | Some (PMsg _ _ _) | Some (PUnlock _) | Some PEnd => true | _ => false end.
Definition base_req (b : bpc) : option nat :=
  match b with
  | HFound _ x => x
  | RLock _ o | RCheck _ o | RGot _ o | RProc _ o | HRet _ o _ | HDrop _ o | HWant _ o | HErase1 _ o | HKeep1 _ o => Some o
  | _ => None
  end.
Definition base_msgs (b : bpc) : option nat :=
  match b with
  | RCheck _ o | RGot _ o | HRet _ o true | HDrop _ o | HKeep1 _ o | HKeep2 _ o => Some o
  | _ => None
  end.
(** Holding a queue that was seen empty. *)
Definition base_final (b : bpc) : option nat :=
  match b with HRet _ o true | HDrop _ o | HKeep1 _ o | HKeep2 _ o => Some o | _ => None end.
(** The task and the request found for it. *)
Definition base_obj (b : bpc) : option (rid * nat) :=
  match b with
  | HFound id (Some o) => Some (id, o)
  | RLock id o | RCheck id o | RGot id o | RProc id o | HRet id o _ | HDrop id o | HWant id o | HErase1 id o
  | HErase2 id o | HKeep1 id o => Some (id, o)
  | _ => None
  end.

Notation tb s t := (t_base (s_threads s t)).
Notation tp s t := (t_push (s_threads s t)).
Notation ts s t := (t_sig (s_threads s t)).
Notation ob s o := (s_objs s o).

Record inv (s : state) : Prop := mkInv {
  i_tasks : forall t, s_tasksLock s = Some t <-> base_tasks (tb s t) = true;
  i_writer : forall t, s_writer s = Some t <-> base_write (tb s t) = true \/ push_write (tp s t) = true;
  i_readers : forall t, In t (s_readers s) <-> base_read (tb s t) = true;
  i_rw : s_writer s <> None -> s_readers s = [];
  i_wait : forall t, In t (s_waiters s) <-> tb s t = HWaiting;
  i_push : forall t, tp s t <> None -> tb s t = BOther \/ exists id o, tb s t = RProc id o;
  i_req : forall t o, base_req (tb s t) = Some o -> o_alive (ob s o) = true /\ o_mutex (ob s o) = Some t;
  i_mutex : forall t o, o_alive (ob s o) = true -> o_mutex (ob s o) = Some t -> base_req (tb s t) = Some o;
  i_msgs : forall t o, base_msgs (tb s t) = Some o -> o_alive (ob s o) = true -> o_msgs (ob s o) = Some t;
  i_msgs' : forall t o, o_alive (ob s o) = true -> o_msgs (ob s o) = Some t -> base_msgs (tb s t) = Some o;
  i_sorted : sorted (s_requests s);
  i_map : forall k o, map_find k (s_requests s) = Some o <-> (o_alive (ob s o) = true /\ o_rid (ob s o) = k);
  i_next : forall o, o_alive (ob s o) = true -> o < s_next s;
  i_rid : forall o, o_alive (ob s o) = true -> r_id (o_rid (ob s o)) <> 0%N /\ r_id (o_rid (ob s o)) <> 65535%N;
  i_obj : forall t id o, base_obj (tb s t) = Some (id, o) -> o_alive (ob s o) = true /\ o_rid (ob s o) = id;
  i_pmsg : forall t id o m, tp s t = Some (PMsg id o m) -> o_alive (ob s o) = true /\ o_rid (ob s o) = id;
  i_pbad : forall t sk todo, tp s t = Some (PBad sk todo) ->
    NoDup (map snd todo) /\
    Forall (fun p => o_alive (ob s (snd p)) = true /\ o_rid (ob s (snd p)) = fst p /\ r_socket (fst p) = sk) todo;
  i_pid : forall t id m, tp s t = Some (PWant id m) \/ tp s t = Some (PFind id m) ->
    r_id id <> 0%N /\ r_id id <> 65535%N;
  i_final : forall t o, base_final (tb s t) = Some o -> o_alive (ob s o) = true -> o_queue (ob s o) = [];
  i_empty : forall t, tb s t = HRead2 \/ tb s t = HCond2 \/ tb s t = HWait -> s_tasks s = [];
  i_er2 : forall t id o, tb s t = HErase2 id o -> o_mutex (ob s o) = None;
  i_lt : forall t o, base_msgs (tb s t) = Some o -> o < s_next s
}.

Lemma fupd_same : forall (A : Type) (f : nat -> A) i x, fupd f i x i = x.
Proof. intros. unfold fupd. now rewrite Nat.eqb_refl. Qed.
Lemma fupd_other : forall (A : Type) (f : nat -> A) i x j, j <> i -> fupd f i x j = f j.
Proof. intros. unfold fupd. destruct (Nat.eqb_spec j i); [contradiction|reflexivity]. Qed.

Lemma inv_init : inv (st_init M).
Proof.
  constructor; cbn; try (intuition congruence).
  - constructor.
Qed.

(* ------------------------------------------------------------------ *)
(** * Waking threads *)

Ltac split_eqb :=
  repeat match goal with
  | H : context[Nat.eqb ?a ?b] |- _ => destruct (Nat.eqb_spec a b); subst
  | |- context[Nat.eqb ?a ?b] => destruct (Nat.eqb_spec a b); subst
  end.

Lemma in_remove_iff : forall x y (l : list nat), In x (remove Nat.eq_dec y l) <-> In x l /\ x <> y.
Proof.
  intros. split.
  - intro H. apply in_remove in H. exact H.
  - intros [H1 H2]. now apply in_in_remove.
Qed.

Lemma inv_note : forall (s : state) h, inv s -> inv (note M h s).
Proof. intros s h []. constructor; assumption. Qed.

Lemma inv_wake : forall (s : state) w, inv s -> tb s w = HWaiting \/ tb s w = HStart -> inv (wakeup M w s).
Proof.
  intros s w I W.
  assert (X : forall (P : bpc -> Prop) t, (P HWaiting <-> P HStart) ->
    P (tb (wakeup M w s) t) <-> P (tb s t)).
  { intros P t E. cbn. unfold fupd. destruct (Nat.eqb_spec t w); [subst; cbn|tauto].
    destruct W as [-> | ->]; tauto. }
  assert (Y : forall t, tp (wakeup M w s) t = tp s t).
  { intros t. cbn. unfold fupd. destruct (Nat.eqb_spec t w); subst; reflexivity. }
  destruct I. constructor; cbn [wakeup goto set_threads set_waiters s_tasksLock s_writer s_readers s_requests s_objs s_next s_tasks]; auto.
  - intros t. rewrite (i_tasks0 t). symmetry. apply (X (fun b => base_tasks b = true)). reflexivity.
  - intros t. rewrite (i_writer0 t), Y. rewrite <- (X (fun b => base_write b = true) t); [tauto|reflexivity].
  - intros t. rewrite (i_readers0 t). symmetry. apply (X (fun b => base_read b = true)). reflexivity.
  - intros t. cbn. rewrite in_remove_iff, (i_wait0 t). unfold fupd. destruct (Nat.eqb_spec t w); subst; cbn; [intuition discriminate|tauto].
  - intros t. rewrite Y. intro H. apply i_push0 in H. destruct H as [H|(id & o & H)].
    + left. apply (X (fun b => b = BOther) t); [split; discriminate|exact H].
    + right. exists id, o. apply (X (fun b => b = RProc id o) t); [split; discriminate|exact H].
  - intros t o H. apply (X (fun b => base_req b = Some o) t) in H; [|split; discriminate]. eauto.
  - intros t o H1 H2. apply (X (fun b => base_req b = Some o) t); [split; discriminate|]. auto.
  - intros t o H. apply (X (fun b => base_msgs b = Some o) t) in H; [|split; discriminate]. eauto.
  - intros t o H1 H2. apply (X (fun b => base_msgs b = Some o) t); [split; discriminate|]. auto.
  - intros t id o H. apply (X (fun b => base_obj b = Some (id, o)) t) in H; [|split; discriminate]. eauto.
  - intros t id o m. rewrite Y. apply i_pmsg0.
  - intros t sk todo. rewrite Y. apply i_pbad0.
  - intros t id m. rewrite !Y. apply i_pid0.
  - intros t o H. apply (X (fun b => base_final b = Some o) t) in H; [|split; discriminate]. eauto.
  - intros t H. apply (i_empty0 t).
    apply (X (fun b => b = HRead2 \/ b = HCond2 \/ b = HWait) t); [split; intuition discriminate|exact H].
  - intros t id o H. apply (X (fun b => b = HErase2 id o) t) in H; [|split; discriminate]. eauto.
  - intros t o H. apply (X (fun b => base_msgs b = Some o) t) in H; [|split; discriminate]. eauto.
Qed.

Lemma wake_fields : forall (s : state) w,
  s_tasks (wakeup M w s) = s_tasks s /\ s_tasksLock (wakeup M w s) = s_tasksLock s /\ s_writer (wakeup M w s) = s_writer s /\
  s_readers (wakeup M w s) = s_readers s /\ s_requests (wakeup M w s) = s_requests s /\ s_objs (wakeup M w s) = s_objs s /\
  s_next (wakeup M w s) = s_next s /\ s_local (wakeup M w s) = s_local s /\ s_terminate (wakeup M w s) = s_terminate s /\
  s_stop (wakeup M w s) = s_stop s /\ s_invalid (wakeup M w s) = s_invalid s /\ s_log (wakeup M w s) = s_log s.
Proof. intros. repeat split. Qed.

Lemma wake_thread : forall (s : state) w t,
  tp (wakeup M w s) t = tp s t /\ ts (wakeup M w s) t = ts s t /\
  tb (wakeup M w s) t = if Nat.eqb t w then HStart else tb s t.
Proof. intros. cbn. unfold fupd. destruct (Nat.eqb_spec t w); subst; auto. Qed.

(** Waking several. *)
Lemma all_threads : forall ws (s : state) t,
  tp (fold_right (wakeup M) s ws) t = tp s t /\ ts (fold_right (wakeup M) s ws) t = ts s t /\
  tb (fold_right (wakeup M) s ws) t = if existsb (Nat.eqb t) ws then HStart else tb s t.
Proof.
  induction ws as [|w ws IH]; intros s t; [auto|]. cbn [fold_right existsb].
  destruct (wake_thread (fold_right (wakeup M) s ws) w t) as (A1 & A2 & A3).
  destruct (IH s t) as (B1 & B2 & B3). rewrite A1, A2, A3, B1, B2, B3. split; [|split]; auto.
  destruct (Nat.eqb t w); reflexivity.
Qed.

Lemma all_fields : forall ws (s : state),
  let s' := fold_right (wakeup M) s ws in
  s_tasks s' = s_tasks s /\ s_tasksLock s' = s_tasksLock s /\ s_writer s' = s_writer s /\
  s_readers s' = s_readers s /\ s_requests s' = s_requests s /\ s_objs s' = s_objs s /\
  s_next s' = s_next s /\ s_local s' = s_local s /\ s_terminate s' = s_terminate s /\
  s_stop s' = s_stop s /\ s_invalid s' = s_invalid s /\ s_log s' = s_log s.
Proof.
  induction ws as [|w ws IH]; intros s; cbn zeta; [repeat split|]. cbn [fold_right].
  specialize (IH s). cbn zeta in IH. exact IH.
Qed.

Lemma inv_all_from : forall ws (s : state), inv s -> (forall w, In w ws -> tb s w = HWaiting) ->
  inv (fold_right (wakeup M) s ws).
Proof.
  induction ws as [|w ws IH]; intros s I H; [exact I|]. cbn [fold_right]. apply inv_wake.
  - apply IH; auto. intros x X. apply H. now right.
  - destruct (all_threads ws s w) as (_ & _ & E). rewrite E. destruct (existsb (Nat.eqb w) ws); auto.
    left. apply H. now left.
Qed.

Lemma inv_all : forall s : state, inv s -> inv (notify_all M s).
Proof. intros s I. apply inv_all_from; auto. intros w H. now apply (i_wait s I). Qed.

Lemma all_waiters : forall ws (s : state), forall x, In x (s_waiters (fold_right (wakeup M) s ws)) <-> In x (s_waiters s) /\ ~ In x ws.
Proof.
  induction ws as [|w ws IH]; intros s x; cbn [fold_right In]; [tauto|].
  cbn [wakeup goto set_threads set_waiters s_waiters]. rewrite in_remove_iff, IH. intuition congruence.
Qed.

Lemma notify_all_waiters : forall s : state, s_waiters (notify_all M s) = [].
Proof.
  intros s. unfold notify_all. destruct (s_waiters (fold_right (wakeup M) s (s_waiters s))) as [|x l] eqn:E; [reflexivity|].
  exfalso. assert (X : In x (s_waiters (fold_right (wakeup M) s (s_waiters s)))) by (rewrite E; now left).
  apply all_waiters in X. tauto.
Qed.
(* ------------------------------------------------------------------ *)
(** * Effects of a step *)

Notation hw s t := (base_write (tb s t) || push_write (tp s t)).

(** A lock is kept, taken by [t], or released by [t]. *)
Definition eff (t : nat) (old new : option nat) (h h' : bool) : Prop :=
  (new = old /\ h' = h) \/ (old = None /\ new = Some t /\ h' = true) \/ (h = true /\ new = None /\ h' = false).
Definition effr (t : nat) (old new : list nat) (h h' : bool) : Prop :=
  (new = old /\ h' = h) \/ (new = t :: old /\ h' = true) \/ (new = remove Nat.eq_dec t old /\ h' = false).
(** The same for a lock of request [o]. *)
Definition effo (t o : nat) (old new : option nat) (h h' : option nat) : Prop :=
  (new = old /\ h' = h) \/ (old = None /\ new = Some t /\ h = None /\ h' = Some o) \/
  (h = Some o /\ new = None /\ h' = None).

Lemma eff_others : forall t old new h h', eff t old new h h' -> (old = Some t <-> h = true) ->
  (new = Some t <-> h' = true) /\ forall t', t' <> t -> (new = Some t' <-> old = Some t').
Proof.
  intros t old new h h' [[-> ->]|[(-> & -> & ->)|(-> & -> & ->)]] I.
  - tauto.
  - split; [tauto|]. intros. split; congruence.
  - destruct I as [_ I]. rewrite (I eq_refl). split; [split; discriminate|]. intros. split; congruence.
Qed.

Record push_ok (s : state) (t : nat) : Prop := {
  k_push : tp s t <> None -> tb s t = BOther \/ exists id o, tb s t = RProc id o;
  k_pmsg : forall id o m, tp s t = Some (PMsg id o m) -> o_alive (ob s o) = true /\ o_rid (ob s o) = id;
  k_pbad : forall sk todo, tp s t = Some (PBad sk todo) ->
    NoDup (map snd todo) /\
    Forall (fun p => o_alive (ob s (snd p)) = true /\ o_rid (ob s (snd p)) = fst p /\ r_socket (fst p) = sk) todo;
  k_pid : forall id m, tp s t = Some (PWant id m) \/ tp s t = Some (PFind id m) ->
    r_id id <> 0%N /\ r_id id <> 65535%N
}.

(** Thread [t] moves; request [o], if it is changed at all, keeps its identity. *)
Lemma inv_move : forall (s s' : state) t o,
  inv s ->
  (forall t', t' <> t -> s_threads s' t' = s_threads s t') ->
  s_requests s' = s_requests s -> s_next s' = s_next s ->
  (forall o', o' <> o -> ob s' o' = ob s o') ->
  o_rid (ob s' o) = o_rid (ob s o) -> o_alive (ob s' o) = o_alive (ob s o) ->
  (* locks *)
  eff t (s_tasksLock s) (s_tasksLock s') (base_tasks (tb s t)) (base_tasks (tb s' t)) ->
  eff t (s_writer s) (s_writer s') (hw s t) (hw s' t) ->
  effr t (s_readers s) (s_readers s') (base_read (tb s t)) (base_read (tb s' t)) ->
  (s_writer s' <> None -> s_readers s' = []) ->
  ((s_waiters s' = s_waiters s /\ tb s t <> HWaiting /\ tb s' t <> HWaiting) \/
   (s_waiters s' = t :: s_waiters s /\ tb s' t = HWaiting)) ->
  effo t o (o_mutex (ob s o)) (o_mutex (ob s' o)) (base_req (tb s t)) (base_req (tb s' t)) ->
  effo t o (o_msgs (ob s o)) (o_msgs (ob s' o)) (base_msgs (tb s t)) (base_msgs (tb s' t)) ->
  (o_alive (ob s o) = true \/ ob s' o = ob s o) ->
  (* queues *)
  (o_queue (ob s' o) = o_queue (ob s o) \/ o_msgs (ob s o) = Some t \/ o_msgs (ob s o) = None) ->
  (forall o', base_final (tb s' t) = Some o' -> o_alive (ob s' o') = true -> o_queue (ob s' o') = []) ->
  (* the rest *)
  (forall x, base_obj (tb s' t) = Some x -> base_obj (tb s t) = Some x \/
     (o_alive (ob s (snd x)) = true /\ o_rid (ob s (snd x)) = fst x)) ->
  push_ok s' t ->
  (s_tasks s' = s_tasks s \/ s_tasks s <> []) ->
  (tb s' t = HRead2 \/ tb s' t = HCond2 \/ tb s' t = HWait -> s_tasks s' = []) ->
  (forall id o', tb s' t = HErase2 id o' -> o_mutex (ob s' o') = None) ->
  (o_mutex (ob s' o) = o_mutex (ob s o) \/ o_mutex (ob s' o) = None \/ s_writer s = None) ->
  inv s'.
Proof.
  intros s s' t o I TH RQ NX OB RID AL ET EW ER RW WT EM EG AL2 QU FI BO PO TA EM2 E2 MX.
  assert (OBA : forall o', o_alive (ob s' o') = o_alive (ob s o')).
  { intro o'. destruct (Nat.eq_dec o' o) as [->|N]; [exact AL|now rewrite (OB o' N)]. }
  assert (OBR : forall o', o_rid (ob s' o') = o_rid (ob s o')).
  { intro o'. destruct (Nat.eq_dec o' o) as [->|N]; [exact RID|now rewrite (OB o' N)]. }
  assert (REQ : forall o' t', o_alive (ob s o') = true -> (base_req (tb s' t') = Some o' <-> o_mutex (ob s' o') = Some t')).
  { intros o' t' A.
    assert (J : forall t' o', o_alive (ob s o') = true -> (base_req (tb s t') = Some o' <-> o_mutex (ob s o') = Some t')).
    { intros t1 o1 A1. split; [intro X; apply (i_req s I) in X; tauto|apply (i_mutex s I); auto]. }
    destruct (Nat.eq_dec t' t) as [->|NT]; destruct (Nat.eq_dec o' o) as [->|NO].
    - specialize (J t o A). destruct EM as [[-> ->]|[(X & -> & Y & ->)|(X & -> & ->)]]; try tauto.
      split; discriminate.
    - rewrite (OB o' NO), <- (J t o' A). destruct EM as [[_ ->]|[(X & Y & -> & ->)|(-> & X & ->)]]; try tauto.
      + split; congruence.
      + split; congruence.
    - rewrite (TH t' NT), (J t' o A). destruct EM as [[-> _]|[(-> & -> & Y & Z)|(X & -> & Z)]]; try tauto.
      + split; congruence.
      + apply (J t o A) in X. rewrite X. split; congruence.
    - rewrite (TH t' NT), (OB o' NO). auto. }
  assert (MSG : forall o' t', o_alive (ob s o') = true -> (base_msgs (tb s' t') = Some o' <-> o_msgs (ob s' o') = Some t')).
  { intros o' t' A.
    assert (J : forall t' o', o_alive (ob s o') = true -> (base_msgs (tb s t') = Some o' <-> o_msgs (ob s o') = Some t')).
    { intros t1 o1 A1. split; intro X; [now apply (i_msgs s I)|apply (i_msgs' s I); auto]. }
    destruct (Nat.eq_dec t' t) as [->|NT]; destruct (Nat.eq_dec o' o) as [->|NO].
    - specialize (J t o A). destruct EG as [[-> ->]|[(X & -> & Y & ->)|(X & -> & ->)]]; try tauto.
      split; discriminate.
    - rewrite (OB o' NO), <- (J t o' A). destruct EG as [[_ ->]|[(X & Y & -> & ->)|(-> & X & ->)]]; try tauto.
      + split; congruence.
      + split; congruence.
    - rewrite (TH t' NT), (J t' o A). destruct EG as [[-> _]|[(-> & -> & Y & Z)|(X & -> & Z)]]; try tauto.
      + split; congruence.
      + apply (J t o A) in X. rewrite X. split; congruence.
    - rewrite (TH t' NT), (OB o' NO). auto. }
  assert (RA : forall t' o', base_req (tb s' t') = Some o' -> o_alive (ob s o') = true).
  { intros t' o' X. destruct (Nat.eq_dec t' t) as [->|NT].
    - destruct EM as [[_ E]|[(E0 & E1 & _ & E)|(_ & _ & E)]]; rewrite E in X.
      + apply (i_req s I) in X. tauto.
      + injection X as <-. destruct AL2 as [Z|Z]; [exact Z|]. rewrite Z in E1. congruence.
      + discriminate.
    - rewrite (TH t' NT) in X. apply (i_req s I) in X. tauto. }
  destruct (eff_others _ _ _ _ _ ET (i_tasks s I t)) as [T1 T2].
  assert (HWI : s_writer s = Some t <-> hw s t = true) by (rewrite orb_true_iff; apply (i_writer s I)).
  destruct (eff_others _ _ _ _ _ EW HWI) as [W1 W2].
  constructor.
  - intro t'. destruct (Nat.eq_dec t' t) as [->|N]; [exact T1|]. rewrite (TH t' N), (T2 t' N). apply (i_tasks s I).
  - intro t'. destruct (Nat.eq_dec t' t) as [->|N]; [rewrite W1; apply orb_true_iff|]. rewrite (TH t' N), (W2 t' N). apply (i_writer s I).
  - intro t'. pose proof (i_readers s I t') as R. destruct (Nat.eq_dec t' t) as [->|N].
    + destruct ER as [[-> ->]|[[-> ->]|[-> ->]]]; [exact R|cbn; tauto|]. rewrite in_remove_iff. split; [tauto|discriminate].
    + rewrite (TH t' N). destruct ER as [[-> _]|[[-> _]|[-> _]]]; [exact R| |].
      * cbn. rewrite <- R. intuition congruence.
      * rewrite in_remove_iff. tauto.
  - exact RW.
  - intro t'. pose proof (i_wait s I t') as R. destruct (Nat.eq_dec t' t) as [->|N].
    + destruct WT as [(-> & A & B)|(-> & A)]; [tauto|]. cbn. tauto.
    + rewrite (TH t' N). destruct WT as [(-> & _)|(-> & _)]; [exact R|]. cbn. rewrite <- R. intuition congruence.
  - intro t'. destruct (Nat.eq_dec t' t) as [->|N]; [apply (k_push _ _ PO)|]. rewrite (TH t' N). apply (i_push s I).
  - intros t' o' X. pose proof (RA _ _ X) as A. rewrite OBA. split; [exact A|]. now apply REQ.
  - intros t' o' A X. rewrite OBA in A. now apply REQ.
  - intros t' o' X A. rewrite OBA in A. now apply MSG.
  - intros t' o' A X. rewrite OBA in A. now apply MSG.
  - rewrite RQ. apply (i_sorted s I).
  - intros k o'. rewrite RQ, OBA, OBR. apply (i_map s I).
  - intros o'. rewrite NX, OBA. apply (i_next s I).
  - intros o'. rewrite OBA, OBR. apply (i_rid s I).
  - intros t' id o'. rewrite OBA, OBR. destruct (Nat.eq_dec t' t) as [->|N].
    + intro X. apply BO in X. destruct X as [X|X]; [now apply (i_obj s I) in X|exact X].
    + rewrite (TH t' N). apply (i_obj s I).
  - intros t' id o' m. destruct (Nat.eq_dec t' t) as [->|N]; [apply (k_pmsg _ _ PO)|].
    rewrite (TH t' N), OBA, OBR. apply (i_pmsg s I).
  - intros t' sk todo. destruct (Nat.eq_dec t' t) as [->|N]; [apply (k_pbad _ _ PO)|].
    rewrite (TH t' N). intro X. apply (i_pbad s I) in X. destruct X as [X1 X2]. split; [exact X1|].
    eapply Forall_impl; [|exact X2]. intros p. cbn. now rewrite OBA, OBR.
  - intros t' id m. destruct (Nat.eq_dec t' t) as [->|N]; [apply (k_pid _ _ PO)|]. rewrite (TH t' N). apply (i_pid s I).
  - intros t' o' X A. destruct (Nat.eq_dec t' t) as [->|N]; [now apply FI|].
    rewrite (TH t' N) in X. rewrite OBA in A. pose proof (i_final s I t' o' X A) as F.
    destruct (Nat.eq_dec o' o) as [->|NO]; [|now rewrite (OB o' NO)].
    assert (Y : base_msgs (tb s t') = Some o).
    { destruct (tb s t'); cbn in X |- *; try discriminate; try destruct held; try discriminate; auto. }
    apply (i_msgs s I) in Y; [|exact A].
    destruct QU as [Q|[Q|Q]]; [now rewrite Q| |]; rewrite Y in Q; congruence.
  - intros t' X. destruct (Nat.eq_dec t' t) as [->|N]; [now apply EM2|]. rewrite (TH t' N) in X.
    apply (i_empty s I) in X. destruct TA as [T|T]; congruence.
  - intros t' id o' X. destruct (Nat.eq_dec t' t) as [->|N]; [eapply E2; eauto|]. rewrite (TH t' N) in X.
    pose proof (i_er2 s I t' id o' X) as F.
    destruct (Nat.eq_dec o' o) as [->|NO]; [|now rewrite (OB o' NO)].
    destruct MX as [Q|[Q|Q]]; [congruence|exact Q|]. exfalso.
    assert (Y : s_writer s = Some t') by (apply (i_writer s I); rewrite X; now left). congruence.
  - intros t' o' X. rewrite NX. destruct (Nat.eq_dec t' t) as [->|N].
    + destruct EG as [[_ E]|[(E0 & E1 & _ & E)|(_ & _ & E)]]; rewrite E in X.
      * now apply (i_lt s I) in X.
      * injection X as <-. apply (i_next s I). destruct AL2 as [Z|Z]; [exact Z|]. rewrite Z in E1. congruence.
      * discriminate.
    + rewrite (TH t' N) in X. now apply (i_lt s I) in X.
Qed.

Lemma hold_read : forall (s : state) t, inv s -> base_read (tb s t) = true -> s_writer s = None.
Proof.
  intros s t I H. destruct (s_writer s) eqn:W; [|reflexivity].
  apply (i_readers s I) in H. rewrite (i_rw s I) in H by congruence. destruct H.
Qed.

Lemma hold_write : forall (s : state) t, inv s -> hw s t = true -> s_readers s = [] /\ s_writer s = Some t.
Proof.
  intros s t I H. apply orb_true_iff in H. apply (i_writer s I) in H. split; [|exact H].
  apply (i_rw s I). congruence.
Qed.

Lemma rw_keep : forall s : state, inv s -> s_writer s <> None -> s_readers s = [].
Proof. intros s I. apply (i_rw s I). Qed.

Lemma push_ok_none : forall (s : state) t, tp s t = None -> push_ok s t.
Proof. intros s t H. constructor; rewrite H; try discriminate; try congruence. intros ? ? [?|?]; discriminate. Qed.

End Proofs.

Ltac inner x k :=
  lazymatch x with
  | context[match ?y with _ => _ end] => inner y k
  | _ => k x
  end.
Ltac break H :=
  repeat (lazymatch type of H with
  | context[match ?x with _ => _ end] =>
      inner x ltac:(fun y => let E := fresh "E" in destruct y eqn:E; try discriminate H)
  end).

Ltac sd B0 P0 :=
  match goal with
  | |- forall t', t' <> _ -> s_threads _ t' = _ => intros; cbn; apply fupd_other; assumption
  | |- forall o', o' <> _ -> s_objs _ o' = _ => intros; cbn; solve [reflexivity|rewrite !fupd_other by assumption; reflexivity]
  | |- eff _ _ _ _ _ => unfold eff; cbn; rewrite ?fupd_same; cbn; rewrite ?B0, ?P0; cbn;
       first [left; split; reflexivity|right; left; repeat split; solve [assumption|reflexivity]|right; right; repeat split; reflexivity]
  | |- effr _ _ _ _ _ => unfold effr; cbn; rewrite ?fupd_same; cbn; rewrite ?B0, ?P0; cbn;
       first [left; split; reflexivity|right; left; repeat split; solve [assumption|reflexivity]|right; right; repeat split; reflexivity]
  | |- effo _ _ _ _ _ _ => unfold effo; cbn; rewrite ?fupd_same; cbn; rewrite ?B0, ?P0; cbn;
       first [left; split; reflexivity|right; left; repeat split; solve [assumption|reflexivity]|right; right; repeat split; reflexivity]
  | |- _ \/ (s_waiters _ = _ :: _ /\ _) => cbn; rewrite ?fupd_same; cbn; rewrite ?B0;
       first [left; repeat split; solve [reflexivity|discriminate]|right; split; reflexivity]
  | |- push_ok _ _ => apply push_ok_none; cbn; rewrite ?fupd_same; cbn; assumption
  | |- _ <> None -> _ = [] => first
       [ assumption
       | intros _; cbn; congruence
       | cbn; congruence ]
  | |- forall x, base_obj _ = Some x -> _ => intros [? ?]; cbn; rewrite ?fupd_same; cbn; rewrite ?B0; cbn;
       first [discriminate|tauto|intro; left; assumption]
  | |- forall o', base_final _ = _ -> _ => first
       [ intros ?; cbn; rewrite ?fupd_same; cbn; rewrite ?B0; discriminate
       | let o := fresh in let X := fresh in let A := fresh in intros o X A; cbn in X, A; rewrite ?fupd_same in X; cbn in X;
         cbn; match goal with I : inv ?s |- _ => apply (i_final s I _ o) with (1 := eq_trans (f_equal base_final B0) X); exact A end ]
  | |- _ \/ _ \/ _ -> s_tasks _ = [] => cbn; rewrite ?fupd_same; cbn; rewrite ?B0;
       first [intros [|[|]]; discriminate | intros _; assumption]
  | |- s_tasks _ = _ \/ _ => cbn; first [left; reflexivity|right; congruence]
  | |- o_queue _ = _ \/ _ => cbn; rewrite ?fupd_same; cbn; first [left; reflexivity|right; left; assumption|right; right; assumption]
  | |- o_alive _ = true \/ _ => first [left; assumption|right; reflexivity]
  | |- forall id o, _ = HErase2 id o -> _ => intros ? ?; cbn; rewrite ?fupd_same; cbn; rewrite ?B0;
       first [discriminate | let X := fresh in intro X; injection X as <- <-; rewrite fupd_same; reflexivity]
  | |- o_mutex _ = _ \/ _ => cbn; rewrite ?fupd_same; cbn; first [left; reflexivity|right; left; reflexivity|right; right; assumption]
  | |- _ => first [reflexivity|cbn; rewrite ?fupd_same; reflexivity|assumption]
  end.

