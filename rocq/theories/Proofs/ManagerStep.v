(** Every step keeps the invariants. *)
From Coq Require Import List NArith Bool Arith Lia.
From Verif Require Import Model.Base Model.RequestMap Model.Manager Spec.ManagerSpec Proofs.RequestMapProofs
  Proofs.ManagerProofs.
Import ListNotations.

Section Proofs.
Context {M : Type}.
Variable begins : M -> bool.
Notation state := (Manager.state M).
Notation tb s t := (t_base (s_threads s t)).
Notation tp s t := (t_push (s_threads s t)).
Notation ts s t := (t_sig (s_threads s t)).
Notation ob s o := (s_objs s o).
Notation equiv a b := (negb (less a b) && negb (less b a)).

Lemma inv_base : forall (s : state) t b s', inv s -> tp s t = None -> tb s t = b ->
  (forall id o, b <> HErase2 id o) -> (b = HCond2 -> running s = true) ->
  base_step M t b s = Some s' -> inv s'.
Proof.
  intros s t b s' I P0 B0 NE NC H. pose proof (i_rw s I) as RW. destruct b; cbn [base_step] in H; try discriminate H.
  - unfold lock_tasks, bindo in H. break H. injection H as <-. apply (inv_move s _ t 0 I); sd B0 P0.
  - unfold lock_read, bindo in H. break H. injection H as <-. apply (inv_move s _ t 0 I); sd B0 P0.
  - assert (W : s_writer s = None) by (eapply hold_read; eauto; rewrite B0; reflexivity).
    break H; injection H as <-; apply (inv_move s _ t 0 I); sd B0 P0.
  - break H; injection H as <-; apply (inv_move s _ t 0 I); sd B0 P0.
  - unfold lock_read, bindo in H. break H; injection H as <-; apply (inv_move s _ t 0 I); sd B0 P0.
  - break H; injection H as <-; apply (inv_move s _ t 0 I); sd B0 P0.
  - (* HFind *)
    assert (W : s_writer s = None) by (eapply hold_read; eauto; rewrite B0; reflexivity).
    unfold touch in H. break H; injection H as <-.
    + apply (inv_move s _ t 0 I); sd B0 P0.
    + apply (inv_move s _ t n I); try sd B0 P0.
      intros [? ?]. cbn. rewrite fupd_same. cbn. intro X. injection X as <- <-. right. now apply (i_map s I).
    + apply (inv_move s _ t 0 I); sd B0 P0.
  - (* HFound *)
    assert (W : s_writer s = None) by (eapply hold_read; eauto; rewrite B0; reflexivity).
    injection H as <-. destruct o as [o|]; apply (inv_move s _ t 0 I); sd B0 P0.
  - (* HRet *)
    break H; injection H as <-; destruct held; try discriminate; cbn in *; apply (inv_move s _ t 0 I); sd B0 P0.
  - (* HDrop *)
    unfold touch in H. break H. injection H as <-. apply (inv_move s _ t o I); sd B0 P0.
  - unfold lock_write, bindo in H. break H. injection H as <-. apply (inv_move s _ t 0 I); sd B0 P0.
  - unfold touch in H. break H. injection H as <-. apply (inv_move s _ t o I); sd B0 P0.
  - exfalso. eapply NE. reflexivity.
  - injection H as <-. apply (inv_move s _ t 0 I); sd B0 P0.
  - unfold touch in H. break H. injection H as <-. apply (inv_move s _ t o I); try (sd B0 P0).
    intros o' X A. cbn in *. rewrite fupd_same in X. cbn in X. injection X as <-. rewrite fupd_same in *. cbn in *.
    apply (i_final s I t o); [rewrite B0; reflexivity|assumption].
  - unfold touch in H. break H. injection H as <-. apply (inv_move s _ t o I); sd B0 P0.
  - unfold lock_tasks, bindo in H. break H. injection H as <-. apply (inv_move s _ t 0 I); sd B0 P0.
  - unfold lock_read, bindo in H. break H. injection H as <-.
    pose proof (i_empty s I t (or_introl B0)) as EM. apply (inv_move s _ t 0 I); sd B0 P0.
  - rewrite (NC eq_refl) in H. injection H as <-.
    assert (W : s_writer s = None) by (eapply hold_read; eauto; rewrite B0; reflexivity).
    pose proof (i_empty s I t (or_intror (or_introl B0))) as EM.
    apply (inv_move s _ t 0 I); sd B0 P0.
  - injection H as <-. apply (inv_move s _ t 0 I); sd B0 P0.
  - injection H as <-. 
    assert (W : s_writer s = None) by (eapply hold_read; eauto; rewrite B0; reflexivity).
    apply (inv_move s _ t 0 I); sd B0 P0.
  - injection H as <-. apply (inv_move s _ t 0 I); sd B0 P0.
  - unfold touch in H. break H; injection H as <-. apply (inv_move s _ t o I); sd B0 P0.
  - assert (MS : o_alive (ob s o) = true -> o_msgs (ob s o) = Some t) by (apply (i_msgs s I); rewrite B0; reflexivity).
    unfold touch in H. break H; injection H as <-; specialize (MS eq_refl).
    + apply (inv_move s _ t 0 I); try (sd B0 P0).
      intros o' X A. cbn in *. rewrite fupd_same in X. cbn in X. now injection X as <-.
    + apply (inv_move s _ t o I); sd B0 P0.
  - unfold touch in H. break H. injection H as <-. apply (inv_move s _ t o I); sd B0 P0.
Qed.

(* ------------------------------------------------------------------ *)
(** * Steps of other kinds *)

(** Nothing that the invariants are about changes. *)
Lemma inv_same : forall s s' : state, inv s ->
  (forall t, tb s' t = tb s t /\ tp s' t = tp s t) ->
  s_tasks s' = s_tasks s \/ s_tasksLock s = None ->
  s_waiters s' = s_waiters s -> s_tasksLock s' = s_tasksLock s -> s_writer s' = s_writer s -> s_readers s' = s_readers s ->
  s_requests s' = s_requests s -> s_objs s' = s_objs s -> s_next s' = s_next s -> inv s'.
Proof.
  intros s s' I T TA E1 E2 E3 E4 E5 E6 E7.
  assert (B : forall t, tb s' t = tb s t) by apply T. assert (P : forall t, tp s' t = tp s t) by apply T.
  constructor; rewrite ?E1, ?E2, ?E3, ?E4, ?E5, ?E6, ?E7; intros *; rewrite ?B, ?P; try apply I.
  intro X. destruct TA as [TA|TA]; [rewrite TA; now apply (i_empty s I) in X|].
  exfalso. assert (Y : s_tasksLock s = Some t); [|congruence].
  apply (i_tasks s I). destruct X as [->|[->| ->]]; reflexivity.
Qed.

Lemma base_obj_req : forall (s : state) t id o, inv s -> base_obj (tb s t) = Some (id, o) ->
  o_mutex (ob s o) = Some t \/ tb s t = HErase2 id o.
Proof.
  intros s t id o I H. destruct (tb s t) eqn:B; cbn in H; try discriminate H;
  try (injection H as <- <-; left; apply (i_req s I); rewrite B; reflexivity).
  - destruct o0; [|discriminate]. injection H as <- <-. left. apply (i_req s I). rewrite B. reflexivity.
  - injection H as <- <-. now right.
Qed.

(** A request is destroyed. *)
Lemma inv_erase : forall (s : state) t id o s' , inv s -> 
  o_alive (ob s o) = true -> o_rid (ob s o) = id -> o_mutex (ob s o) = None -> s_writer s = Some t ->
  (forall t', t' <> t -> s_threads s' t' = s_threads s t') ->
  ((tb s t = HErase2 id o /\ tb s' t = HErase3 /\ tp s t = None /\ tp s' t = None) \/
   (exists sk todo, tb s' t = tb s t /\ tp s t = Some (PBad sk ((id, o) :: todo)) /\ tp s' t = Some (PBad sk todo))) ->
  s_tasks s' = s_tasks s -> s_waiters s' = s_waiters s -> s_tasksLock s' = s_tasksLock s -> s_writer s' = s_writer s ->
  s_readers s' = s_readers s -> s_next s' = s_next s ->
  s_requests s' = map_erase id (s_requests s) ->
  (forall o', o' <> o -> ob s' o' = ob s o') -> o_alive (ob s' o) = false -> o_mutex (ob s' o) = None -> inv s'.
Proof.
  intros s t id o s' I A R MX W TH C E1 E2 E3 E4 E5 E6 E7 OB AL MX'.
  assert (K : forall (P : bpc -> Prop) t', (P (HErase2 id o) <-> P HErase3) -> (P (tb s' t') <-> P (tb s t'))).
  { intros P t' X. destruct (Nat.eq_dec t' t) as [->|N]; [|now rewrite (TH t' N)].
    destruct C as [(-> & -> & _)|(sk & todo & -> & _)]; [now symmetry|reflexivity]. }
  assert (HWR : forall t', s_writer s = Some t' -> t' = t) by (intros; congruence).
  assert (OA : forall o', o_alive (ob s' o') = true -> o' <> o /\ ob s' o' = ob s o').
  { intros o' X. destruct (Nat.eq_dec o' o) as [->|N]; [congruence|]. auto. }
  assert (PO : forall t', t' <> t -> push_write (tp s t') = false).
  { intros t' N. destruct (push_write (tp s t')) eqn:X; [|reflexivity]. exfalso. apply N, HWR, (i_writer s I). now right. }
  assert (RO : forall t' o', base_req (tb s t') = Some o' -> o' <> o).
  { intros t' o' X ->. apply (i_req s I) in X. destruct X. congruence. }
  constructor; rewrite ?E1, ?E2, ?E3, ?E4, ?E5, ?E6, ?E7.
  - intro t'. rewrite (i_tasks s I). symmetry. apply (K (fun b => base_tasks b = true)). reflexivity.
  - intro t'. rewrite (i_writer s I). destruct (Nat.eq_dec t' t) as [->|N]; [|now rewrite (TH t' N)].
    destruct C as [(-> & -> & -> & ->)|(sk & todo & -> & -> & ->)]; cbn; tauto.
  - intro t'. rewrite (i_readers s I). symmetry. apply (K (fun b => base_read b = true)). reflexivity.
  - apply (i_rw s I).
  - intro t'. rewrite (i_wait s I). symmetry. apply (K (fun b => b = HWaiting)). split; discriminate.
  - intros t' X. destruct (Nat.eq_dec t' t) as [->|N]; [|rewrite (TH t' N) in *; now apply (i_push s I)].
    destruct C as [(B & B' & P & P')|(sk & todo & B & P & P')]; [congruence|]. rewrite B. apply (i_push s I). congruence.
  - intros t' o' X. apply (K (fun b => base_req b = Some o') t') in X; [|split; discriminate].
    rewrite (OB o') by eauto. now apply (i_req s I).
  - intros t' o' X Y. destruct (OA o' X) as [N E]. rewrite E in *.
    apply (K (fun b => base_req b = Some o') t'); [split; discriminate|]. now apply (i_mutex s I).
  - intros t' o' X Y. destruct (OA o' Y) as [N E]. rewrite E in *.
    apply (K (fun b => base_msgs b = Some o') t') in X; [|split; discriminate]. now apply (i_msgs s I).
  - intros t' o' X Y. destruct (OA o' X) as [N E]. rewrite E in *.
    apply (K (fun b => base_msgs b = Some o') t'); [split; discriminate|]. now apply (i_msgs' s I).
  - apply erase_sorted. apply (i_sorted s I).
  - intros k o'. rewrite find_erase by apply (i_sorted s I).
    destruct (equiv k id) eqn:Q.
    + apply equiv_eq in Q. subst k. split; [discriminate|]. intros [X Y]. destruct (OA o' X) as [N E]. rewrite E in *.
      exfalso. assert (F : map_find id (s_requests s) = Some o) by (apply (i_map s I); auto).
      assert (F' : map_find id (s_requests s) = Some o') by (apply (i_map s I); auto). congruence.
    + rewrite (i_map s I). split.
      * intros [X Y]. destruct (Nat.eq_dec o' o) as [->|N]; [|now rewrite (OB o' N)].
        exfalso. assert (equiv k id = true) by (apply equiv_eq; congruence). congruence.
      * intros [X Y]. destruct (OA o' X) as [N E]. now rewrite E in *.
  - intros o' X. destruct (OA o' X) as [N E]. rewrite E in X. now apply (i_next s I).
  - intros o' X. destruct (OA o' X) as [N E]. rewrite E in *. now apply (i_rid s I).
  - intros t' id' o' X.
    assert (D : base_obj (tb s t') = Some (id', o') /\ o' <> o).
    { destruct (Nat.eq_dec t' t) as [->|N].
      - destruct C as [(B & B' & P & P')|(sk & todo & B & P & P')]; [rewrite B' in X; discriminate|]. rewrite B in X.
        split; [exact X|]. intros ->. destruct (base_obj_req s t id' o I X) as [Z|Z]; [congruence|].
        destruct (i_push s I t) as [Q|(i1 & o1 & Q)]; try congruence.
      - rewrite (TH t' N) in X. split; [exact X|]. intros ->. destruct (base_obj_req s t' id' o I X) as [Z|Z]; [congruence|].
        apply N, HWR, (i_writer s I). rewrite Z. now left. }
    destruct D as [D N]. rewrite (OB o' N). now apply (i_obj s I t').
  - intros t' id' o' m X. destruct (Nat.eq_dec t' t) as [->|N].
    + destruct C as [(_ & _ & _ & P')|(sk & todo & _ & _ & P')]; rewrite P' in X; discriminate.
    + rewrite (TH t' N) in X. specialize (PO t' N). rewrite X in PO. discriminate.
  - intros t' sk' todo' X. destruct (Nat.eq_dec t' t) as [->|N].
    + destruct C as [(_ & _ & _ & P')|(sk & todo & _ & P & P')]; rewrite P' in X; [discriminate|]. injection X as <- <-.
      apply (i_pbad s I) in P. destruct P as [P1 P2]. inversion P1; subst. inversion P2; subst. split; [assumption|].
      rewrite Forall_forall in *. intros p Hp. rewrite (OB (snd p)); [auto|].
      intro Q. apply H1. cbn. rewrite <- Q. now apply in_map.
    + rewrite (TH t' N) in X. specialize (PO t' N). rewrite X in PO. discriminate.
  - intros t' id' m X. destruct (Nat.eq_dec t' t) as [->|N].
    + destruct C as [(_ & _ & _ & P')|(sk & todo & _ & _ & P')]; rewrite P' in X; destruct X; discriminate.
    + rewrite (TH t' N) in X. now apply (i_pid s I) in X.
  - intros t' o' X Y. destruct (OA o' Y) as [N E]. rewrite E in *.
    apply (K (fun b => base_final b = Some o') t') in X; [|split; discriminate]. now apply (i_final s I t').
  - intros t' X. apply (i_empty s I t').
    apply (K (fun b => b = HRead2 \/ b = HCond2 \/ b = HWait) t'); [split; intuition discriminate|exact X].
  - intros t' id' o' X. destruct (Nat.eq_dec o' o) as [->|N]; [exact MX'|]. rewrite (OB o' N).
    destruct (Nat.eq_dec t' t) as [->|NT].
    + destruct C as [(B & B' & P & P')|(sk & todo & B & P & P')]; [congruence|]. apply (i_er2 s I t id'). congruence.
    + apply (i_er2 s I t' id'). now rewrite <- (TH t' NT).
  - intros t' o' X. apply (K (fun b => base_msgs b = Some o') t') in X; [|split; discriminate]. now apply (i_lt s I) in X.
Qed.

(** A request is created. *)
Lemma inv_create : forall (s : state) t id m, inv s -> tp s t = Some (PFind id m) -> map_find id (s_requests s) = None ->
  inv (goto_push M t (Some PEnd) (create M id s)).
Proof.
  intros s t id m I P F. set (s' := goto_push M t (Some PEnd) (create M id s)).
  destruct (i_pid s I t id m) as [Z1 Z2]; [now right|].
  assert (B : forall t', tb s' t' = tb s t').
  { intros t'. unfold s'. cbn. unfold fupd. destruct (Nat.eqb_spec t' t); subst; reflexivity. }
  assert (PT : tp s' t = Some PEnd) by (unfold s'; cbn; now rewrite fupd_same).
  assert (PO : forall t', t' <> t -> tp s' t' = tp s t').
  { intros t' N. unfold s'. cbn. now rewrite fupd_other. }
  assert (OB : forall o', o' <> s_next s -> ob s' o' = ob s o') by (intros o' N; unfold s'; cbn; now rewrite fupd_other).
  assert (ON : ob s' (s_next s) = mkObj id true None None []) by (unfold s'; cbn; now rewrite fupd_same).
  assert (DE : o_alive (ob s (s_next s)) = false).
  { destruct (o_alive (ob s (s_next s))) eqn:E; [|reflexivity]. apply (i_next s I) in E. lia. }
  assert (LV : forall o', o_alive (ob s o') = true -> o' <> s_next s) by congruence.
  constructor; try (intros t'; rewrite ?B).
  - apply (i_tasks s I).
  - rewrite (i_writer s I : forall t', s_writer s' = Some t' <-> _).
    destruct (Nat.eq_dec t' t) as [->|N]; [|now rewrite (PO t' N)]. rewrite PT, P. cbn. tauto.
  - apply (i_readers s I).
  - now apply (i_rw s I).
  - apply (i_wait s I).
  - destruct (Nat.eq_dec t' t) as [->|N]; [|rewrite (PO t' N); apply (i_push s I)].
    intros _. apply (i_push s I). congruence.
  - intros o' X. apply (i_req s I) in X. rewrite (OB o') by (apply LV; tauto). exact X.
  - intros o' X Y. destruct (Nat.eq_dec o' (s_next s)) as [->|N]; [rewrite ON in Y; discriminate|]. rewrite (OB o' N) in *.
    now apply (i_mutex s I).
  - intros o' X Y. destruct (Nat.eq_dec o' (s_next s)) as [->|N]; [apply (i_lt s I) in X; lia|]. rewrite (OB o' N) in *.
    now apply (i_msgs s I).
  - intros o' X Y. destruct (Nat.eq_dec o' (s_next s)) as [->|N]; [rewrite ON in Y; discriminate|]. rewrite (OB o' N) in *.
    now apply (i_msgs' s I).
  - apply emplace_sorted. apply (i_sorted s I).
  - intros o'. change (s_requests s') with (map_emplace id (s_next s) (s_requests s)).
    rewrite find_emplace by apply (i_sorted s I). destruct (Nat.eq_dec o' (s_next s)) as [->|N].
    + rewrite ON. cbn. split.
      * intro X. split; [reflexivity|]. destruct (map_find t' (s_requests s)) as [w|] eqn:Q.
        -- injection X as ->. apply (i_map s I) in Q. destruct Q as [Q _]. congruence.
        -- destruct (equiv t' id) eqn:W; [|discriminate]. apply equiv_eq in W. congruence.
      * intros [_ <-]. rewrite F. replace (equiv id id) with true; [reflexivity|]. symmetry. now apply equiv_eq.
    + rewrite (OB o' N), <- (i_map s I). destruct (map_find t' (s_requests s)) as [w|] eqn:Q; [reflexivity|].
      split; [|discriminate]. destruct (equiv t' id); congruence.
  - destruct (Nat.eq_dec t' (s_next s)) as [->|N].
    + intros _. unfold s'. cbn. lia.
    + rewrite (OB t' N). intro X. apply (i_next s I) in X. unfold s'. cbn. lia.
  - destruct (Nat.eq_dec t' (s_next s)) as [->|N].
    + rewrite ON. auto.
    + rewrite (OB t' N). apply (i_rid s I).
  - intros id' o' X. apply (i_obj s I) in X. rewrite (OB o') by (apply LV; tauto). exact X.
  - intros id' o' m' X. destruct (Nat.eq_dec t' t) as [->|N]; [congruence|]. rewrite (PO t' N) in X.
    apply (i_pmsg s I) in X. rewrite (OB o') by (apply LV; tauto). exact X.
  - intros sk todo X. destruct (Nat.eq_dec t' t) as [->|N]; [congruence|]. rewrite (PO t' N) in X.
    apply (i_pbad s I) in X. destruct X as [X1 X2]. split; [exact X1|]. eapply Forall_impl; [|exact X2].
    cbn beta. intros p Hp. rewrite (OB (snd p)) by (apply LV; tauto). exact Hp.
  - intros id' m' X. destruct (Nat.eq_dec t' t) as [->|N]; [rewrite PT in X; destruct X; discriminate|]. rewrite (PO t' N) in X.
    now apply (i_pid s I) in X.
  - intros o' X Y. destruct (Nat.eq_dec o' (s_next s)) as [->|N]; [now rewrite ON|]. rewrite (OB o' N) in *.
    now apply (i_final s I t').
  - apply (i_empty s I).
  - intros id' o' X. destruct (Nat.eq_dec o' (s_next s)) as [->|N]; [now rewrite ON|]. rewrite (OB o' N). now apply (i_er2 s I t' id').
  - intros o' X. apply (i_lt s I) in X. unfold s'. cbn. lia.
Qed.

(* ------------------------------------------------------------------ *)
(** * All steps *)

Lemma find_sorted : forall (A : Type) (m : @rmap A) k v, sorted m -> (map_find k m = Some v <-> In (k, v) m).
Proof.
  intros A m k v S. induction m as [|[k' v'] m IH]; cbn; [split; [discriminate|tauto]|].
  inversion S as [|? ? S' F]; subst. specialize (IH S').
  destruct (equiv k k') eqn:E.
  - apply equiv_eq in E. subst k'. split; [intros [= ->]; auto|].
    intros [[= ->]|I]; auto. exfalso. rewrite Forall_forall in F. specialize (F _ I).
    unfold lt in F. cbn in F. rewrite less_irr in F. discriminate.
  - rewrite IH. split; auto. intros [[= <- <-]|]; auto. now rewrite less_irr in E.
Qed.

Lemma sorted_nodup : forall (A : Type) (m : @rmap A), sorted m -> NoDup m.
Proof.
  intros A m S. induction S as [|x m S IH F]; constructor; auto. intro I. rewrite Forall_forall in F.
  specialize (F _ I). unfold lt in F. rewrite less_irr in F. discriminate.
Qed.

Lemma nodup_map : forall (A B : Type) (f : A -> B) l, NoDup l -> (forall x y, In x l -> In y l -> f x = f y -> x = y) ->
  NoDup (map f l).
Proof.
  intros A B f l N. induction N as [|x l X N IH]; intro J; cbn; constructor.
  - intro I. apply in_map_iff in I. destruct I as (y & E & I). apply X. rewrite (J x y); cbn; auto.
  - apply IH. intros a b Ha Hb. apply J; now right.
Qed.

Lemma range_ok : forall (s : state) sk, inv s ->
  NoDup (map snd (map_equal_range sk (s_requests s))) /\
  Forall (fun p => o_alive (ob s (snd p)) = true /\ o_rid (ob s (snd p)) = fst p /\ r_socket (fst p) = sk)
    (map_equal_range sk (s_requests s)).
Proof.
  intros s sk I. destruct (range_filter sk (s_requests s) (i_sorted s I)) as [RF _]. rewrite RF.
  assert (X : forall p, In p (s_requests s) -> o_alive (ob s (snd p)) = true /\ o_rid (ob s (snd p)) = fst p).
  { intros [k o] H. apply (i_map s I k o). apply find_sorted; [apply (i_sorted s I)|exact H]. }
  split.
  - apply nodup_map.
    + apply NoDup_filter, sorted_nodup, (i_sorted s I).
    + intros x y Hx Hy E. apply filter_In in Hx, Hy. destruct Hx as [Hx _], Hy as [Hy _]. apply X in Hx, Hy.
      destruct x, y. cbn in *. destruct Hx, Hy. congruence.
  - apply Forall_forall. intros p H. apply filter_In in H. destruct H as [H1 H2]. apply N.eqb_eq in H2.
    destruct (X p H1). auto.
Qed.

Lemma inv_push_steps : forall (s : state) t w p s', inv s -> tp s t = Some p ->
  push_step M begins t w p s = Some s' -> inv s'.
Proof.
  intros s t w p s' I P0 H. pose proof (i_rw s I) as RW.
  assert (BB : tb s t = BOther \/ exists id o, tb s t = RProc id o) by (apply (i_push s I); congruence).
  assert (PK : forall s' : state, tb s' t = tb s t -> tp s' t <> None -> tb s' t = BOther \/ exists id o, tb s' t = RProc id o).
  { intros s1 -> _. exact BB. }
  Ltac pk PK := constructor; [apply PK; cbn; now rewrite fupd_same| | | ]; cbn; rewrite fupd_same; cbn; try discriminate;
     try (intros ? ? [?|?]; discriminate).
  destruct p; cbn [push_step] in H.
  - (* PStart *)
    break H; injection H as <-; destruct BB as [B0|(i0 & o0 & B0)]; apply (inv_move s _ t 0 I); try sd B0 P0;
    pk PK; apply N.eqb_neq in E, E0; intros ? ? [X|X]; inversion X; subst; auto.
  - (* PLocal *)
    injection H as <-; destruct BB as [B0|(i0 & o0 & B0)]; apply (inv_move s _ t 0 I); try sd B0 P0; pk PK.
  - (* PBadWant *)
    unfold lock_write, bindo in H. break H. injection H as <-.
    destruct BB as [B0|(i0 & o0 & B0)]; apply (inv_move s _ t 0 I); try sd B0 P0; pk PK.
    all: intros sk' todo X; injection X as <- <-; now apply range_ok.
  - (* PBad *)
    destruct todo as [|[k o] todo].
    + injection H as <-. destruct BB as [B0|(i0 & o0 & B0)]; apply (inv_move s _ t 0 I); try sd B0 P0; pk PK.
    + pose proof (i_pbad s I t _ _ P0) as [N F]. apply Forall_cons_iff in F. destruct F as [(F1 & F2 & F3) F']. cbn in F1, F2, F3.
      apply NoDup_cons_iff in N. destruct N as [_ N].
      unfold touch in H. rewrite F1 in H. destruct (o_mutex (ob s o)) eqn:MX; injection H as <-.
      * destruct BB as [B0|(i0 & o0 & B0)]; apply (inv_move s _ t 0 I); try sd B0 P0; pk PK.
        all: intros sk' todo' X; injection X as <- <-; auto.
      * apply (inv_erase s t k o); auto; cbn.
        -- apply (i_writer s I). rewrite P0. now right.
        -- intros. now rewrite fupd_other.
        -- right. exists sk, todo. rewrite fupd_same. auto.
        -- intros. now rewrite fupd_other.
        -- now rewrite fupd_same.
        -- now rewrite fupd_same.
  - (* PWant *)
    unfold lock_write, bindo in H. break H. injection H as <-.
    pose proof (i_pid s I t id m (or_introl P0)) as Z.
    destruct BB as [B0|(i0 & o0 & B0)]; apply (inv_move s _ t 0 I); try sd B0 P0; pk PK.
    all: intros ? ? [X|X]; inversion X; subst; auto.
  - (* PFind *)
    destruct (map_find id (s_requests s)) as [o|] eqn:F.
    + injection H as <-. apply (i_map s I) in F.
      destruct BB as [B0|(i0 & o0 & B0)]; apply (inv_move s _ t 0 I); try sd B0 P0; pk PK.
      all: intros ? ? ? X; injection X as <- <- <-; auto.
    + destruct (begins m).
      * injection H as <-. apply (inv_note (goto_push M t (Some PEnd) (create M id s)) (NBegun id m (s_next s))). eapply inv_create; eauto.
      * injection H as <-. destruct BB as [B0|(i0 & o0 & B0)]; apply (inv_move s _ t 0 I); try sd B0 P0; pk PK.
  - (* PMsg *)
    unfold touch in H. break H. injection H as <-.
    destruct BB as [B0|(i0 & o0 & B0)]; apply (inv_move s _ t o I); try sd B0 P0; pk PK.
  - (* PUnlock *)
    injection H as <-. destruct BB as [B0|(i0 & o0 & B0)]; apply (inv_move s _ t 0 I); try sd B0 P0; pk PK.
  - (* PTasks *)
    destruct (s_tasksLock s) eqn:TL; [discriminate|].
    set (s1 := set_tasks M (s_tasks s ++ [id]) s) in *.
    assert (I1 : inv s1) by (apply (inv_same s s1 I); auto).
    assert (J : exists s2, s' = goto_push M t None s2 /\ inv s2 /\ tp s2 t = tp s t /\ tb s2 t = tb s t).
    { unfold bindo, notify_one in H. destruct (s_waiters s1) as [|x ws] eqn:W.
      - injection H as <-. exists s1. auto.
      - destruct (existsb (Nat.eqb w) (x :: ws)) eqn:EX; [|discriminate]. injection H as <-. exists (wakeup M w s1).
        apply existsb_exists in EX. destruct EX as (y & Y1 & Y2). apply Nat.eqb_eq in Y2. subst y.
        rewrite <- W in Y1. apply (i_wait s1 I1) in Y1.
        split; [reflexivity|]. split; [apply inv_wake; auto|]. destruct (wake_thread s1 w t) as (A1 & A2 & A3).
        rewrite A1, A3. split; [reflexivity|]. destruct (Nat.eqb_spec t w); [|reflexivity]. subst w. exfalso.
        cbn in Y1. destruct BB as [B0|(i0 & o0 & B0)]; congruence. }
    destruct J as (s2 & -> & I2 & P2 & B2). rewrite P0 in P2. pose proof (i_rw s2 I2) as RW2. clear H. 
    destruct BB as [B0|(i0 & o0 & B0)]; rewrite B0 in B2; apply (inv_move s2 _ t 0 I2); try sd B2 P2.
    all: apply push_ok_none; cbn; now rewrite fupd_same.
  - (* PEnd *)
    injection H as <-. destruct BB as [B0|(i0 & o0 & B0)]; apply (inv_move s _ t 0 I); try sd B0 P0;
    apply push_ok_none; cbn; now rewrite fupd_same.
Qed.

Lemma inv_sig : forall (s : state) t k, inv s -> inv (goto_sig M t k s).
Proof.
  intros s t k I. apply (inv_same s _ I); auto. intro t'. cbn. unfold fupd. destruct (Nat.eqb_spec t' t); subst; auto.
Qed.

Lemma inv_step : forall (s : state) t a s', inv s -> step begins t a s = Some s' -> inv s'.
Proof.
  intros s t a s' I H. pose proof (i_rw s I) as RW. destruct a; cbn [step] in H.
  - destruct (ts s t) as [k|] eqn:S0.
    + unfold sig_step in H. break H. injection H as <-. apply inv_sig, inv_all. apply (inv_same s _ I); auto.
    + destruct (tp s t) as [p|] eqn:P0; [eapply inv_push_steps; eauto|].
      destruct (tb s t) eqn:B0; try (eapply (inv_base s t); eauto; try discriminate; fail).
      * (* HErase2 *)
        cbn in H. unfold touch in H. break H. injection H as <-.
        destruct (i_obj s I t id o) as [A R]; [rewrite B0; reflexivity|].
        apply (inv_erase s t id o); auto; cbn.
        -- apply (i_er2 s I t id). exact B0.
        -- apply (i_writer s I). rewrite B0. now left.
        -- intros. now rewrite fupd_other.
        -- left. rewrite fupd_same. auto.
        -- intros. now rewrite fupd_other.
        -- now rewrite fupd_same.
        -- rewrite fupd_same. cbn. apply (i_er2 s I t id). exact B0.
      * (* HCond2 *)
        destruct (running s) eqn:R; [eapply (inv_base s t); eauto; discriminate|].
        cbn [base_step] in H. rewrite R in H. injection H as <-.
        assert (I2 : inv (notify_all M s)) by now apply inv_all.
        destruct (all_threads (s_waiters s) s t) as (A1 & A2 & A3). fold (notify_all M s) in A1, A2, A3.
        assert (Z : existsb (Nat.eqb t) (s_waiters s) = false).
        { apply not_true_is_false. intro X. apply existsb_exists in X. destruct X as (y & Y1 & Y2).
          apply Nat.eqb_eq in Y2. subst y. apply (i_wait s I) in Y1. congruence. }
        rewrite Z, B0 in A3. rewrite P0 in A1. pose proof (i_rw _ I2) as RW2.
        set (s2 := notify_all M s) in *. clearbody s2.
        apply (inv_move s2 _ t 0 I2); sd A3 A1.
  - destruct (ts s t); [discriminate|]. destruct (tp s t) eqn:P0; [discriminate|]. destruct (tb s t) eqn:B0; try discriminate H.
    unfold touch in H. break H; injection H as <-; apply (inv_move s _ t 0 I); sd B0 P0.
  - assert (X : s' = goto_push M t (Some (PStart id m)) s /\ tp s t = None /\ (tb s t = BOther \/ exists i o, tb s t = RProc i o)).
    { destruct (ts s t); [discriminate|]. destruct (tp s t); [discriminate|].
      destruct (tb s t); try discriminate; injection H as <-; eauto 6. }
    destruct X as (-> & P0 & BB). clear H.
    destruct BB as [B0|(i0 & o0 & B0)]; apply (inv_move s _ t 0 I); try sd B0 P0.
    all: constructor; cbn; rewrite fupd_same; cbn; rewrite ?B0; try discriminate; eauto; intros ? ? [X|X]; discriminate.
  - destruct (tb s t) eqn:B0; try discriminate. injection H as <-. apply inv_wake; auto.
  - destruct (ts s t); [discriminate|]. injection H as <-. now apply inv_sig.
  - destruct (tp s t) eqn:P0; [discriminate|]. destruct (tb s t) eqn:B0; try discriminate. injection H as <-.
    apply (inv_move s _ t 0 I); sd B0 P0.
  - injection H as <-. apply (inv_same s _ I); auto.
Qed.

Lemma inv_exec : forall l (s s' : state), inv s -> exec begins l s = Some s' -> inv s'.
Proof.
  induction l as [|[t a] l IH]; intros s s' I H; cbn in H; [now injection H as <-|].
  destruct (step begins t a s) as [s1|] eqn:E; cbn in H; [|discriminate]. eapply IH; [|exact H]. eapply inv_step; eauto.
Qed.

Lemma inv_reachable : forall s : state, reachable begins s -> inv s.
Proof. intros s (l & H). eapply inv_exec; [|exact H]. apply (inv_init begins). Qed.
End Proofs.
