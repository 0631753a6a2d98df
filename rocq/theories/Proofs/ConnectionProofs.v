From Coq Require Import List Bool Arith Lia Permutation Sorted.
From Verif Require Import Model.Connection Spec.ConnectionSpec.
Import ListNotations.
Local Arguments Nat.ltb : simpl never.

(** * The map *)
Definition sorted (c : list (nat * conn)) : Prop := StronglySorted lt (map fst c).
Lemma lookup_none : forall k c, lookup k c = None <-> ~ In k (map fst c).
Proof.
  intros k c; induction c as [|[k' x] c IH]; cbn; [tauto|]; destruct (Nat.eqb_spec k k') as [->|N]; [split; [discriminate|tauto]|].
  rewrite IH; intuition congruence.
Qed.
Lemma lookup_insert : forall k x k' c, lookup k' (insert k x c) = if k' =? k then Some x else lookup k' c.
Proof.
  intros k x k' c; induction c as [|[k0 y] c IH]; cbn; [reflexivity|].
  destruct (Nat.eqb_spec k k0) as [->|N]; [cbn; destruct (k' =? k0); reflexivity|].
  destruct (Nat.ltb_spec k k0); cbn; [reflexivity|]; rewrite IH; destruct (Nat.eqb_spec k' k0) as [->|]; [|reflexivity]; destruct (Nat.eqb_spec k0 k); [congruence|reflexivity].
Qed.
Lemma sorted_app : forall k x a b, sorted (a ++ (k, x) :: b) -> Forall (fun p => fst p < k) a /\ Forall (fun p => k < fst p) b /\ sorted (a ++ b).
Proof.
  intros k x a; induction a as [|[k' y] a IH]; intros b H; unfold sorted in H; cbn [app map fst] in H; apply StronglySorted_inv in H as [H F].
  - split; [apply Forall_nil|]; split; [apply Forall_forall; intros p I; rewrite Forall_forall in F; apply F; now apply in_map|exact H].
  - apply IH in H as (A & B & C); rewrite map_app in F; cbn [map fst] in F; apply Forall_app in F as [F1 F2]; apply Forall_cons_iff in F2 as [F2 F3].
    split; [constructor; [exact F2|exact A]|]; split; [exact B|]; unfold sorted; cbn [app map fst]; constructor; [exact C|]; rewrite map_app; apply Forall_app; now split.
Qed.
Lemma lookup_split : forall k x c, sorted c -> lookup k c = Some x -> exists a b, c = a ++ (k, x) :: b /\ erase k c = a ++ b /\ (forall y, insert k y c = a ++ (k, y) :: b).
Proof.
  intros k x c; induction c as [|[k' y] c IH]; cbn [lookup insert erase]; intros S H; [discriminate|]; unfold sorted in S; cbn [map fst] in S; apply StronglySorted_inv in S as [S F].
  destruct (Nat.eqb_spec k k') as [->|N]; [injection H as ->; exists [], c; auto|].
  destruct (IH S H) as (a & b & E1 & E2 & E3); exists ((k', y) :: a), b; split; [now rewrite E1|]; split; [cbn; now rewrite E2|]; intros z; rewrite E3.
  assert (I : In k (map fst c)) by (destruct (in_dec Nat.eq_dec k (map fst c)) as [I|I]; [exact I|apply lookup_none in I; congruence]).
  rewrite Forall_forall in F; apply F in I; cbn [fst] in I; destruct (Nat.ltb_spec k k'); [lia|reflexivity].
Qed.
Lemma insert_fresh : forall k y c, sorted c -> lookup k c = None -> sorted (insert k y c) /\ exists a b, c = a ++ b /\ insert k y c = a ++ (k, y) :: b.
Proof.
  intros k y c; induction c as [|[k' z] c IH]; cbn [lookup insert]; intros S H; [split; [repeat constructor|exists [], []; auto]|].
  unfold sorted in S; cbn [map fst] in S; assert (S0 := S); apply StronglySorted_inv in S as [S F]; destruct (Nat.eqb_spec k k') as [->|N]; [discriminate|].
  destruct (Nat.ltb_spec k k') as [L|L].
  - split; [|exists [], ((k', z) :: c); auto]; unfold sorted; cbn [map fst]; constructor; [exact S0|]; constructor; [exact L|].
    eapply Forall_impl; [|exact F]; cbn [fst]; intros; lia.
  - destruct (IH S H) as (S' & a & b & E1 & E2); split; [|exists ((k', z) :: a), b; rewrite E2, E1; auto].
    unfold sorted; cbn [map fst]; constructor; [exact S'|]; rewrite E2, map_app; cbn [map fst]; rewrite E1, map_app in F; apply Forall_app in F as [F1 F2].
    apply Forall_app; split; [exact F1|]; constructor; [lia|exact F2].
Qed.
Lemma sorted_same : forall a b k (x y : conn), sorted (a ++ (k, x) :: b) -> sorted (a ++ (k, y) :: b).
Proof. intros a b k x y; unfold sorted; now rewrite !map_app. Qed.
Lemma lookup_app : forall k a b, lookup k (a ++ b) = match lookup k a with Some x => Some x | None => lookup k b end.
Proof. intros k a b; induction a as [|[k' x] a IH]; cbn; [reflexivity|]; destruct (k =? k'); [reflexivity|exact IH]. Qed.
Lemma lookup_erase : forall k k' c x, sorted c -> lookup k c = Some x -> lookup k' (erase k c) = if k' =? k then None else lookup k' c.
Proof.
  intros k k' c x S H; destruct (lookup_split _ _ _ S H) as (a & b & E1 & E2 & _); rewrite E2, E1; rewrite E1 in S; apply sorted_app in S as (A & B & _).
  rewrite !lookup_app; cbn [lookup]; destruct (Nat.eqb_spec k' k) as [->|N]; [|reflexivity].
  assert (X : lookup k a = None) by (apply lookup_none; intros I; apply in_map_iff in I as (p & <- & I); rewrite Forall_forall in A; apply A in I; lia).
  assert (Y : lookup k b = None) by (apply lookup_none; intros I; apply in_map_iff in I as (p & <- & I); rewrite Forall_forall in B; apply B in I; lia).
  now rewrite X, Y.
Qed.
Lemma flying_app : forall a b, flying (a ++ b) = flying a ++ flying b.
Proof. intros a b; induction a as [|[k x] a IH]; [reflexivity|]; cbn; destruct (n_query x); now rewrite IH. Qed.

(** * What is done to the data *)
Record data := mkD { d_conns : list (nat * conn); d_queue : list query; d_asked : list query; d_next : nat; d_res : nat -> option nat; d_log : list qev }.
Definition data_of (s : qst) : data := mkD (z_conns s) (z_queue s) (z_asked s) (z_next s) (z_res s) (z_log s).

Inductive micro : data -> data -> Prop :=
| m_ask : forall c q a n r l o cb, micro (mkD c q a n r l) (mkD c q (a ++ [mkQ n o cb]) (S n) r l)
| m_put : forall c q a n r l i x, nth_error a i = Some x -> micro (mkD c q a n r l) (mkD c (q ++ [x]) (remove_nth i a) n r (l ++ [VQueued x]))
| m_login : forall c q a n r l k, lookup k c = None -> micro (mkD c q a n r l) (mkD (insert k (mkN None false) c) q a n r l)
| m_send : forall c q qs a n r l k x b, lookup k c = Some x -> n_query x = None ->
    micro (mkD c (q :: qs) a n r l) (mkD (insert k (mkN (Some q) b) c) qs a n r (l ++ [VSent k q]))
| m_fail : forall c q qs a n r l k x, lookup k c = Some x -> n_query x = None ->
    micro (mkD c (q :: qs) a n r l) (mkD (erase k c) qs a n r (l ++ [VFailed q]))
| m_rest : forall c qs a n r l k x q b, lookup k c = Some x -> n_query x = Some q ->
    micro (mkD c qs a n r l) (mkD (insert k (mkN (Some q) b) c) qs a n r l)
| m_got : forall c qs a n r l k x q v r', lookup k c = Some x -> n_query x = Some q -> keep q v r = Some r' ->
    micro (mkD c qs a n r l) (mkD c qs a n r' (l ++ [VGot k q v]))
| m_done : forall c qs a n r l k x q, lookup k c = Some x -> n_query x = Some q ->
    micro (mkD c qs a n r l) (mkD (insert k (mkN None false) c) qs a n r (l ++ VDone k q :: if y_cb q then [VCalled q] else []))
| m_drop : forall c qs a n r l k x, lookup k c = Some x -> n_query x = None -> micro (mkD c qs a n r l) (mkD (erase k c) qs a n r l)
| m_back : forall c qs a n r l k x q, lookup k c = Some x -> n_query x = Some q ->
    micro (mkD c qs a n r l) (mkD (erase k c) (q :: qs) a n r (l ++ [VBack k q]))
| m_cut : forall c qs a n r l k x, micro (mkD ((k, x) :: c) qs a n r l)
    (mkD c qs a n r (l ++ match n_query x with Some q => [VCut k q] | None => [] end))
| m_clear : forall c qs a n r l, micro (mkD c qs a n r l) (mkD c [] a n r (l ++ [VCleared qs])).

Inductive micros : data -> data -> Prop :=
| ms_nil : forall d, micros d d
| ms_cons : forall d d' d'', micro d d' -> micros d' d'' -> micros d d''.
Lemma micros_one : forall d d', micro d d' -> micros d d'.
Proof. intros; econstructor; [eassumption|constructor]. Qed.
Lemma micros_app : forall d d' d'', micros d d' -> micros d' d'' -> micros d d''.
Proof. intros d d' d'' H; induction H; auto; intros; econstructor; eauto. Qed.

Lemma cuts : forall c qs a n r l, micros (mkD c qs a n r l) (mkD [] qs a n r (l ++ map (fun x => VCut (fst x) (snd x)) (flying c))).
Proof.
  induction c as [|[k x] c IH]; intros; cbn [flying map]; [rewrite app_nil_r; constructor|].
  eapply ms_cons; [apply m_cut|]; destruct (n_query x) as [q|]; cbn [map fst snd].
  - replace (l ++ VCut k q :: map (fun x0 => VCut (fst x0) (snd x0)) (flying c)) with ((l ++ [VCut k q]) ++ map (fun x0 => VCut (fst x0) (snd x0)) (flying c)) by now rewrite <- app_assoc.
    apply IH.
  - rewrite app_nil_r; apply IH.
Qed.

Lemma take_micros : forall rs k q s s' x, lookup k (z_conns s) = Some x -> n_query x = Some q -> take k q rs s = Some s' ->
  micros (data_of s) (data_of s') /\ z_conns s' = z_conns s /\ z_queue s' = z_queue s /\ z_bytes s' = z_bytes s /\ z_waking s' = z_waking s /\ z_stop s' = z_stop s /\ z_term s' = z_term s /\ z_pc s' = z_pc s.
Proof.
  induction rs as [|r rs IH]; cbn [take]; intros k q s s' x L Q H; [injection H as <-; split; [constructor|repeat split]|].
  destruct (keep q r (z_res s)) as [res|] eqn:K; [|discriminate].
  destruct (IH k q (note [VGot k q r] (set_res res s)) s' x L Q H) as (A & B); split; [|exact B].
  eapply ms_cons; [|exact A]; unfold data_of, note, set_res; cbn; eapply m_got; eauto.
Qed.

Lemma kill_micros : forall k c s, lookup k (z_conns s) = Some c -> micros (data_of s) (data_of (kill k c s)).
Proof.
  intros k c s L; unfold kill, data_of, set_conns, note, set_queue; destruct (n_query c) as [q|] eqn:Q; cbn; apply micros_one.
  - eapply m_back; eauto.
  - eapply m_drop; eauto.
Qed.
Lemma hung_micros : forall k c a b d s, lookup k (z_conns s) = Some c -> micros (data_of s) (data_of (hung k c a b d s)).
Proof.
  intros k c a b d s L; unfold hung; destruct (a || b || d); [|constructor].
  assert (K := kill_micros k c s L); exact K.
Qed.
Lemma event_micros : forall k c i a b d ok rest rs cp s, lookup k (z_conns s) = Some c -> micros (data_of s) (data_of (event k c i a b d ok rest rs cp s)).
Proof.
  intros k c i a b d ok rest rs cp s L; unfold event; destruct i; [|now apply hung_micros].
  destruct (n_query c) as [q|] eqn:Q; [|now apply hung_micros]; destruct ok; [|now apply hung_micros].
  destruct (take k q rs _) as [s'|] eqn:T; [|constructor].
  apply take_micros with (x := mkN (Some q) rest) in T as (A & B & _); [|cbn; now rewrite lookup_insert, Nat.eqb_refl|reflexivity].
  assert (R : micros (data_of s) (data_of s')).
  { eapply ms_cons; [|exact A]; unfold data_of, set_conns; cbn; eapply m_rest; eauto. }
  destruct cp; [|exact R]; eapply micros_app; [exact R|]; apply micros_one; unfold done, data_of, set_pc, note, set_conns; cbn.
  eapply m_done with (x := mkN (Some q) rest); [|reflexivity]; rewrite B; cbn; now rewrite lookup_insert, Nat.eqb_refl.
Qed.
Lemma step_micros : forall conc a s s', qstep conc a s = Some s' -> micros (data_of s) (data_of s').
Proof.
  intros conc a s s' H; destruct a; cbn [qstep] in H.
  - unfold hstep in H; destruct (z_pc s) as [last|last| | |[|k l]| | | |]; destruct e; try discriminate.
    + injection H as <-; unfold data_of, set_pc, note, set_conns; cbn; apply cuts.
    + injection H as <-; unfold data_of, set_pc, note, set_queue; cbn; apply micros_one, m_clear.
    + destruct (z_term s || _); [injection H as <-; constructor|]; destruct (connected conc s); injection H as <-; constructor.
    + destruct k as [k|]; [|injection H as <-; constructor]; destruct (lookup k (z_conns s)) eqn:L; [discriminate|].
      injection H as <-; match goal with |- context [if ?x then _ else _] => destruct x end; apply micros_one; unfold data_of, set_pc, set_conns; cbn; now apply m_login.
    + injection H as <-; constructor.
    + destruct (lookup k (z_conns s)) as [c|] eqn:L; [|discriminate]; destruct (n_query c) eqn:Q; [injection H as <-; constructor|].
      destruct (z_queue s) as [|q r] eqn:E; [injection H as <-; constructor|].
      destruct ok; injection H as <-; apply micros_one; unfold kill; rewrite ?Q; unfold data_of, set_pc, note, set_conns, set_queue; cbn; rewrite E; [eapply m_send|eapply m_fail]; eauto.
    + destruct (z_bytes s =? 0); [discriminate|]; injection H as <-; constructor.
    + destruct (connected conc s); [discriminate|]; injection H as <-; constructor.
    + destruct (lookup k (z_conns s)) as [c|] eqn:L; [|discriminate]; destruct (_ || _); [|discriminate]; injection H as <-; now apply event_micros.
  - destruct (_ || _); injection H as <-; [constructor|]; apply micros_one; apply m_ask.
  - destruct (nth_error _ _) as [q|] eqn:E; [|discriminate]; injection H as <-; apply micros_one; now apply m_put.
  - injection H as <-; constructor.
  - injection H as <-; constructor.
  - destruct (z_waking s); [discriminate|]; injection H as <-; constructor.
  - destruct (z_pc s); try discriminate; injection H as <-; constructor.
Qed.

Lemma reach_ind : forall conc (P : qst -> Prop), P q_init -> (forall a s s', qreach conc s -> P s -> qstep conc a s = Some s' -> P s') -> forall s, qreach conc s -> P s.
Proof.
  intros conc P I St s [l H]; assert (X : forall l s0, qreach conc s0 -> P s0 -> qexec conc l s0 = Some s -> P s).
  { induction l0 as [|a l0 IH]; cbn; intros s0 R P0 E; [congruence|]; destruct (qstep conc a s0) as [s1|] eqn:S1; [|discriminate].
    apply (IH s1); [|eapply St; eauto|exact E]. destruct R as [l' R]; exists (l' ++ [a]); clear - R S1; revert R; generalize q_init.
    induction l' as [|b l' IH]; cbn; intros s R; [injection R as ->; now rewrite S1|]; destruct (qstep conc b s); [now apply IH|discriminate]. }
  apply (X l q_init); auto; exists []; reflexivity.
Qed.
Lemma reach_data : forall conc (P : data -> Prop), P (data_of q_init) -> (forall d d', P d -> micro d d' -> P d') -> forall s, qreach conc s -> P (data_of s).
Proof.
  intros conc P I St; apply reach_ind; [exact I|]; intros a s s' _ H E; apply step_micros in E; induction E; eauto.
Qed.

(** * Bookkeeping *)
Lemma queue_snoc : forall l e, queue_after (l ++ [e]) = queue_event (queue_after l) e.
Proof. intros; unfold queue_after; now rewrite fold_left_app. Qed.
Lemma busy_snoc : forall k l e, busy_after k (l ++ [e]) = busy_event k (busy_after k l) e.
Proof. intros; unfold busy_after; now rewrite fold_left_app. Qed.

Lemma queue_ok : forall conc s, qreach conc s -> queue_after (z_log s) = Some (z_queue s).
Proof.
  intros conc; refine (reach_data conc (fun d => queue_after (d_log d) = Some (d_queue d)) _ _); [reflexivity|].
  intros d d' H M; destruct M; cbn [d_log d_queue] in *; try exact H; try (rewrite queue_snoc, H; cbn [queue_event]; rewrite ?Nat.eqb_refl; reflexivity).
  - destruct (y_cb q); [rewrite (app_assoc l [VDone k q] [VCalled q] : l ++ VDone k q :: [VCalled q] = _), queue_snoc|]; rewrite queue_snoc, H; reflexivity.
  - destruct (n_query x); [rewrite queue_snoc, H; reflexivity|now rewrite app_nil_r].
Qed.

Definition conn_busy (k : nat) (c : list (nat * conn)) : option query := match lookup k c with Some x => n_query x | None => None end.
Definition orderly (l : list qev) : Prop := forall l1 e l2, l = l1 ++ e :: l2 -> proper l1 e.
Lemma orderly_snoc : forall l e, orderly l -> proper l e -> orderly (l ++ [e]).
Proof.
  intros l e O P l1 e' l2 E; destruct (exists_last (l := e' :: l2)) as (m & z & Z); [discriminate|].
  rewrite Z, app_assoc in E; apply app_inj_tail in E as [E ->]; destruct m as [|w m]; cbn in Z; injection Z as -> Z.
  - rewrite app_nil_r in E; subst; exact P.
  - subst l2; eapply O; exact E.
Qed.
Lemma busy_inv : forall conc s, qreach conc s -> sorted (z_conns s) /\ (forall k, busy_after k (z_log s) = conn_busy k (z_conns s)) /\ orderly (z_log s).
Proof.
  intros conc; refine (reach_data conc (fun d => sorted (d_conns d) /\ (forall k, busy_after k (d_log d) = conn_busy k (d_conns d)) /\ orderly (d_log d)) _ _).
  { split; [constructor|]; split; [reflexivity|]; intros l1 e l2 E; destruct l1; discriminate. }
  intros d d' (S & B & O) M; destruct M; cbn [d_log d_conns] in *.
  - auto.
  - split; [exact S|]; split; [intros k; rewrite busy_snoc; exact (B k)|]; apply orderly_snoc; [exact O|exact I].
  - destruct (insert_fresh k (mkN None false) c S H) as [S' _]; split; [exact S'|]; split; [|exact O].
    intros k'; rewrite B; unfold conn_busy; rewrite lookup_insert; destruct (Nat.eqb_spec k' k) as [->|]; [now rewrite H|reflexivity].
  - destruct (lookup_split _ _ _ S H) as (c1 & c2 & E1 & E2 & E3); split; [rewrite E3; rewrite E1 in S; eapply sorted_same; eauto|]; split.
    + intros k'; rewrite busy_snoc, B; unfold conn_busy; rewrite lookup_insert; cbn [busy_event]; destruct (k' =? k); reflexivity.
    + apply orderly_snoc; [exact O|]; cbn; rewrite B; unfold conn_busy; now rewrite H.
  - destruct (lookup_split _ _ _ S H) as (c1 & c2 & E1 & E2 & E3); split; [rewrite E2; rewrite E1 in S; apply sorted_app in S; tauto|]; split.
    + intros k'; rewrite busy_snoc, B; unfold conn_busy; rewrite (lookup_erase _ _ _ _ S H); cbn [busy_event]; destruct (Nat.eqb_spec k' k) as [->|]; [now rewrite H|reflexivity].
    + apply orderly_snoc; [exact O|exact I].
  - destruct (lookup_split _ _ _ S H) as (c1 & c2 & E1 & E2 & E3); split; [rewrite E3; rewrite E1 in S; eapply sorted_same; eauto|]; split; [|exact O].
    intros k'; rewrite B; unfold conn_busy; rewrite lookup_insert; destruct (Nat.eqb_spec k' k) as [->|]; [now rewrite H|reflexivity].
  - split; [exact S|]; split; [intros k'; rewrite busy_snoc; exact (B k')|]; apply orderly_snoc; [exact O|]; cbn; rewrite B; unfold conn_busy; now rewrite H.
  - destruct (lookup_split _ _ _ S H) as (c1 & c2 & E1 & E2 & E3); split; [rewrite E3; rewrite E1 in S; eapply sorted_same; eauto|].
    assert (B1 : forall k', busy_after k' (l ++ [VDone k q]) = conn_busy k' (insert k (mkN None false) c)).
    { intros k'; rewrite busy_snoc, B; unfold conn_busy; rewrite lookup_insert; cbn [busy_event]; destruct (k' =? k); reflexivity. }
    assert (O1 : orderly (l ++ [VDone k q])) by (apply orderly_snoc; [exact O|]; cbn; rewrite B; unfold conn_busy; now rewrite H).
    destruct (y_cb q); [|split; assumption].
    rewrite (app_assoc l [VDone k q] [VCalled q] : l ++ VDone k q :: [VCalled q] = _); split; [intros k'; rewrite busy_snoc; exact (B1 k')|]; apply orderly_snoc; [exact O1|exact I].
  - destruct (lookup_split _ _ _ S H) as (c1 & c2 & E1 & E2 & E3); split; [rewrite E2; rewrite E1 in S; apply sorted_app in S; tauto|]; split; [|exact O].
    intros k'; rewrite B; unfold conn_busy; rewrite (lookup_erase _ _ _ _ S H); destruct (Nat.eqb_spec k' k) as [->|]; [now rewrite H|reflexivity].
  - destruct (lookup_split _ _ _ S H) as (c1 & c2 & E1 & E2 & E3); split; [rewrite E2; rewrite E1 in S; apply sorted_app in S; tauto|]; split.
    + intros k'; rewrite busy_snoc, B; unfold conn_busy; rewrite (lookup_erase _ _ _ _ S H); cbn [busy_event]; destruct (k' =? k); reflexivity.
    + apply orderly_snoc; [exact O|]; cbn; rewrite B; unfold conn_busy; now rewrite H.
  - assert (L : lookup k ((k, x) :: c) = Some x) by (cbn; now rewrite Nat.eqb_refl).
    assert (S' : sorted c) by (unfold sorted in *; cbn in S; apply StronglySorted_inv in S; tauto).
    assert (X : forall k', lookup k' c = if k' =? k then None else lookup k' ((k, x) :: c)).
    { intros k'; rewrite <- (lookup_erase _ _ _ _ S L); cbn; now rewrite Nat.eqb_refl. }
    split; [exact S'|]; destruct (n_query x) as [q|] eqn:Q.
    + split; [|apply orderly_snoc; [exact O|]; cbn; rewrite B; unfold conn_busy; now rewrite L].
      intros k'; rewrite busy_snoc, B; unfold conn_busy; rewrite X; cbn [busy_event]; destruct (k' =? k); reflexivity.
    + rewrite app_nil_r; split; [|exact O]; intros k'; rewrite B; unfold conn_busy; rewrite X; destruct (Nat.eqb_spec k' k) as [->|]; [now rewrite L|reflexivity].
  - split; [exact S|]; split; [intros k'; rewrite busy_snoc; exact (B k')|]; apply orderly_snoc; [exact O|exact I].
Qed.
Lemma proper_ok : forall conc s l1 e l2, qreach conc s -> z_log s = l1 ++ e :: l2 -> proper l1 e.
Proof. intros conc s l1 e l2 R E; destruct (busy_inv _ _ R) as (_ & _ & O); eapply O; exact E. Qed.

(** * Accounts *)
Lemma fly_set : forall k x y c, sorted c -> lookup k c = Some x ->
  exists a b, flying c = a ++ match n_query x with Some q => [(k, q)] | None => [] end ++ b /\
              flying (insert k y c) = a ++ match n_query y with Some q => [(k, q)] | None => [] end ++ b /\ flying (erase k c) = a ++ b.
Proof.
  intros k x y c S L; destruct (lookup_split _ _ _ S L) as (a & b & E1 & E2 & E3); exists (flying a), (flying b); rewrite E2, E3, E1, !flying_app; cbn.
  split; [destruct (n_query x); reflexivity|]; split; [destruct (n_query y); reflexivity|reflexivity].
Qed.
Lemma fly_new : forall k c, sorted c -> lookup k c = None -> flying (insert k (mkN None false) c) = flying c.
Proof. intros k c S L; destruct (insert_fresh k (mkN None false) c S L) as (_ & a & b & E1 & E2); rewrite E2, E1, !flying_app; reflexivity. Qed.

Lemma fm_snoc : forall (A B : Type) (f : A -> list B) l e, flat_map f (l ++ [e]) = flat_map f l ++ f e.
Proof. intros; rewrite flat_map_app; cbn; now rewrite app_nil_r. Qed.

Lemma remove_nth_perm : forall (A : Type) n (l : list A) x, nth_error l n = Some x -> Permutation l (x :: remove_nth n l).
Proof.
  intros A n l x H; unfold remove_nth; destruct (nth_error_split _ _ H) as (a & b & -> & <-).
  rewrite firstn_app, Nat.sub_diag, firstn_O, app_nil_r, firstn_all.
  replace (skipn (S (length a)) (a ++ x :: b)) with b.
  - symmetry; apply Permutation_middle.
  - rewrite skipn_app, skipn_all2 by lia; replace (S (length a) - length a) with 1 by lia; reflexivity.
Qed.
Lemma ids_ok : forall conc s, qreach conc s -> NoDup (map y_id (queued (z_log s) ++ z_asked s)) /\ Forall (fun q => y_id q < z_next s) (queued (z_log s) ++ z_asked s).
Proof.
  intros conc; refine (reach_data conc (fun d => NoDup (map y_id (queued (d_log d) ++ d_asked d)) /\ Forall (fun q => y_id q < d_next d) (queued (d_log d) ++ d_asked d)) _ _).
  { cbn; split; constructor. }
  intros d d' [N F] M; destruct M; cbn [d_log d_asked d_next] in *;
    try (unfold queued in *; rewrite ?fm_snoc; cbn [app]; rewrite ?app_nil_r; split; assumption).
  - rewrite app_assoc, map_app; split.
    + apply NoDup_incl_NoDup with (l := n :: map y_id (queued l ++ a)).
      * constructor; [|exact N]; intros I; apply in_map_iff in I as (q0 & E & I); rewrite Forall_forall in F; apply F in I; lia.
      * rewrite app_length; cbn; lia.
      * intros z [<-|I]; apply in_or_app; [right; now left|now left].
    + apply Forall_app; split; [eapply Forall_impl; [|exact F]; cbn; intros; lia|constructor; [cbn; lia|constructor]].
  - assert (P : Permutation (queued l ++ a) (queued (l ++ [VQueued x]) ++ remove_nth i a)).
    { unfold queued; rewrite fm_snoc, <- app_assoc; apply Permutation_app_head; cbn; now apply remove_nth_perm. }
    split; [eapply Permutation_NoDup; [apply Permutation_map; exact P|exact N]|eapply Permutation_Forall; [exact P|exact F]].
  - unfold queued in *; destruct (y_cb q); rewrite flat_map_app; cbn [flat_map app]; rewrite app_nil_r; split; assumption.
  - unfold queued in *; destruct (n_query x); rewrite flat_map_app; cbn [flat_map app]; rewrite app_nil_r; split; assumption.
Qed.

Definition accounts (d : data) : Prop :=
  sorted (d_conns d) /\ Permutation (queued (d_log d)) (d_queue d ++ map snd (flying (d_conns d)) ++ completed (d_log d) ++ given_up (d_log d)).
Lemma mv : forall (A : Type) (x : A) a b, Permutation (a ++ x :: b) (x :: a ++ b).
Proof. intros; symmetry; apply Permutation_middle. Qed.
Ltac perm H := etransitivity; [first [apply Permutation_app_tail; exact H | exact H]|].
Lemma accounts_ok : forall conc s, qreach conc s -> accounts (data_of s).
Proof.
  intros conc; apply reach_data; [split; [constructor|constructor]|].
  assert (KEEP : forall c q a n r l c' q' a' n' r', accounts (mkD c q a n r l) -> sorted c' -> Permutation (q ++ map snd (flying c)) (q' ++ map snd (flying c')) -> accounts (mkD c' q' a' n' r' l)).
  { intros c q a n r l c' q' a' n' r' [S P] S' X; split; [exact S'|]; cbn [d_conns d_queue d_log] in *; rewrite app_assoc in P |- *; perm P; now apply Permutation_app_tail. }
  assert (MOVE : forall c q a n r l c' q' a' n' r' l' x, accounts (mkD c q a n r l) -> sorted c' -> Permutation (q ++ map snd (flying c)) (x ++ q' ++ map snd (flying c')) ->
            queued l' = queued l -> Permutation (completed l' ++ given_up l') (x ++ completed l ++ given_up l) -> accounts (mkD c' q' a' n' r' l')).
  { intros c q a n r l c' q' a' n' r' l' x [S P] S' X Q G; split; [exact S'|]; cbn [d_conns d_queue d_log] in *; rewrite Q; rewrite app_assoc in P; perm P; clear P.
    rewrite X, G; clear; rewrite (app_assoc q'); generalize (q' ++ map snd (flying c')) (completed l ++ given_up l); intros u v.
    rewrite app_assoc; apply Permutation_app_tail, Permutation_app_comm. }
  intros d d' A M; assert (A0 := A); destruct A0 as [S P]; destruct M; cbn [d_log d_queue d_conns] in S.
  - exact A.
  - split; [exact S|]; cbn [d_conns d_queue d_log] in *; unfold queued, completed, given_up in *; rewrite !fm_snoc, !app_nil_r; perm P.
    match goal with |- Permutation ((q ++ ?R) ++ _) _ => generalize R; intros u end; rewrite <- !app_assoc; apply Permutation_app_head, Permutation_app_comm.
  - apply (KEEP c q a n r l); [exact A|now apply insert_fresh|]; rewrite fly_new by assumption; reflexivity.
  - destruct (lookup_split _ _ _ S H) as (c1 & c2 & E1 & _ & E3); destruct (fly_set k x (mkN (Some q) b) c S H) as (f1 & f2 & F1 & F2 & _).
    rewrite H0 in F1; cbn in F1, F2.
    assert (K : accounts (mkD (insert k (mkN (Some q) b) c) qs a n r l)).
    { apply (KEEP c (q :: qs) a n r l); [exact A|rewrite E3; rewrite E1 in S; eapply sorted_same; eauto|]; rewrite F1, F2, !map_app; cbn [map snd app].
      rewrite app_assoc; etransitivity; [apply Permutation_middle with (l1 := [])|]; cbn; rewrite <- (mv _ q); rewrite <- app_assoc; reflexivity. }
    destruct K as [K1 K2]; split; [exact K1|]; cbn [d_conns d_queue d_log] in *; unfold queued, completed, given_up in *; rewrite !fm_snoc, !app_nil_r; exact K2.
  - destruct (lookup_split _ _ _ S H) as (c1 & c2 & E1 & E2 & E3); destruct (fly_set k x x c S H) as (f1 & f2 & F1 & _ & F3); rewrite H0 in F1; cbn in F1.
    apply (MOVE c (q :: qs) a n r l) with (x := [q]); [exact A|rewrite E2; rewrite E1 in S; apply sorted_app in S; tauto|rewrite F1, F3; reflexivity| |];
      unfold queued, completed, given_up; rewrite !fm_snoc, ?app_nil_r; [reflexivity|]; cbn; rewrite app_assoc; rewrite Permutation_app_comm; reflexivity.
  - destruct (lookup_split _ _ _ S H) as (c1 & c2 & E1 & _ & E3); destruct (fly_set k x (mkN (Some q) b) c S H) as (f1 & f2 & F1 & F2 & _); rewrite H0 in F1; cbn in F1, F2.
    apply (KEEP c qs a n r l); [exact A|rewrite E3; rewrite E1 in S; eapply sorted_same; eauto|]; rewrite F1, F2; reflexivity.
  - destruct A as [A1 A2]; split; [exact S|]; cbn [d_conns d_queue d_log] in *; unfold queued, completed, given_up in *; rewrite !fm_snoc, !app_nil_r; exact A2.
  - destruct (lookup_split _ _ _ S H) as (c1 & c2 & E1 & _ & E3); destruct (fly_set k x (mkN None false) c S H) as (f1 & f2 & F1 & F2 & _); rewrite H0 in F1; cbn in F1, F2.
    apply (MOVE c qs a n r l) with (x := [q]); [exact A|rewrite E3; rewrite E1 in S; eapply sorted_same; eauto| | |].
    + rewrite F1, F2, !map_app; cbn [map snd app]; rewrite app_assoc, mv, <- app_assoc; reflexivity.
    + unfold queued; rewrite flat_map_app; destruct (y_cb q); cbn; now rewrite app_nil_r.
    + unfold completed, given_up; rewrite !flat_map_app; destruct (y_cb q); cbn; rewrite app_nil_r, <- app_assoc; cbn; apply mv.
  - destruct (lookup_split _ _ _ S H) as (c1 & c2 & E1 & E2 & _); destruct (fly_set k x x c S H) as (f1 & f2 & F1 & _ & F3); rewrite H0 in F1; cbn in F1.
    apply (KEEP c qs a n r l); [exact A|rewrite E2; rewrite E1 in S; apply sorted_app in S; tauto|]; rewrite F1, F3; reflexivity.
  - destruct (lookup_split _ _ _ S H) as (c1 & c2 & E1 & E2 & _); destruct (fly_set k x x c S H) as (f1 & f2 & F1 & _ & F3); rewrite H0 in F1; cbn in F1.
    assert (K : accounts (mkD (erase k c) (q :: qs) a n r l)).
    { apply (KEEP c qs a n r l); [exact A|rewrite E2; rewrite E1 in S; apply sorted_app in S; tauto|]; rewrite F1, F3, !map_app; cbn [map snd app].
      rewrite app_assoc, mv, <- app_assoc; reflexivity. }
    destruct K as [K1 K2]; split; [exact K1|]; cbn [d_conns d_queue d_log] in *; unfold queued, completed, given_up in *; rewrite !fm_snoc, !app_nil_r; exact K2.
  - assert (S' : sorted c) by (unfold sorted in *; cbn in S; apply StronglySorted_inv in S; tauto).
    destruct (n_query x) as [q|] eqn:Q.
    + apply (MOVE ((k, x) :: c) qs a n r l) with (x := [q]); [exact A|exact S'| | |].
      * cbn [flying]; rewrite Q; cbn [map snd app]; apply mv.
      * unfold queued; rewrite fm_snoc; apply app_nil_r.
      * unfold completed, given_up; rewrite !fm_snoc, app_nil_r; cbn; rewrite app_assoc, mv, app_nil_r; reflexivity.
    + rewrite app_nil_r; apply (KEEP ((k, x) :: c) qs a n r l); [exact A|exact S'|]; cbn [flying]; rewrite Q; reflexivity.
  - apply (MOVE c qs a n r l) with (x := qs); [exact A|exact S| | |]; unfold queued, completed, given_up; rewrite ?fm_snoc, ?app_nil_r; try reflexivity.
    rewrite app_assoc; apply Permutation_app_comm.
Qed.
Lemma where_ok : forall conc s, qreach conc s ->
  Permutation (queued (z_log s)) (z_queue s ++ map snd (flying (z_conns s)) ++ completed (z_log s) ++ given_up (z_log s)) /\ NoDup (map y_id (queued (z_log s))).
Proof.
  intros conc s R; destruct (accounts_ok _ _ R) as [_ P]; destruct (ids_ok _ _ R) as [N _]; split; [exact P|]; rewrite map_app in N.
  clear - N; revert N; generalize (map y_id (queued (z_log s))); intros l; induction l as [|x l IH]; cbn; [constructor|]; intros N; inversion N; subst; constructor; [intros I; apply H1; apply in_or_app; now left|auto].
Qed.

(** * Callbacks *)
Lemma called_ok : forall conc s, qreach conc s -> called_back (z_log s) = filter y_cb (completed (z_log s)).
Proof.
  intros conc; refine (reach_data conc (fun d => called_back (d_log d) = filter y_cb (completed (d_log d))) _ _); [reflexivity|].
  intros d d' H M; destruct M; cbn [d_log] in *; try exact H; unfold called_back, completed in *; rewrite ?fm_snoc, ?app_nil_r; try exact H.
  - rewrite !flat_map_app, filter_app, H; f_equal; destruct (y_cb q) eqn:Y; cbn; now rewrite ?Y.
  - rewrite !flat_map_app, filter_app, H; destruct (n_query x); cbn; now rewrite ?app_nil_r.
Qed.
Lemma NoDup_filter_ids : forall (f : query -> bool) l, NoDup (map y_id l) -> NoDup (map y_id (filter f l)).
Proof.
  intros f l; induction l as [|x l IH]; cbn; intros N; [constructor|]; inversion N; subst; destruct (f x); cbn; [|auto]; constructor; [|auto].
  intros I; apply in_map_iff in I as (y & E & I); apply filter_In in I as [I _]; apply H1; rewrite <- E; now apply in_map.
Qed.
Lemma app_nodup_r : forall (A : Type) (a b : list A), NoDup (a ++ b) -> NoDup b.
Proof. intros A a b; induction a; cbn; intros N; [exact N|inversion N; auto]. Qed.
Lemma app_nodup_l : forall (A : Type) (a b : list A), NoDup (a ++ b) -> NoDup a.
Proof. intros A a b; induction a; cbn; intros N; [constructor|]; inversion N; subst; constructor; [intros I; apply H1; apply in_or_app; now left|auto]. Qed.
Lemma once_ok : forall conc s, qreach conc s -> NoDup (map y_id (called_back (z_log s))) /\ (forall q, In q (called_back (z_log s)) <-> In q (completed (z_log s)) /\ y_cb q = true) /\
  incl (called_back (z_log s)) (queued (z_log s)).
Proof.
  intros conc s R; destruct (where_ok _ _ R) as [P N]; rewrite (called_ok _ _ R); split; [|split].
  - apply NoDup_filter_ids; eapply Permutation_NoDup in N; [|apply Permutation_map; exact P]; rewrite !map_app in N.
    apply app_nodup_r, app_nodup_r, app_nodup_l in N; exact N.
  - intros q; apply filter_In.
  - intros q I; apply filter_In in I as [I _]; eapply Permutation_in; [symmetry; exact P|]; rewrite !in_app_iff; tauto.
Qed.

(** * Results *)
Lemma first_snoc : forall o l e, first_result o (l ++ [e]) = match first_result o l with Some r => Some r | None => first_result o [e] end.
Proof.
  intros o l e; induction l as [|x l IH]; [cbn; reflexivity|]; rewrite <- app_comm_cons; destruct x; cbn [first_result]; try exact IH.
  destruct (y_obj q) as [o'|]; [|exact IH]; destruct (o =? o'); [reflexivity|exact IH].
Qed.
Lemma results_ok : forall conc s o, qreach conc s -> z_res s o = first_result o (z_log s).
Proof.
  intros conc s o R; revert s R; refine (reach_data conc (fun d => d_res d o = first_result o (d_log d)) _ _); [reflexivity|].
  intros d d' H M; destruct M; cbn [d_log d_res] in *; try exact H; rewrite ?first_snoc; try (rewrite H; destruct (first_result o l); reflexivity).
  - rewrite <- H; unfold keep in H2; cbn; destruct (y_obj q) as [o'|] eqn:E; [|discriminate]; injection H2 as <-.
    destruct (r o') eqn:Ro; destruct (Nat.eqb_spec o o') as [->|N]; rewrite ?Ro; try reflexivity; destruct (r o); reflexivity.
  - destruct (y_cb q); [rewrite (app_assoc l [VDone k q] [VCalled q] : l ++ VDone k q :: [VCalled q] = _), first_snoc|]; rewrite first_snoc, H; destruct (first_result o l); reflexivity.
  - destruct (n_query x); [rewrite first_snoc, H; destruct (first_result o l); reflexivity|now rewrite app_nil_r].
Qed.

(** * Order *)
Definition turns (d : data) : Prop := exists p f x, d_queue d = p ++ f /\ queued (d_log d) = x ++ f /\ incl p x /\ incl x (had_turn (d_log d)) /\
  (forall k, match conn_busy k (d_conns d) with Some q => In q x | None => True end) /\ sorted (d_conns d) /\
  (forall l1 k q l2, d_log d = l1 ++ VSent k q :: l2 -> exists y z, queued (d_log d) = y ++ q :: z /\ incl y (had_turn l1)).
Lemma had_snoc : forall l e, incl (had_turn l) (had_turn (l ++ [e])).
Proof. intros l e q I; unfold had_turn; rewrite flat_map_app; apply in_or_app; now left. Qed.
Lemma conn_busy_insert : forall k k' y c, conn_busy k' (insert k y c) = if k' =? k then n_query y else conn_busy k' c.
Proof. intros; unfold conn_busy; rewrite lookup_insert; destruct (k' =? k); reflexivity. Qed.
Lemma conn_busy_erase : forall k k' x c, sorted c -> lookup k c = Some x -> conn_busy k' (erase k c) = if k' =? k then None else conn_busy k' c.
Proof. intros k k' x c S L; unfold conn_busy; rewrite (lookup_erase _ _ _ _ S L); destruct (k' =? k); reflexivity. Qed.
Lemma sorted_insert : forall k x y c, sorted c -> lookup k c = Some x -> sorted (insert k y c).
Proof. intros k x y c S L; destruct (lookup_split _ _ _ S L) as (a & b & E1 & E2 & E3); rewrite E3; rewrite E1 in S; eapply sorted_same; eauto. Qed.
Lemma sorted_erase : forall k x c, sorted c -> lookup k c = Some x -> sorted (erase k c).
Proof. intros k x c S L; destruct (lookup_split _ _ _ S L) as (a & b & E1 & E2 & E3); rewrite E2; rewrite E1 in S; apply sorted_app in S; tauto. Qed.
Lemma snoc_eq : forall (A : Type) (l : list A) e l1 x l2, l ++ [e] = l1 ++ x :: l2 -> (exists l2', l = l1 ++ x :: l2' /\ l2 = l2' ++ [e]) \/ (l = l1 /\ e = x /\ l2 = []).
Proof.
  intros A l e l1 x l2 E; destruct (exists_last (l := x :: l2)) as (m & z & Z); [discriminate|]; rewrite Z, app_assoc in E; apply app_inj_tail in E as [E ->].
  destruct m as [|w m]; cbn in Z; injection Z as -> Z; [right; rewrite app_nil_r in E; auto|left; exists m; auto].
Qed.
Lemma sent_snoc : forall l e (P : list qev -> query -> Prop), (forall k q, e <> VSent k q) -> (forall l1 k q l2, l = l1 ++ VSent k q :: l2 -> P l1 q) ->
  forall l1 k q l2, l ++ [e] = l1 ++ VSent k q :: l2 -> P l1 q.
Proof. intros l e P N H l1 k q l2 E; apply snoc_eq in E as [(l2' & E & _)|(_ & E & _)]; [eapply H; eauto|exfalso; eapply N; eauto]. Qed.
Definition sent_ordered (l : list qev) : Prop :=
  forall l1 k q l2, l = l1 ++ VSent k q :: l2 -> exists y z, queued l = y ++ q :: z /\ incl y (had_turn l1).
Lemma ordered_snoc : forall l e, sent_ordered l -> (forall k q, e <> VSent k q) -> sent_ordered (l ++ [e]).
Proof.
  intros l e H N; refine (sent_snoc l e (fun l1 q => exists y z, queued (l ++ [e]) = y ++ q :: z /\ incl y (had_turn l1)) N _).
  intros l1 k q l2 E; destruct (H _ _ _ _ E) as (y & z & Q & I); exists y, (z ++ queued [e]); split; [|exact I].
  unfold queued in *; rewrite flat_map_app, Q, <- app_assoc; reflexivity.
Qed.
Lemma ordered_send : forall l k q, sent_ordered l -> (exists y z, queued l = y ++ q :: z /\ incl y (had_turn l)) -> sent_ordered (l ++ [VSent k q]).
Proof.
  intros l k q H (y & z & Q & I) l1 k' q' l2 E; assert (X : queued (l ++ [VSent k q]) = queued l) by (unfold queued; rewrite fm_snoc; apply app_nil_r); rewrite X.
  apply snoc_eq in E as [(l2' & E & _)|(-> & E & _)]; [eapply H; eauto|]; injection E as <- <-; eauto.
Qed.
Lemma queued_snoc : forall l e, (forall q, e <> VQueued q) -> queued (l ++ [e]) = queued l.
Proof. intros l e N; unfold queued; rewrite fm_snoc; destruct e; try apply app_nil_r; exfalso; eapply N; reflexivity. Qed.

Lemma turns_ok : forall conc s, qreach conc s -> turns (data_of s).
Proof.
  intros conc; apply reach_data.
  { exists [], [], []; split; [reflexivity|]; split; [reflexivity|]; split; [intros ? []|]; split; [intros ? []|]; split; [intros k; exact I|].
    split; [apply SSorted_nil|]; intros l1 k q l2 E; destruct l1; discriminate. }
  intros d d' (p & f & x & E & Q & IP & IX & B & S & O) M; destruct M; cbn [d_queue d_log d_conns] in *.
  - exists p, f, x; repeat split; assumption.
  - exists p, (f ++ [x0]), x; repeat split; cbn [d_queue d_log d_conns]; auto.
    + rewrite E; now rewrite app_assoc.
    + unfold queued in *; rewrite fm_snoc, Q; now rewrite app_assoc.
    + intros z I; apply had_snoc, IX, I.
    + apply ordered_snoc; [exact O|discriminate].
  - exists p, f, x; repeat split; cbn [d_queue d_log d_conns]; auto.
    + intros k'; rewrite conn_busy_insert; destruct (k' =? k); [exact I|apply B].
    + now apply insert_fresh.
  - assert (Q' : queued (l ++ [VSent k q]) = queued l) by (apply queued_snoc; discriminate).
    destruct p as [|p0 p]; cbn [app] in E.
    + subst f; exists [], qs, (x ++ [q]); repeat split; cbn [d_queue d_log d_conns].
      * rewrite Q', Q; now rewrite <- app_assoc.
      * intros ? [].
      * intros z I; apply in_app_or in I as [I|[<-|[]]]; [apply had_snoc, IX, I|]; unfold had_turn; rewrite fm_snoc; apply in_or_app; right; now left.
      * intros k'; rewrite conn_busy_insert; destruct (k' =? k); [apply in_or_app; right; now left|]; specialize (B k'); destruct (conn_busy k' c); [apply in_or_app; now left|exact I].
      * eapply sorted_insert; eauto.
      * apply ordered_send; [exact O|]; exists x, qs; split; [exact Q|exact IX].
    + injection E as <- E; exists p, f, x; repeat split; cbn [d_queue d_log d_conns].
      * exact E.
      * now rewrite Q'.
      * intros z I; apply IP; now right.
      * intros z I; apply had_snoc, IX, I.
      * intros k'; rewrite conn_busy_insert; destruct (k' =? k); [apply IP; now left|apply B].
      * eapply sorted_insert; eauto.
      * apply ordered_send; [exact O|]; assert (I : In q x) by (apply IP; now left); apply in_split in I as (x1 & x2 & X).
        exists x1, (x2 ++ f); split; [rewrite Q, X; now rewrite <- app_assoc|]; intros z I; apply IX; rewrite X; apply in_or_app; now left.
  - assert (Q' : queued (l ++ [VFailed q]) = queued l) by (apply queued_snoc; discriminate).
    assert (B' : forall k' y, incl x y -> match conn_busy k' (erase k c) with Some q => In q y | None => True end).
    { intros k' y Y; rewrite (conn_busy_erase _ _ _ _ S H); destruct (k' =? k); [exact I|]; specialize (B k'); destruct (conn_busy k' c); auto. }
    destruct p as [|p0 p]; cbn [app] in E.
    + subst f; exists [], qs, (x ++ [q]); repeat split; cbn [d_queue d_log d_conns].
      * rewrite Q', Q; now rewrite <- app_assoc.
      * intros ? [].
      * intros z I; apply in_app_or in I as [I|[<-|[]]]; [apply had_snoc, IX, I|]; unfold had_turn; rewrite fm_snoc; apply in_or_app; right; now left.
      * intros k'; apply B'; intros z I; apply in_or_app; now left.
      * eapply sorted_erase; eauto.
      * apply ordered_snoc; [exact O|discriminate].
    + injection E as <- E; exists p, f, x; repeat split; cbn [d_queue d_log d_conns].
      * exact E.
      * now rewrite Q'.
      * intros z I; apply IP; now right.
      * intros z I; apply had_snoc, IX, I.
      * intros k'; apply B'; intros z I; exact I.
      * eapply sorted_erase; eauto.
      * apply ordered_snoc; [exact O|discriminate].
  - exists p, f, x; repeat split; cbn [d_queue d_log d_conns]; auto.
    + intros k'; rewrite conn_busy_insert; destruct (Nat.eqb_spec k' k) as [->|]; [|apply B]; specialize (B k); unfold conn_busy in B; rewrite H, H0 in B; exact B.
    + eapply sorted_insert; eauto.
  - exists p, f, x; repeat split; cbn [d_queue d_log d_conns]; auto.
    + rewrite queued_snoc by discriminate; exact Q.
    + intros z I; apply had_snoc, IX, I.
    + apply ordered_snoc; [exact O|discriminate].
  - exists p, f, x; repeat split; cbn [d_queue d_log d_conns]; auto.
    + unfold queued; rewrite flat_map_app; destruct (y_cb q); cbn; rewrite app_nil_r; exact Q.
    + intros z I; unfold had_turn; rewrite flat_map_app; apply in_or_app; left; apply IX, I.
    + intros k'; rewrite conn_busy_insert; destruct (k' =? k); [exact I|apply B].
    + eapply sorted_insert; eauto.
    + destruct (y_cb q); [rewrite (app_assoc l [VDone k q] [VCalled q] : l ++ VDone k q :: [VCalled q] = _); apply ordered_snoc; [|discriminate]|]; apply ordered_snoc; auto; discriminate.
  - exists p, f, x; repeat split; cbn [d_queue d_log d_conns]; auto.
    + intros k'; rewrite (conn_busy_erase _ _ _ _ S H); destruct (k' =? k); [exact I|apply B].
    + eapply sorted_erase; eauto.
  - exists (q :: p), f, x; repeat split; cbn [d_queue d_log d_conns]; auto.
    + now rewrite E.
    + rewrite queued_snoc by discriminate; exact Q.
    + intros z [<-|I]; [|apply IP, I]; specialize (B k); unfold conn_busy in B; rewrite H, H0 in B; exact B.
    + intros z I; apply had_snoc, IX, I.
    + intros k'; rewrite (conn_busy_erase _ _ _ _ S H); destruct (k' =? k); [exact I|apply B].
    + eapply sorted_erase; eauto.
    + apply ordered_snoc; [exact O|discriminate].
  - assert (L : lookup k ((k, x0) :: c) = Some x0) by (cbn; now rewrite Nat.eqb_refl).
    assert (EC : erase k ((k, x0) :: c) = c) by (cbn; now rewrite Nat.eqb_refl).
    exists p, f, x; repeat split; cbn [d_queue d_log d_conns]; auto.
    + destruct (n_query x0); [rewrite queued_snoc by discriminate|rewrite app_nil_r]; exact Q.
    + intros z I; unfold had_turn; rewrite flat_map_app; apply in_or_app; left; apply IX, I.
    + intros k'; rewrite <- EC, (conn_busy_erase _ _ _ _ S L); destruct (k' =? k); [exact I|apply B].
    + rewrite <- EC; eapply sorted_erase; eauto.
    + destruct (n_query x0); [apply ordered_snoc; [exact O|discriminate]|rewrite app_nil_r; exact O].
  - exists [], [], (x ++ f); repeat split; cbn [d_queue d_log d_conns].
    + rewrite queued_snoc by discriminate; now rewrite app_nil_r.
    + intros ? [].
    + intros z I; apply in_app_or in I as [I|I]; [apply had_snoc, IX, I|]; unfold had_turn; rewrite fm_snoc; apply in_or_app; right; rewrite E; apply in_or_app; now right.
    + intros k'; specialize (B k'); destruct (conn_busy k' c); [apply in_or_app; now left|exact I].
    + exact S.
    + apply ordered_snoc; [exact O|discriminate].
Qed.
Lemma order_ok : forall conc s l1 k b l2 x a y z, qreach conc s -> z_log s = l1 ++ VSent k b :: l2 -> queued (z_log s) = x ++ a :: y ++ b :: z -> In a (had_turn l1).
Proof.
  intros conc s l1 k b l2 x a y z R E Q; destruct (turns_ok _ _ R) as (_ & _ & _ & _ & _ & _ & _ & _ & _ & O); cbn [data_of d_log] in O.
  destruct (O _ _ _ _ E) as (u & v & Q' & I); destruct (where_ok _ _ R) as [_ N]; rewrite Q' in Q.
  assert (U : u = x ++ a :: y).
  { rewrite Q' in N; clear - Q N; rewrite app_comm_cons, app_assoc in Q; revert Q N; generalize (x ++ a :: y); intros w; revert u; induction w as [|w0 w IH]; intros [|u0 u] Q N; cbn in *.
    - reflexivity.
    - injection Q as -> Q; exfalso; inversion N; subst; apply H1; rewrite map_app; apply in_or_app; right; now left.
    - injection Q as -> Q; exfalso; inversion N; subst; apply H1; rewrite map_app; apply in_or_app; right; now left.
    - injection Q as -> Q; f_equal; apply IH; [exact Q|now inversion N]. }
  apply I; rewrite U; apply in_or_app; right; now left.
Qed.

(** * Numbers of connections *)
Lemma erase_length : forall k x c, lookup k c = Some x -> S (length (erase k c)) = length c.
Proof. intros k x c; induction c as [|[k' y] c IH]; cbn; [discriminate|]; destruct (k =? k'); [reflexivity|]; cbn; intros; now rewrite IH. Qed.
Lemma insert_length : forall k y c, sorted c -> length (insert k y c) = match lookup k c with Some _ => length c | None => S (length c) end.
Proof.
  intros k y c S; destruct (lookup k c) eqn:L.
  - destruct (lookup_split _ _ _ S L) as (a & b & E1 & _ & E3); rewrite E3, E1, !app_length; reflexivity.
  - destruct (insert_fresh k y c S L) as (_ & a & b & E1 & E2); rewrite E2, E1, !app_length; cbn; lia.
Qed.
Lemma hung_length : forall k c a b d s, lookup k (z_conns s) = Some c -> length (z_conns (hung k c a b d s)) <= length (z_conns s) /\ z_pc (hung k c a b d s) <> QConnect.
Proof.
  intros k c a b d s L; unfold hung; destruct (a || b || d); cbn; [|split; [lia|discriminate]].
  split; [|discriminate]; unfold kill; destruct (n_query c); cbn; assert (X := erase_length _ _ _ L); lia.
Qed.
Lemma conns_ok : forall conc s, qreach conc s -> length (z_conns s) <= conc /\ (z_pc s = QConnect -> length (z_conns s) < conc).
Proof.
  intros conc; apply (reach_ind conc); [cbn; split; [lia|discriminate]|]; intros a s s' R (L & C) H; destruct (busy_inv _ _ R) as (So & _).
  destruct a; cbn [qstep] in H.
  - unfold hstep in H; destruct (z_pc s) as [last|last| | |[|k l]| | | |] eqn:PC; destruct e; try discriminate.
    + injection H as <-; cbn; split; [lia|discriminate].
    + injection H as <-; cbn; split; [exact L|destruct last; discriminate].
    + destruct (z_term s || _); [injection H as <-; cbn; split; [exact L|discriminate]|]; unfold connected in H; destruct (Nat.eqb_spec (length (z_conns s)) conc);
        injection H as <-; cbn; split; auto; try discriminate; lia.
    + specialize (C eq_refl); destruct k as [k|]; [|injection H as <-; cbn; split; [exact L|discriminate]].
      destruct (lookup k (z_conns s)) eqn:K; [discriminate|]; injection H as <-.
      assert (X := insert_length k (mkN None false) _ So); rewrite K in X; unfold connected; cbn [set_conns z_conns]; rewrite X.
      destruct (Nat.eqb_spec (S (length (z_conns s))) conc); cbn; rewrite X; split; try discriminate; try lia.
    + injection H as <-; cbn; split; [exact L|discriminate].
    + destruct (lookup k (z_conns s)) as [c|] eqn:K; [|discriminate]; destruct (n_query c) eqn:Q; [injection H as <-; cbn; split; [exact L|discriminate]|].
      destruct (z_queue s) as [|q r] eqn:E; [injection H as <-; cbn; split; [exact L|discriminate]|].
      destruct ok; injection H as <-; cbn.
      * rewrite insert_length, K by exact So; split; [exact L|discriminate].
      * unfold kill; rewrite Q; cbn; assert (X := erase_length _ _ _ K); split; [lia|discriminate].
    + destruct (z_bytes s =? 0); [discriminate|]; injection H as <-; cbn; split; [exact L|discriminate].
    + destruct (connected conc s); [discriminate|]; injection H as <-; cbn; split; [exact L|discriminate].
    + destruct (lookup k (z_conns s)) as [c|] eqn:K; [|discriminate]; destruct (_ || _); [|discriminate]; injection H as <-.
      assert (HU := hung_length k c rdhup hup err s K); unfold event; destruct i; [|destruct HU; split; [lia|contradiction]].
      destruct (n_query c) as [q|]; [|destruct HU; split; [lia|contradiction]]; destruct ok; [|destruct HU; split; [lia|contradiction]].
      destruct (Connection.take k q results _) as [s'|] eqn:T; [|cbn; split; [exact L|discriminate]].
      apply take_micros with (x := mkN (Some q) rest) in T as (_ & B & _); [|cbn; now rewrite lookup_insert, Nat.eqb_refl|reflexivity]; cbn in B.
      assert (S' : sorted (z_conns s')) by (rewrite B; eapply sorted_insert; eauto).
      destruct complete; cbn; split; try discriminate.
      * rewrite insert_length by exact S'; rewrite B, lookup_insert, Nat.eqb_refl, insert_length, K by exact So; exact L.
      * rewrite B, insert_length, K by exact So; exact L.
  - destruct (_ || _); injection H as <-; cbn; split; auto.
  - destruct (nth_error _ _); [|discriminate]; injection H as <-; cbn; split; auto.
  - injection H as <-; cbn; split; auto.
  - injection H as <-; cbn; split; auto.
  - destruct (z_waking s); [discriminate|]; injection H as <-; cbn; split; auto.
  - destruct (z_pc s); try discriminate; injection H as <-; cbn; split; [exact L|discriminate].
Qed.
Lemma flying_length : forall c, length (flying c) <= length c.
Proof. induction c as [|[k x] c IH]; cbn; [lia|]; destruct (n_query x); cbn; lia. Qed.
Lemma concurrency_ok : forall conc s, qreach conc s -> length (flying (z_conns s)) <= conc.
Proof. intros conc s R; destruct (conns_ok _ _ R) as [L _]; assert (X := flying_length (z_conns s)); lia. Qed.

(** * Sleep *)
Definition flags (s : qst) : Prop :=
  (z_term s = true -> 0 < z_bytes s + z_waking s) /\ (z_stop s = true -> 0 < z_bytes s + z_waking s \/ z_queue s <> [] \/ flying (z_conns s) <> []).
Definition awake (s : qst) : Prop :=
  match z_pc s with
  | QConnect => flags s
  | QSend l => flags s /\ forall k c, lookup k (z_conns s) = Some c -> n_query c = None -> In k l
  | QPoll => flags s /\ (0 < z_bytes s \/ z_queue s = [] \/ all_busy s)
  | _ => True
  end.
Lemma lookup_in : forall k c x, lookup k c = Some x -> In k (map fst c).
Proof. intros k c x L; destruct (in_dec Nat.eq_dec k (map fst c)) as [I|I]; [exact I|apply lookup_none in I; congruence]. Qed.
Lemma event_pc : forall k c i a b d ok rest rs cp s, match z_pc (event k c i a b d ok rest rs cp s) with QTop | QExit | QUndef => True | _ => False end.
Proof.
  intros; unfold event, hung; destruct i; [destruct (n_query c); [destruct ok; [destruct (Connection.take _ _ _ _); [destruct cp|]|]|]|]; try exact I; cbn; destruct (_ || _); exact I.
Qed.
Lemma awake_ok : forall conc s, qreach conc s -> awake s.
Proof.
  intros conc; apply (reach_ind conc); [exact I|]; intros a s s' R W H; destruct (busy_inv _ _ R) as (So & _).
  destruct a; cbn [qstep] in H.
  - unfold hstep in H; unfold awake in W; destruct (z_pc s) as [last|last| | |[|k l]| | | |] eqn:PC; destruct e; try discriminate.
    + injection H as <-; exact I.
    + injection H as <-; unfold awake; cbn; destruct last; exact I.
    + destruct (z_term s) eqn:T; cbn [orb] in H; [injection H as <-; exact I|].
      destruct (z_stop s && _) eqn:St; [injection H as <-; exact I|].
      assert (F : flags s).
      { split; [congruence|]; intros Z; rewrite Z in St; right; left; destruct (z_queue s); [discriminate|discriminate]. }
      destruct (connected conc s); injection H as <-; unfold awake; cbn; [|exact F]; split; [exact F|]; intros k c L _; eapply lookup_in; eauto.
    + destruct k as [k|].
      2:{ injection H as <-; unfold awake; cbn; split; [exact W|]; intros k c L _; eapply lookup_in; eauto. }
      destruct (lookup k (z_conns s)) eqn:K; [discriminate|]; injection H as <-.
      assert (F : flags (set_conns (insert k (mkN None false) (z_conns s)) s)).
      { destruct W as [W1 W2]; split; cbn; [exact W1|]; rewrite fly_new by assumption; exact W2. }
      match goal with |- context [if ?x then _ else _] => destruct x end; unfold awake; cbn; [|rewrite PC; exact F].
      split; [exact F|]; intros k' c L _; eapply lookup_in; exact L.
    + injection H as <-; unfold awake; cbn; destruct W as [F L]; split; [exact F|]; right; right; intros k c E Q; exact (L k c E Q).
    + destruct W as [F L]; destruct (lookup k (z_conns s)) as [c|] eqn:K; [|discriminate].
      assert (NEXT : forall y, n_query y <> None -> forall k' c', lookup k' (insert k y (z_conns s)) = Some c' -> n_query c' = None -> In k' l).
      { intros y Y k' c' E Q; rewrite lookup_insert in E; destruct (Nat.eqb_spec k' k) as [->|N]; [injection E as <-; contradiction|].
        destruct (L k' c' E Q) as [->|I]; [contradiction|exact I]. }
      destruct (n_query c) eqn:Q.
      { injection H as <-; unfold awake; cbn; split; [exact F|]; intros k' c' E Q'; destruct (L k' c' E Q') as [->|I]; [congruence|exact I]. }
      destruct (z_queue s) as [|q r] eqn:E.
      { injection H as <-; unfold awake; cbn; split; [exact F|]; right; left; exact E. }
      destruct ok; injection H as <-; [|exact I]; unfold awake; cbn; split; [|apply NEXT; discriminate].
      destruct F as [F1 F2]; split; cbn; [exact F1|]; intros _; right; right.
      destruct (fly_set k c (mkN (Some q) rest) _ So K) as (f1 & f2 & _ & E2 & _); rewrite E2; cbn; destruct f1; discriminate.
    + destruct (z_bytes s =? 0); [discriminate|]; injection H as <-; exact I.
    + destruct (connected conc s); [discriminate|]; injection H as <-; exact I.
    + destruct (lookup k (z_conns s)) as [c|] eqn:K; [|discriminate]; destruct (_ || _); [|discriminate]; injection H as <-.
      assert (X := event_pc k c i rdhup hup err ok rest results complete s); unfold awake; destruct (z_pc (event _ _ _ _ _ _ _ _ _ _ _)); try contradiction; exact I.
  - destruct (_ || _); injection H as <-; exact W.
  - destruct (nth_error _ _) as [q|]; [|discriminate]; injection H as <-; unfold awake, flags, all_busy in *; cbn in *.
    assert (N : z_queue s ++ [q] <> []) by (destruct (z_queue s); discriminate).
    destruct (z_pc s); auto; intuition (try lia).
  - injection H as <-; unfold awake, flags, all_busy in *; cbn in *; destruct (z_pc s); auto; intuition (try lia).
  - injection H as <-; unfold awake, flags, all_busy in *; cbn in *; destruct (z_pc s); auto; intuition (try lia).
  - destruct (z_waking s) eqn:Z; [discriminate|]; injection H as <-; unfold awake, flags, all_busy in *; cbn in *; rewrite Z in W; destruct (z_pc s); auto; intuition (try lia).
  - destruct (z_pc s); try discriminate; injection H as <-; exact I.
Qed.
Lemma sleep_ok : forall conc s, qreach conc s -> z_pc s = QPoll -> z_bytes s = 0 ->
  (z_queue s = [] \/ all_busy s) /\ (z_term s = true -> 0 < z_waking s) /\ (z_stop s = true -> 0 < z_waking s \/ z_queue s <> [] \/ flying (z_conns s) <> []).
Proof.
  intros conc s R PC B; assert (W := awake_ok _ _ R); unfold awake in W; rewrite PC in W; destruct W as ((F1 & F2) & [X|X]); rewrite B in *; [lia|].
  split; [exact X|]; split; [exact F1|exact F2].
Qed.

(** * Cases *)
From Verif Require Import Spec.ConnectionCases.
Lemma end_reach : forall conc l, possible conc l = true -> qreach conc (q_end conc l).
Proof. intros conc l H; unfold possible, q_end in *; destruct (qexec conc l q_init) eqn:E; [exists l; exact E|discriminate]. Qed.
Lemma stop_loses : exists s, qreach 1 s /\ z_pc s = QEnd /\ z_term s = false /\ queued (z_log s) = [Q0] /\ given_up (z_log s) = [Q0] /\ called_back (z_log s) = [].
Proof. exists (q_end 1 run_stop); split; [apply end_reach; vm_compute; reflexivity|]; vm_compute; repeat split. Qed.
Lemma fail_undefined : exists s, qreach 1 s /\ z_pc s = QUndef /\ queued (z_log s) = [Q0] /\ given_up (z_log s) = [Q0] /\ called_back (z_log s) = [].
Proof. exists (q_end 1 run_fail); split; [apply end_reach; vm_compute; reflexivity|]; vm_compute; repeat split. Qed.
Lemma notice_exits : exists s, qreach 1 s /\ z_pc s = QExit /\ z_log s = [VCleared []].
Proof. exists (q_end 1 run_notice); split; [apply end_reach; vm_compute; reflexivity|]; vm_compute; repeat split. Qed.
Lemma bare_undefined : exists s, qreach 1 s /\ z_pc s = QUndef /\ z_log s = [VCleared []; VQueued (mkQ 0 None true); VSent 5 (mkQ 0 None true)].
Proof. exists (q_end 1 run_bare); split; [apply end_reach; vm_compute; reflexivity|]; vm_compute; repeat split. Qed.
Lemma again_mixed : exists s l1 l2, qreach 1 s /\ z_log s = l1 ++ VBack 5 Q0 :: l2 /\ called_back l1 = [] /\
  l2 = [VSent 6 Q0; VGot 6 Q0 2; VDone 6 Q0; VCalled Q0] /\ z_res s 0 = Some 1.
Proof.
  exists (q_end 1 run_again), [VCleared []; VQueued Q0; VSent 5 Q0; VGot 5 Q0 1], [VSent 6 Q0; VGot 6 Q0 2; VDone 6 Q0; VCalled Q0].
  split; [apply end_reach; vm_compute; reflexivity|]; vm_compute; repeat split.
Qed.
Lemma reuse_stale : exists s, qreach 1 s /\ called_back (z_log s) = [Q0; Q1] /\ In (VGot 5 Q1 43) (z_log s) /\ z_res s 0 = Some 42.
Proof. exists (q_end 1 run_reuse); split; [apply end_reach; vm_compute; reflexivity|]; vm_compute; repeat split; auto 10. Qed.
Lemma late_lost : exists s, qreach 1 s /\ z_pc s = QEnd /\ z_queue s = [Q0] /\
  forall e, qstep 1 (AHand e) s = None.
Proof. exists (q_end 1 run_late); split; [apply end_reach; vm_compute; reflexivity|]; split; [reflexivity|]; split; [reflexivity|]; intros []; reflexivity. Qed.
Lemma late_forgotten : forall conc s s1 s2, z_pc s = QEnd -> qstep conc AStart s = Some s1 -> qexec conc [AHand ENone; AHand ENone] s1 = Some s2 -> z_queue s2 = [].
Proof.
  intros conc s s1 s2 E H1 H2; cbn in H1; rewrite E in H1; injection H1 as <-; cbn in H2; injection H2 as <-; reflexivity.
Qed.
Lemma refused_connecting : exists s, qreach 1 s /\ z_pc s = QConnect /\ z_stop s = false /\ forall o cb, qstep 1 (AAsk o cb) s = Some s.
Proof. exists (q_end 1 run_connecting); split; [apply end_reach; vm_compute; reflexivity|]; vm_compute; repeat split. Qed.
Lemma race : exists s k s1 s2, qreach 1 s /\ z_pc s = QConnect /\ qstep 1 (AHand (ELogin k)) s = Some s1 /\ z_conns s1 <> z_conns s /\
  qstep 1 (AAsk (Some 0) true) s = Some s2 /\ z_asked s2 <> z_asked (match qstep 1 (AAsk (Some 0) true) s1 with Some x => x | None => s1 end).
Proof.
  exists (q_end 1 run_connecting), (Some 5); eexists; eexists; split; [apply end_reach; vm_compute; reflexivity|].
  split; [reflexivity|]; split; [reflexivity|]; split; [discriminate|]; split; [reflexivity|]; vm_compute; discriminate.
Qed.
Lemma rest_stuck : exists s, qreach 1 s /\ lookup 5 (z_conns s) = Some (mkN (Some Q0) true) /\
  forall e s', qstep 1 (AHand e) s = Some s' -> exists i a b c ok rest r d, e = EEvent 5 i a b c ok rest r d /\ i || a || b || c = true.
Proof.
  exists (q_end 1 run_long); split; [apply end_reach; vm_compute; reflexivity|]; split; [reflexivity|].
  assert (P : z_pc (q_end 1 run_long) = QPoll) by (vm_compute; reflexivity).
  assert (B : z_bytes (q_end 1 run_long) = 0) by (vm_compute; reflexivity).
  assert (C : connected 1 (q_end 1 run_long) = true) by (vm_compute; reflexivity).
  assert (K : z_conns (q_end 1 run_long) = [(5, mkN (Some Q0) true)]) by (vm_compute; reflexivity).
  generalize dependent (q_end 1 run_long); intros s P B C K e s' H.
  unfold qstep, hstep in H; rewrite P in H; destruct e; try discriminate.
  - rewrite B in H; discriminate.
  - rewrite C in H; discriminate.
  - rewrite K in H; cbn [lookup] in H; destruct (Nat.eqb_spec k 5) as [->|]; [|discriminate].
    destruct (i || rdhup || hup || err) eqn:E; [|discriminate]; do 8 eexists; split; [reflexivity|exact E].
Qed.
