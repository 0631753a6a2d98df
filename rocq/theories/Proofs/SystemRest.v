(** The whole server comes to rest, and what is sent is written. *)
From Coq Require Import String List NArith ZArith Bool Arith Lia Wf_nat.
From Verif Require Import Model.Base Model.Endian Model.Protocol Model.Transceiver Model.RequestMap Model.Streams Model.Environment
  Model.Management Model.Manager Model.Request Model.System
  Spec.EndianSpec Spec.WireSpec Spec.EnvironmentSpec Spec.RequestSpec Spec.TransceiverSpec Spec.ManagerSpec
  Spec.TransmitProgressSpec Spec.SystemSpec Spec.SystemRestSpec
  Proofs.RequestMapProofs Proofs.ManagerProofs Proofs.ManagerStep Proofs.ManagerFacts Proofs.ManagerHist Proofs.ManagerUse Proofs.ManagerEnds
  Proofs.RequestProofs Proofs.SystemProofs Proofs.SystemFlow Proofs.SystemWork.
From Verif Require Proofs.TransceiverProofs Proofs.TransmitProgressProofs.
Import ListNotations.

Section Proofs.
Variable vts : list N -> list N -> list N.
Variable junk : nat -> list N.
Variable http_time : list N -> Z.
Variable k : chars.
Context {U : Type}.
Variable A : application U.
Variable maxPost : N.
Variable u : U.
Notation sys := (System.sys (U := U)).
Notation work := (System.work vts junk http_time k A maxPost u).
Notation sstep := (System.sstep vts junk http_time k A maxPost u).
Notation sexec := (System.sexec vts junk http_time k A maxPost u).
Notation sreach := (SystemSpec.sreach vts junk http_time k A maxPost u).
Notation proceeds := (SystemRestSpec.proceeds vts junk http_time k A maxPost u).
Notation resting := (SystemRestSpec.resting vts junk http_time k A maxPost u).
Notation sshape := (SystemProofs.sshape vts junk http_time k A maxPost u).
Notation workI := (SystemWork.workI vts junk http_time k A u).
Notation mstep := (Manager.step begins).

Lemma sexec_app : forall l l' x x', sexec l x = Some (Done x') -> sexec (l ++ l') x = sexec l' x'.
Proof.
  induction l as [|v l IH]; intros l' x x' H; cbn [System.sexec app] in *; [now injection H as <-|].
  destruct (sstep v x) as [[x1| |]|]; try discriminate. now apply IH.
Qed.
Lemma sreach_exec : forall x l x', sreach x -> sexec l x = Some (Done x') -> sreach x'.
Proof. intros x l x' (l0 & E) H. exists (l0 ++ l). now rewrite (sexec_app _ _ _ _ E). Qed.
Lemma sreach_step : forall x v x', sreach x -> sstep v x = Some (Done x') -> sreach x'.
Proof. intros x v x' R H. apply (sreach_exec x [v] x' R). cbn [System.sexec]. now rewrite H. Qed.

(** ** The steps come to an end *)
Lemma out_small : forall x, sreach x -> forall n, (forall t, n <= t -> s_threads (y_man x) t = mkThread BOther None None) ->
  forall t, n <= t -> y_out x t = [].
Proof.
  intros x R n N t L. destruct (w_out _ _ _ _ _ _ x (work_reach _ _ _ _ _ _ _ x R) t) as [E|[(o & W & _)|[B _]]]; [exact E|..].
  - rewrite (N t L) in W. discriminate.
  - rewrite (N t L) in B. discriminate.
Qed.

Lemma man_shape : forall t a x x', sstep (SMan t a) x = Some (Done x') -> mstep t a (y_man x) = Some (y_man x') /\
  y_net x' = y_net x /\ y_fed x' = y_fed x.
Proof.
  intros t a x x' H. cbn [System.sstep] in H. destruct (allowed t a x); [|discriminate].
  destruct (mstep t a (y_man x)) as [m|]; [|discriminate]. destruct (work t a x) as [x1| |] eqn:W; try discriminate.
  cbn [run_bind] in H. injection H as <-. apply work_shape in W. destruct (wshape_net _ _ _ _ _ _ _ _ _ _ _ W) as (E1 & _ & E2 & _).
  cbn. auto.
Qed.

Lemma well_founded_from : forall x, sreach x -> Acc (fun x' x => proceeds x x') x.
Proof.
  intro x. remember (length (t_msgs (y_net x)) - y_fed x) as n eqn:EN. revert x EN.
  induction n as [n IHn] using lt_wf_ind. intros x EN R.
  pose proof (parts_reach _ _ _ _ _ _ _ x R) as (_ & RM & _).
  pose proof (comes_to_rest begins (y_man x) RM) as AC. remember (y_man x) as s eqn:ES. revert x EN R ES RM.
  induction AC as [s _ IHs]. intros x EN R ES RM.
  destruct (few_threads begins s RM) as (b & B).
  remember (sumf b (fun t => length (y_out x t))) as q eqn:EQ. revert x EN R ES EQ.
  induction q as [q IHq] using lt_wf_ind. intros x EN R ES EQ.
  constructor. intros x' (v & W & S). pose proof (sreach_step x v x' R S) as R'.
  destruct v as [e| |t a|t]; [contradiction|..].
  - cbn [System.sstep] in S. destruct (nth_error (t_msgs (y_net x)) (y_fed x)) as [p|] eqn:NE; [|discriminate].
    destruct (mstep 0 _ (y_man x)) as [m|]; [|discriminate]. injection S as E.
    assert (L : y_fed x < length (t_msgs (y_net x))) by (apply nth_error_Some; congruence).
    apply (IHn (length (t_msgs (y_net x')) - y_fed x')); [|reflexivity|exact R']. rewrite <- E. cbn. lia.
  - destruct (man_shape t a x x' S) as (M & N1 & N2).
    pose proof (parts_reach _ _ _ _ _ _ _ x' R') as (_ & RM' & _).
    apply (IHs (y_man x')); auto.
    + exists t, a. split; [now rewrite ES|]. destruct a; auto.
    + now rewrite N1, N2.
  - cbn [System.sstep] in S. unfold sig_at, push_at, base_of in S.
    assert (exists p r net, y_out x t = p :: r /\ tstep (ESend (p_sock p) (p_data p) (p_kill p)) (y_net x) = Some (Val net) /\
      x' = mkSys net (y_man x) (y_fed x) (y_cfg x) (y_rq x) (fupd (y_out x) t r) (y_ret x)
             (y_tr x ++ [ESend (p_sock p) (p_data p) (p_kill p)]) (y_sent x ++ [p]) (y_at x)) as (p & r & net & O & T & ->).
    { destruct (ts (y_man x) t); [discriminate|]. destruct (tp (y_man x) t); [discriminate|].
      destruct (tb (y_man x) t); try discriminate; destruct (y_out x t) as [|p r]; try discriminate;
        (destruct (tstep _ (y_net x)) as [[net|]|] eqn:T; try discriminate; injection S as <-; exists p, r, net; auto). }
    assert (LT : t < b).
    { destruct (Nat.lt_ge_cases t b) as [L|L]; [exact L|]. rewrite (out_small x R b) in O; [discriminate| |exact L]. now rewrite <- ES. }
    assert (MS : t_msgs net = t_msgs (y_net x)).
    { cbn [tstep] in T. destruct (s_born (t_socks (y_net x) (p_sock p))); [|destruct (t_pc (y_net x)); discriminate].
      destruct (t_pc (y_net x)); injection T as <-; reflexivity. }
    pose proof (sumf_at b (fun t0 => length (fupd (y_out x) t r t0)) (fun t0 => length (y_out x t0)) t LT) as SU.
    specialize (SU ltac:(intros i D; cbn; now rewrite fupd_other)). cbn in SU. rewrite fupd_same, O in SU. cbn [length] in SU.
    refine (IHq (sumf b (fun t0 => length (fupd (y_out x) t r t0))) _ _ _ R' _ _); cbn.
    + lia.
    + now rewrite MS.
    + exact ES.
    + reflexivity.
Qed.

Lemma no_endless_run : forall x, sreach x -> ~ exists f : nat -> sys, f 0 = x /\ forall i, proceeds (f i) (f (S i)).
Proof.
  intros x R. pose proof (well_founded_from x R) as AC. clear R. induction AC as [x _ IH]. intros (f & E & F).
  apply (IH (f 1)); [rewrite <- E; apply F|]. exists (fun i => f (S i)). auto.
Qed.

(** ** Sockets known to the transceiver *)
Definition known_in (P : N -> Prop) (s : Manager.state message) : Prop :=
  (forall o, o < s_next s -> P (r_socket (o_rid (ob s o)))) /\
  (forall t id m, infl (tp s t) = Some (id, m) -> P (r_socket id)) /\
  Forall (fun p => P (snd p)) (s_local s).

Lemma local_step : forall s t a s', mstep t a s = Some s' ->
  s_local s' = s_local s \/ (exists id m, infl (tp s t) = Some (id, m) /\ s_local s' = s_local s ++ [(m, r_socket id)]) \/
  (exists p, s_local s = p :: s_local s').
Proof.
  intros s t a s' H. cases H S0 P0 B0; try (left; reflexivity).
  all: try (left; match goal with |- context[notify_all message ?s1] => pose proof (all_fields (s_waiters s1) s1) as F; cbn zeta in F; fold (notify_all message s1) in F;
      destruct F as (F1 & F2 & F3 & F4 & F5 & F6 & F7 & F8 & F9 & F10 & F11 & F12) end; cbn; try (destruct b); assumption).
  - right; left; do 2 eexists; split; reflexivity.
  - right; right; eexists; reflexivity.
Qed.

Lemma known_step : forall (P : N -> Prop) s t a s', reachable begins s -> known_in P s -> mstep t a s = Some s' ->
  (forall id m, a = APush id m -> P (r_socket id)) -> known_in P s'.
Proof.
  intros P s t a s' R (K1 & K2 & K3) S AP. pose proof (inv_reachable begins s R) as I.
  assert (KO : forall o, o < s_next s -> o_rid (ob s' o) = o_rid (ob s o)).
  { intros o L. destruct (step_effect begins s t a s' S) as [_ _ _ K|id o1 m q _ _ _ _ _ _ _ _ O K|id o1 m _ _ _ _ _ _ _ O K
      |id m _ _ _ _ _ _ _ O K|id o1 _ _ _ _ _ _ _ _ O1 O2 O3 K|sk k0 o1 todo _ _ _ _ _ _ _ O1 O2 O3 K].
    all: first [now destruct (K o) as (-> & _)
               |destruct (Nat.eq_dec o o1) as [->|N]; [first [now rewrite O|now rewrite ?O1, ?O2, ?O3|assumption]|now destruct (K o N) as (-> & _)]
               |destruct (K o ltac:(lia)) as (-> & _); reflexivity]. }
  pose proof (step_pmove s t a s' R S) as PM.
  split; [|split].
  - intros o L. destruct PM as [id m -> _ _ _ X|_ _ X|id m _ _ _ _ X|w id m _ _ T _ _ _ _ X O|id o1 m _ _ _ _ X]; rewrite X in L.
    1,2,3,5: rewrite KO by exact L; now apply K1.
    destruct (Nat.eq_dec o (s_next s)) as [->|N]; [|rewrite KO by lia; apply K1; lia].
    rewrite O. cbn. apply (K2 t id m). now rewrite T.
  - intros t0 id0 m0 H0. destruct (Nat.eq_dec t0 t) as [->|N].
    + destruct PM as [id m E _ E' _ _|E _ _|id m _ E _ _ _|w id m _ _ _ E _ _ _ _ _|id o1 m _ E _ _ _].
      * rewrite E' in H0. injection H0 as <- <-. now apply (AP id m).
      * rewrite E in H0. now apply (K2 t id0 m0).
      * congruence.
      * congruence.
      * congruence.
    + rewrite (step_other_push begins s t a s' I S t0 N) in H0. now apply (K2 t0 id0 m0).
  - destruct (local_step s t a s' S) as [->|[(id & m & E & ->)|((p1 & p2) & E)]]; [exact K3|..].
    + apply Forall_app; split; [exact K3|]. constructor; [|constructor]. cbn. now apply (K2 t id m).
    + rewrite E in K3. now inversion K3.
Qed.

Definition born (x : sys) (s : N) : Prop := s_born (t_socks (y_net x) s) = true.
Definition bornI (x : sys) : Prop := Forall ev_ok (y_tr x) ->
  known_in (born x) (y_man x) /\ forall t, Forall (fun p => born x (p_sock p)) (y_out x t).

Lemma born_read : forall o s b n r n' s0, read_more o s b n = Val (r, n') -> s_born (t_socks n' s0) = s_born (t_socks n s0).
Proof.
  intros o s b n r n' s0 H; unfold read_more in H.
  destruct (sock_read o (Block.b_reserve b - Block.b_size b) (t_socks n s)) as [w sk] eqn:E.
  assert (B : s_born sk = s_born (t_socks n s)).
  { unfold sock_read in E. destruct (negb _); [now injection E as _ <-|]. cbn zeta in E.
    destruct (_ - _); [destruct (s_closing _); now injection E as _ <-|]. destruct o; try (destruct (s_closing _)); now injection E as _ <-. }
  assert (Q : s_born (fset (t_socks n) s sk s0) = s_born (t_socks n s0)).
  { unfold fset. destruct (N.eqb_spec s0 s) as [->|]; auto. }
  destruct w as [bytes|].
  - destruct (Block.b_store _ _ _); [|discriminate]; cbn [obind] in H; destruct (Block.b_setSize _ _); [|discriminate].
    cbn [obind] in H; injection H as _ <-. exact Q.
  - injection H as _ <-. cbn. unfold fset in *. destruct (N.eqb_spec s0 s) as [->|]; [|exact Q].
    cbn. now rewrite N.eqb_refl in *.
Qed.
Lemma born_body : forall o s b n n' s0, receive_body o s b n = Val n' -> s_born (t_socks n' s0) = s_born (t_socks n s0).
Proof.
  intros o s b n n' s0 H; unfold receive_body in H.
  destruct (if (Block.b_size b =? 8)%nat then _ else _) as [b1|]; [|discriminate]; cbn [obind] in H.
  destruct (read_more o s b1 n) as [[r n1]|] eqn:E; [|discriminate]; cbn [obind] in H. apply (born_read _ _ _ _ _ _ s0) in E.
  destruct r as [b2|]; [|injection H as <-; exact E]. destruct (_ <? _); [injection H as <-; exact E|].
  destruct (h_fcgiId b2); [|discriminate]; cbn [obind] in H; injection H as <-. exact E.
Qed.
Lemma born_more : forall e n n' s0, tstep e n = Some (Val n') -> s_born (t_socks n s0) = true -> s_born (t_socks n' s0) = true.
Proof.
  intros e n n' s0 H G.
  destruct e as [s|s bytes|s data kill|p|o1 o2| |o| |]; cbn in H.
  - destruct (t_pc n); try discriminate; destruct (s_born (t_socks n s)); [discriminate|]; injection H as <-; cbn; unfold fset.
    destruct (N.eqb_spec s0 s) as [->|]; auto.
  - destruct (s_valid (t_socks n s)); [|discriminate]. injection H as <-; cbn; unfold fset.
    destruct (N.eqb_spec s0 s) as [->|]; auto.
  - destruct (s_born (t_socks n s)); [|discriminate]. injection H as <-. exact G.
  - destruct p as [[s h]|].
    + destruct (t_pc n); try discriminate; destruct (s_valid (t_socks n s)); [|discriminate]. injection H as <-; cbn; unfold fset.
      destruct (N.eqb_spec s0 s) as [->|]; auto.
    + destruct (t_pc n); try discriminate; injection H as <-; exact G.
  - destruct (t_pc n) as [|[s|]| | |]; try discriminate.
    2: injection H as <-; exact G.
    destruct (receive o1 o2 s n) as [n1|] eqn:E; [|discriminate]; cbn [obind] in H; injection H as <-; cbn [set_pc t_socks]. rewrite <- G.
    unfold receive in E; destruct (negb _); [now injection E as <-|].
    destruct (_ <? _); [|eapply born_body; eauto]. destruct (Block.b_setReserve _ _); [|discriminate]; cbn [obind] in E.
    destruct (read_more o1 s _ n) as [[r n2]|] eqn:R; [|discriminate]; cbn [obind] in E. apply (born_read _ _ _ _ _ _ s0) in R.
    destruct r as [b2|]; [|injection E as <-; exact R]. destruct (_ <? _); [injection E as <-; exact R|].
    rewrite <- R. eapply born_body; eauto.
  - destruct (t_pc n); try discriminate; destruct (t_queue n); [discriminate|]; injection H as <-; exact G.
  - destruct (t_pc n) as [| | |r|]; try discriminate.
    destruct (sock_write o (skipn (x_read r) (x_data r)) (t_socks n (x_sock r))) as [w sk] eqn:E.
    assert (B : s_born sk = s_born (t_socks n (x_sock r))).
    { unfold sock_write in E. destruct (_ || _); [now injection E as _ <-|]. destruct o; now injection E as _ <-. }
    assert (Q : s_born (fset (t_socks n) (x_sock r) sk s0) = true).
    { unfold fset. destruct (N.eqb_spec s0 (x_sock r)) as [->|]; congruence. }
    destruct w as [c|]; [|injection H as <-; exact Q].
    destruct (negb _); [injection H as <-; exact Q|]. destruct (x_kill r); [|injection H as <-; exact Q].
    injection H as <-. cbn. unfold fset in *. destruct (N.eqb_spec s0 (x_sock r)) as [->|]; [cbn; congruence|exact G].
  - destruct (t_pc n); try discriminate; injection H as <-; exact G.
  - destruct (t_pc n); try discriminate; destruct (t_queue n); [|discriminate]; injection H as <-; exact G.
Qed.

Lemma msgs_born : forall x p, sreach x -> Forall ev_ok (y_tr x) -> In p (t_msgs (y_net x)) -> born x (r_socket (fst (push_of p))).
Proof.
  intros x p R EV IN. pose proof (parts_reach _ _ _ _ _ _ _ x R) as (T & _). set (s := r_socket (fst (push_of p))).
  destruct (TransceiverProofs.exec_Rinv _ _ T EV s) as [_ UB _]. unfold born. destruct (s_born (t_socks (y_net x) s)) eqn:B; [reflexivity|].
  exfalso. destruct (UB eq_refl) as (_ & _ & M & _).
  assert (X : In p (msgs_of s (t_msgs (y_net x)))).
  { unfold msgs_of. apply filter_In. split; [exact IN|]. subst s. destruct p; cbn; apply N.eqb_refl. }
  rewrite M in X. destruct X.
Qed.

Lemma known_weak : forall (P Q : N -> Prop) s, (forall n, P n -> Q n) -> known_in P s -> known_in Q s.
Proof.
  intros P Q s H (K1 & K2 & K3). split; [auto|]. split; [eauto|]. eapply Forall_impl; [|exact K3]. cbn. auto.
Qed.

Lemma born_reach : forall x, sreach x -> bornI x.
Proof.
  intros x R. enough (sreach x /\ bornI x) by tauto. revert x R.
  intros x (l & E). revert x E. induction l as [|v l IH] using rev_ind; intros x E.
  - cbn in E. injection E as <-. split; [exists []; reflexivity|]. intros _. split; [|constructor].
    split; [cbn; intros; lia|]. split; [cbn; discriminate|constructor].
  - assert (exists x0, sexec l (y_init u) = Some (Done x0) /\ sstep v x0 = Some (Done x)) as (x0 & E0 & S).
    { revert E. generalize (@y_init U u). clear. induction l as [|v0 l IH]; intros y E; cbn [app System.sexec] in *.
      - destruct (sstep v y) as [[y1| |]|] eqn:S; try discriminate. injection E as <-. exists y. auto.
      - destruct (sstep v0 y) as [[y1| |]|]; try discriminate. now apply IH. }
    destruct (IH x0 E0) as (R0 & K). assert (R : sreach x) by exact (sreach_step x0 v x R0 S). split; [exact R|].
    pose proof (parts_reach _ _ _ _ _ _ _ x0 R0) as (_ & RM & _).
    pose proof (sstep_shape _ _ _ _ _ _ _ _ _ _ S) as SH. clear E S. intros EV.
    destruct SH as [e n NS _ T|p m NE M|t a m x1 AL M W|t p r n _ _ _ O T]; cbn in EV.
    + apply Forall_app in EV. destruct (K (proj1 EV)) as (K1 & K2).
      assert (MO : forall s, born x0 s -> s_born (t_socks n s) = true) by (intros s B; exact (born_more e _ n s T B)).
      split; [exact (known_weak _ _ _ MO K1)|]. intro t. eapply Forall_impl; [|exact (K2 t)]. intros q. apply MO.
    + destruct (K EV) as (K1 & K2). split; [|exact K2]. apply (known_step _ (y_man x0) 0 _ m RM K1 M).
      intros id m0 E. injection E as <- _. apply (msgs_born x0 p R0 EV). eapply nth_error_In; eauto.
    + destruct (wshape_net _ _ _ _ _ _ _ _ _ _ _ W) as (N1 & N2 & N3 & N4 & N5).
      assert (EV0 : Forall ev_ok (y_tr x0)) by (rewrite <- N4; exact EV).
      destruct (K EV0) as (K1 & K2). unfold born. cbn [with_man y_net y_man y_out]. rewrite N1. split.
      * apply (known_step _ (y_man x0) t a m RM K1 M). intros id m0 ->. cbn [allowed] in AL.
        apply andb_true_iff in AL. destruct AL as (_ & AL). apply existsb_exists in AL. destruct AL as (o & O1 & O2).
        apply andb_true_iff in O2. destruct O2 as (O2 & _). apply N.eqb_eq in O2. rewrite <- O2.
        apply (proj1 K1). apply in_seq in O1. lia.
      * intro t0. destruct W as [_ _|w id m0 c _ _ _ _ _ _|w id o m0 q b st _ _ _ B _ _|w m0 sk l0 r _ _ _ _ L _]; cbn; [apply K2|apply K2|..].
        -- unfold fupd. destruct (Nat.eqb_spec t0 t) as [->|]; [|apply K2]. apply Forall_forall. intros q0 IN. apply in_map_iff in IN.
           destruct IN as (r0 & <- & _). cbn. pose proof (inv_reachable begins _ RM) as I.
           destruct (i_obj _ I t id o) as (AO & <-); [now rewrite B|]. apply (proj1 K1). exact (i_next _ I o AO).
        -- unfold fupd. destruct (Nat.eqb_spec t0 t) as [->|]; [|apply K2]. apply Forall_forall. intros q0 IN. apply in_map_iff in IN.
           destruct IN as (r0 & <- & _). cbn. destruct K1 as (_ & _ & K3). rewrite L in K3. inversion K3; assumption.
    + apply Forall_app in EV. destruct (K (proj1 EV)) as (K1 & K2).
      assert (MO : forall s, born x0 s -> s_born (t_socks n s) = true) by (intros s B; exact (born_more _ _ n s T B)).
      split; [exact (known_weak _ _ _ MO K1)|]. intro t0. cbn. unfold fupd. destruct (Nat.eqb_spec t0 t) as [->|].
      * specialize (K2 t). rewrite O in K2. inversion K2; subst. eapply Forall_impl; [|eassumption]. intros q. apply MO.
      * eapply Forall_impl; [|exact (K2 t0)]. intros q. apply MO.
Qed.

(** ** At rest *)
Lemma send_goes : forall x t p r, sreach x -> Forall ev_ok (y_tr x) -> ts (y_man x) t = None -> tp (y_man x) t = None ->
  (forall id o, tb (y_man x) t <> RGot id o) -> y_out x t = p :: r -> exists x', sstep (SSend t) x = Some x'.
Proof.
  intros x t p r R EV S P NG O. cbn [System.sstep]. unfold sig_at, push_at, base_of. rewrite S, P, O.
  assert (B : s_born (t_socks (y_net x) (p_sock p)) = true).
  { destruct (born_reach x R EV) as (_ & K). specialize (K t). rewrite O in K. inversion K; assumption. }
  assert (T : exists n, tstep (ESend (p_sock p) (p_data p) (p_kill p)) (y_net x) = Some (Val n)).
  { cbn [tstep]. rewrite B. destruct (t_pc (y_net x)); eexists; reflexivity. }
  destruct T as (n & T). rewrite T.
  destruct (w_out _ _ _ _ _ _ x (work_reach _ _ _ _ _ _ _ x R) t) as [E|[(o & W & _)|[B' _]]]; [congruence|..].
  - destruct (tb (y_man x) t) eqn:B'; try discriminate W; [exfalso; eapply NG; reflexivity|]. eexists; reflexivity.
  - rewrite B'. eexists; reflexivity.
Qed.

Lemma progress : forall x, sreach x -> Forall ev_ok (y_tr x) -> orderly (y_man x) -> no_dangling x ->
  (forall t, idle (y_man x) t) \/ exists v r, within v /\ sstep v x = Some r.
Proof.
  intros x R EV OR ND. pose proof (parts_reach _ _ _ _ _ _ _ x R) as (_ & RM & _).
  destruct (no_deadlock begins (y_man x) RM OR ND) as [H|(t & (a & s' & S & IN) & _)]; [left; exact H|right].
  destruct (allowed t a x) eqn:AL.
  { exists (SMan t a). cbn [System.sstep]. rewrite AL, S. eexists. split; [exact IN|reflexivity]. }
  destruct a as [w|c| | | | |]; try contradiction; cbn [allowed] in AL; unfold sig_at, push_at, base_of in AL.
  - destruct (ts (y_man x) t) eqn:S0; [discriminate|]. destruct (tp (y_man x) t) eqn:P0; [discriminate|].
    assert (exists p r, y_out x t = p :: r) as (p & r & O).
    { destruct (tb (y_man x) t); try discriminate AL; destruct (y_out x t) as [|p r]; try discriminate AL; eauto. }
    destruct (send_goes x t p r R EV S0 P0) as (x' & X); [|exact O|exists (SSend t), x'; split; [exact I|exact X]].
    intros id o B. rewrite B in AL. discriminate.
  - cbn [Manager.step] in S. destruct (ts (y_man x) t) eqn:S0; [discriminate|]. destruct (tp (y_man x) t) eqn:P0; [discriminate|].
    destruct (tb (y_man x) t) eqn:B0; try discriminate S.
    destruct (y_out x t) as [|p r] eqn:O.
    + exists (SMan t (AReturn (y_ret x t))). cbn [System.sstep allowed Manager.step]. rewrite O, eqb_reflx, S0, P0, B0.
      unfold touch in *. destruct (o_alive (ob (y_man x) o)); [|discriminate S]. eexists. split; [exact I|reflexivity].
    + destruct (send_goes x t p r R EV S0 P0) as (x' & X); [|exact O|exists (SSend t), x'; split; [exact I|exact X]].
      intros id' o' B. congruence.
Qed.

Lemma idle_free : forall x, sreach x -> (forall t, idle (y_man x) t) ->
  (exists r, sstep SFeed x = Some r) \/ io_free x = true.
Proof.
  intros x R ID. pose proof (parts_reach _ _ _ _ _ _ _ x R) as (_ & RM & B0 & F). destruct (ID 0) as (S & P & _).
  cbn [System.sstep]. destruct (nth_error (t_msgs (y_net x)) (y_fed x)) as [p|] eqn:E.
  - left. cbn [Manager.step]. rewrite S, P, B0. eexists; reflexivity.
  - right. unfold io_free, push_at. rewrite P. apply Nat.eqb_eq. apply nth_error_None in E. lia.
Qed.

Lemma idle_out : forall x, sreach x -> (forall t, idle (y_man x) t) -> forall t, y_out x t = [].
Proof.
  intros x R ID t. destruct (ID t) as (_ & _ & B).
  destruct (w_out _ _ _ _ _ _ x (work_reach _ _ _ _ _ _ _ x R) t) as [E|[(o & W & _)|[B' _]]]; [exact E|..].
  - destruct (tb (y_man x) t); first [contradiction|discriminate].
  - rewrite B' in B. contradiction.
Qed.

Lemma rest_means : forall x, sreach x -> Forall ev_ok (y_tr x) -> orderly (y_man x) -> no_dangling x -> resting x ->
  (forall t, idle (y_man x) t) /\ io_free x = true /\ forall t, y_out x t = [].
Proof.
  intros x R EV OR ND RE. destruct (progress x R EV OR ND) as [ID|(v & r & W & S)]; [|rewrite (RE v W) in S; discriminate].
  split; [exact ID|]. split; [|exact (idle_out x R ID)].
  destruct (idle_free x R ID) as [(r & S)|F]; [|exact F]. rewrite (RE SFeed I) in S. discriminate.
Qed.

Lemma never_stuck : forall x, sreach x -> Forall ev_ok (y_tr x) -> orderly (y_man x) -> no_dangling x ->
  (exists v r, within v /\ sstep v x = Some r) \/
  exists e x', io e = true /\ reading e /\ sstep (SNet e) x = Some (Done x').
Proof.
  intros x R EV OR ND. destruct (progress x R EV OR ND) as [ID|H]; [|left; exact H].
  destruct (idle_free x R ID) as [(r & S)|F]; [left; exists SFeed, r; split; [exact I|exact S]|].
  right. pose proof (parts_reach _ _ _ _ _ _ _ x R) as (T & _).
  destruct (TransmitProgressProofs.goes_on _ _ T EV) as (e & n & E1 & E2 & E3). exists e.
  assert (E4 : sstep (SNet e) x = net_step e x) by (destruct e; try discriminate E1; cbn [System.sstep]; now rewrite F).
  rewrite E4. unfold net_step. rewrite E3. eexists. auto.
Qed.

(** ** What is sent is written *)
Lemma trace_of : forall l x x', sexec l x = Some (Done x') ->
  exists tl, y_tr x' = y_tr x ++ tl /\ filter io tl = filter io (net_of l) /\ (Forall reading (net_of l) -> Forall reading tl).
Proof.
  induction l as [|v l IH]; intros x x' H; cbn [System.sexec] in H.
  - injection H as <-. exists []. rewrite app_nil_r. auto.
  - destruct (sstep v x) as [[x1| |]|] eqn:S; try discriminate.
    destruct (IH x1 x' H) as (tl & E1 & E2 & E3).
    assert (exists h, y_tr x1 = y_tr x ++ h /\ filter io h = filter io (net_of [v]) /\ (Forall reading (net_of [v]) -> Forall reading h)) as (h & H1 & H2 & H3).
    { destruct v as [e| |t a|t].
      - assert (net_step e x = Some (Done x1)) as N.
        { destruct e; cbn [System.sstep] in S; try discriminate S; try exact S; destruct (io_free x); first [exact S|discriminate S]. }
        unfold net_step in N. destruct (tstep e (y_net x)) as [[n|]|]; try discriminate. injection N as <-. exists [e]. cbn. auto.
      - cbn [System.sstep] in S. destruct (nth_error _ _); [|discriminate]. destruct (mstep 0 _ _); [|discriminate]. injection S as <-.
        exists []. rewrite app_nil_r. cbn. auto.
      - cbn [System.sstep] in S. destruct (allowed t a x); [|discriminate]. destruct (mstep t a (y_man x)); [|discriminate].
        destruct (work t a x) as [x2| |] eqn:W; try discriminate. cbn [run_bind] in S. injection S as <-. apply work_shape in W.
        destruct (wshape_net _ _ _ _ _ _ _ _ _ _ _ W) as (_ & _ & _ & E & _). exists []. rewrite app_nil_r. cbn. auto.
      - cbn [System.sstep] in S. unfold sig_at, push_at, base_of in S. destruct (ts (y_man x) t); [discriminate|]. destruct (tp (y_man x) t); [discriminate|].
        destruct (tb (y_man x) t); try discriminate; destruct (y_out x t) as [|p r]; try discriminate;
          (destruct (tstep _ (y_net x)) as [[net|]|]; try discriminate; injection S as <-;
           exists [ESend (p_sock p) (p_data p) (p_kill p)]; split; [reflexivity|]; split; [reflexivity|]; intros _; constructor; [discriminate|constructor]). }
    exists (h ++ tl). rewrite E1, H1, <- app_assoc. split; [reflexivity|].
    replace (net_of (v :: l)) with (net_of [v] ++ net_of l) by (unfold net_of; cbn; now rewrite app_nil_r).
    rewrite !filter_app, H2, E2. split; [reflexivity|]. intros F. apply Forall_app in F. apply Forall_app. tauto.
Qed.

Lemma all_written : forall x l x', sreach x -> sexec l x = Some (Done x') -> Forall ev_ok (y_tr x') -> Forall reading (net_of l) ->
  5 * bytes_waiting (y_net x) + 2 * length (waiting (y_net x)) + 5 <= io_steps (net_of l) ->
  forall s, s_valid (t_socks (y_net x') s) = true -> s_closing (t_socks (y_net x') s) = false ->
  (exists more, s_out (t_socks (y_net x') s) = concat (map p_data (to_peer x s)) ++ more) /\
  Forall (fun p => p_kill p = false) (to_peer x s).
Proof.
  intros x l x' R E EV RD B s V C. pose proof (sreach_exec x l x' R E) as R'.
  pose proof (parts_reach _ _ _ _ _ _ _ x R) as (T & _). pose proof (parts_reach _ _ _ _ _ _ _ x' R') as (T' & _).
  destruct (trace_of l x x' E) as (tl & E1 & E2 & E3). rewrite E1 in T', EV.
  assert (B' : 5 * bytes_waiting (y_net x) + 2 * length (waiting (y_net x)) + 5 <= io_steps tl) by (unfold io_steps in *; now rewrite E2).
  destruct (TransmitProgressProofs.written _ _ _ _ T T' EV (E3 RD) B' s V C) as ((more & W) & NK).
  pose proof (w_tr _ _ _ _ _ _ x (work_reach _ _ _ _ _ _ _ x R) s) as WT.
  unfold nokill, contents in *. rewrite WT in W, NK. rewrite map_map in W. split.
  - exists more. exact W.
  - apply Forall_forall. intros p IN. rewrite Forall_forall in NK. apply (NK (p_data p, p_kill p)).
    apply in_map_iff. exists p. auto.
Qed.

Lemma rests : forall x, (forall t, idle (y_man x) t) -> io_free x = true -> resting x.
Proof.
  intros x ID F v W. destruct v as [e| |t a|t]; [contradiction|..]; cbn [System.sstep].
  - unfold io_free in F. destruct (push_at x 0); [discriminate|]. apply Nat.eqb_eq in F.
    destruct (nth_error (t_msgs (y_net x)) (y_fed x)) eqn:E; [|reflexivity].
    assert (y_fed x < length (t_msgs (y_net x))) by (apply nth_error_Some; congruence). lia.
  - destruct (ID t) as (S & P & B). destruct (allowed t a x); [|reflexivity].
    destruct a; try contradiction; cbn [Manager.step]; rewrite S, P; destruct (tb (y_man x) t); try contradiction; reflexivity.
  - destruct (ID t) as (S & P & B). unfold sig_at, push_at, base_of. rewrite S, P. destruct (tb (y_man x) t); try contradiction; reflexivity.
Qed.
Lemma idle_orderly : forall x : sys, (forall t, idle (y_man x) t) -> orderly (y_man x).
Proof. intros x ID t k0 S. destruct (ID t) as (N & _). congruence. Qed.
Lemma idle_safe : forall x : sys, (forall t, idle (y_man x) t) -> no_dangling x.
Proof. intros x ID t o US. destruct (ID t) as (_ & P & B). unfold uses in US. rewrite P in US. destruct (tb (y_man x) t); contradiction. Qed.
End Proofs.
