(** The whole server: how its parts hang together. *)
From Coq Require Import String List NArith ZArith Bool Arith Lia.
From Verif Require Import Model.Base Model.Endian Model.Protocol Model.Transceiver Model.RequestMap Model.Streams Model.Environment
  Model.Management Model.Manager Model.Request Model.System
  Spec.EndianSpec Spec.WireSpec Spec.EnvironmentSpec Spec.RequestSpec Spec.TransceiverSpec Spec.ManagerSpec Spec.SystemSpec
  Proofs.RequestMapProofs Proofs.ManagerProofs Proofs.ManagerStep Proofs.ManagerFacts Proofs.ManagerHist Proofs.RequestProofs.
From Verif Require Proofs.TransceiverProofs.
Import ListNotations.

Notation tb s t := (t_base (s_threads s t)).
Notation tp s t := (t_push (s_threads s t)).
Notation ts s t := (t_sig (s_threads s t)).
Notation ob s o := (s_objs s o).

Section Proofs.
Variable vts : list N -> list N -> list N.
Variable junk : nat -> list N.
Variable http_time : list N -> Z.
Variable k : chars.
Context {U : Type}.
Variable A : application U.
Variable maxPost : N.
Variable u : U.
Notation sys := (System.sys (U := U)).
Notation work := (System.work vts junk http_time k A maxPost u).
Notation sstep := (System.sstep vts junk http_time k A maxPost u).
Notation sexec := (System.sexec vts junk http_time k A maxPost u).
Notation sreach := (SystemSpec.sreach vts junk http_time k A maxPost u).
Notation rstep := (Request.step vts junk http_time k A).
Notation mstep := (Manager.step begins).
Notation bconfig := (begin_config maxPost).

(** * The shape of a step *)
Inductive wshape (t : nat) (a : action message) (x : sys) : sys -> Prop :=
| WNone : (forall w id o, a = ARun w -> ts (y_man x) t = None -> tp (y_man x) t = None -> tb (y_man x) t = RCheck id o ->
             o_queue (ob (y_man x) o) = []) ->
    (forall w id m, a = ARun w -> ts (y_man x) t = None -> tp (y_man x) t = Some (PFind id m) ->
       map_find id (s_requests (y_man x)) = None -> begins m = false) ->
    wshape t a x x
| WNew : forall w id m c, a = ARun w -> ts (y_man x) t = None -> tp (y_man x) t = Some (PFind id m) ->
    map_find id (s_requests (y_man x)) = None -> begins m = true -> bconfig id m = Some c ->
    wshape t a x (mkSys (y_net x) (y_man x) (y_fed x) (fupd (y_cfg x) (s_next (y_man x)) c)
      (fupd (y_rq x) (s_next (y_man x)) (rq_init u)) (y_out x) (y_ret x) (y_tr x) (y_sent x) (fupd (y_at x) (s_next (y_man x)) (y_fed x)))
| WTake : forall w id o m q b st, a = ARun w -> ts (y_man x) t = None -> tp (y_man x) t = None -> tb (y_man x) t = RCheck id o ->
    o_queue (ob (y_man x) o) = m :: q -> rstep (y_cfg x o) m (y_rq x o) = Done (b, st) ->
    wshape t a x (mkSys (y_net x) (y_man x) (y_fed x) (y_cfg x) (fupd (y_rq x) o st)
      (fupd (y_out x) t (map (fun r => mkP (Some o) (r_socket id) (fst r) (snd r)) (skipn (length (q_sent (y_rq x o))) (q_sent st))))
      (fupd (y_ret x) t b) (y_tr x) (y_sent x) (y_at x))
| WLocal : forall w m sk l r, a = ARun w -> ts (y_man x) t = None -> tp (y_man x) t = None -> tb (y_man x) t = HLocal ->
    s_local (y_man x) = (m, sk) :: r -> localHandler 1 (m_data m) = Done l ->
    wshape t a x (mkSys (y_net x) (y_man x) (y_fed x) (y_cfg x) (y_rq x) (fupd (y_out x) t (map (fun r => mkP None sk r false) l))
      (y_ret x) (y_tr x) (y_sent x) (y_at x)).

Lemma work_shape : forall t a x x', work t a x = Done x' -> wshape t a x x'.
Proof.
  intros t a x x' H; unfold System.work, sig_at, push_at, base_of in H; destruct a;
    try (injection H as <-; apply WNone; intros; discriminate).
  destruct (ts (y_man x) t) eqn:S; [injection H as <-; apply WNone; congruence|].
  destruct (tp (y_man x) t) as [[]|] eqn:P; try (injection H as <-; apply WNone; congruence).
  - destruct (map_find id (s_requests (y_man x))) eqn:F.
    + injection H as <-; apply WNone; congruence.
    + destruct (begins m) eqn:B.
      * destruct (bconfig id m) eqn:C; [|discriminate]; injection H as <-; eapply WNew; eauto.
      * injection H as <-; apply WNone; [congruence|]; intros w0 id0 m0 _ _ P'; rewrite P in P'; injection P' as <- <-; auto.
  - destruct (tb (y_man x) t) eqn:B; try (injection H as <-; apply WNone; congruence).
    + destruct (s_local (y_man x)) as [|[m sk] r] eqn:L; [injection H as <-; apply WNone; congruence|].
      destruct (m_type m =? 0)%Z; [|injection H as <-; apply WNone; congruence].
      destruct (localHandler 1 (m_data m)) eqn:E; try discriminate; cbn in H; injection H as <-; eapply WLocal; eauto.
    + destruct (o_queue (ob (y_man x) o)) eqn:Q.
      * injection H as <-; apply WNone; [|congruence]; intros w0 id0 o0 _ _ _ B'; rewrite B in B'; injection B' as <- <-; exact Q.
      * destruct (rstep (y_cfg x o) m (y_rq x o)) as [[b st]| |] eqn:E; try discriminate; cbn in H; injection H as <-; eapply WTake; eauto.
Qed.

Inductive sshape (x : sys) : sys -> Prop :=
| ShNet : forall e n, (forall s d f, e <> ESend s d f) -> (io_free x = true \/ exists s b, e = EPeer s b) ->
    tstep e (y_net x) = Some (Val n) ->
    sshape x (mkSys n (y_man x) (y_fed x) (y_cfg x) (y_rq x) (y_out x) (y_ret x) (y_tr x ++ [e]) (y_sent x) (y_at x))
| ShFeed : forall p m, nth_error (t_msgs (y_net x)) (y_fed x) = Some p ->
    mstep 0 (APush (fst (push_of p)) (snd (push_of p))) (y_man x) = Some m ->
    sshape x (mkSys (y_net x) m (S (y_fed x)) (y_cfg x) (y_rq x) (y_out x) (y_ret x) (y_tr x) (y_sent x) (y_at x))
| ShMan : forall t a m x1, allowed t a x = true -> mstep t a (y_man x) = Some m -> wshape t a x x1 -> sshape x (with_man m x1)
| ShSend : forall t p r n, ts (y_man x) t = None -> tp (y_man x) t = None ->
    ((exists id o, tb (y_man x) t = RProc id o) \/ tb (y_man x) t = HRelock) -> y_out x t = p :: r ->
    tstep (ESend (p_sock p) (p_data p) (p_kill p)) (y_net x) = Some (Val n) ->
    sshape x (mkSys n (y_man x) (y_fed x) (y_cfg x) (y_rq x) (fupd (y_out x) t r) (y_ret x)
      (y_tr x ++ [ESend (p_sock p) (p_data p) (p_kill p)]) (y_sent x ++ [p]) (y_at x)).

Lemma net_shape : forall e x x', net_step (U := U) e x = Some (Done x') -> (forall s d f, e <> ESend s d f) ->
  (io_free x = true \/ exists s b, e = EPeer s b) -> sshape x x'.
Proof.
  intros e x x' H N F; unfold net_step in H; destruct (tstep e (y_net x)) as [[n|]|] eqn:E; try discriminate.
  injection H as <-; apply ShNet; auto.
Qed.

Lemma sstep_shape : forall v x x', sstep v x = Some (Done x') -> sshape x x'.
Proof.
  intros v x x' H; destruct v; cbn [System.sstep] in H.
  - destruct e; try discriminate H;
    first [eapply net_shape; [exact H|discriminate|right; eauto]
          |destruct (io_free x) eqn:F; [|discriminate H]; eapply net_shape; [exact H|discriminate|auto]].
  - destruct (nth_error _ _) as [p|] eqn:E; [|discriminate]; destruct (mstep _ _ _) eqn:S; [|discriminate].
    injection H as <-; eapply ShFeed; eauto.
  - destruct (allowed t a x) eqn:AL; [|discriminate]; destruct (mstep t a (y_man x)) eqn:S; [|discriminate].
    destruct (work t a x) as [x1| |] eqn:W; try discriminate; cbn in H; injection H as <-.
    eapply ShMan; eauto; now apply work_shape.
  - unfold sig_at, push_at, base_of in H; destruct (ts (y_man x) t) eqn:S; [discriminate|]; destruct (tp (y_man x) t) eqn:P; [discriminate|].
    destruct (tb (y_man x) t) eqn:B; try discriminate; destruct (y_out x t) as [|p r] eqn:O; try discriminate;
    destruct (tstep _ _) as [[n|]|] eqn:E; try discriminate; injection H as <-; eapply ShSend; eauto.
Qed.

Lemma sreach_ind : forall P : sys -> Prop, P (y_init u) ->
  (forall x x', P x -> sshape x x' -> P x') -> forall x, sreach x -> P x.
Proof.
  intros P P0 PS x (l & H). revert H P0. generalize (y_init u).
  induction l as [|v l IH]; intros x0 H H0; cbn in H; [injection H as <-; exact H0|].
  destruct (sstep v x0) as [[x1| |]|] eqn:E; try discriminate.
  eapply IH; [exact H|]; eapply PS; [exact H0|]; eapply sstep_shape; eauto.
Qed.

(** * The parts *)
Lemma reach_step : forall (s : Manager.state message) t a s', reachable begins s -> mstep t a s = Some s' -> reachable begins s'.
Proof.
  intros s t a s' (l & L) S; exists (l ++ [(t, a)]). revert L; generalize (st_init message).
  induction l as [|[t0 a0] l IH]; intros s0 L; cbn in *.
  - injection L as ->; rewrite S; reflexivity.
  - destruct (mstep t0 a0 s0); cbn in *; [apply IH; exact L|discriminate].
Qed.

Lemma other_base : forall (s : Manager.state message) a s', inv s -> (a <> ASpawn) -> mstep 0 a s = Some s' -> tb s 0 = BOther -> tb s' 0 = BOther.
Proof.
  intros s a s' I N S B. destruct (step_own begins s 0 a s' I S) as [E|[[E _]|[_ F]]]; [congruence..|].
  assert (E' : tb s' 0 = HStart) by (rewrite B in F; now inversion F). clear F. exfalso.
  assert (NW : ~ In 0 (s_waiters s)) by (intro W; apply (i_wait s I) in W; congruence).
  cases S S0 P0 B0; try congruence; cbn in *; rewrite ?fupd_same in *; cbn in *; try congruence.
  - destruct (all_threads (s_waiters s) (set_flag message b s) 0) as (_ & _ & Q). rewrite Q in E'.
    destruct (existsb (Nat.eqb 0) (s_waiters s)) eqn:W; [|cbn in E'; congruence].
    apply existsb_exists in W; destruct W as (y & Y1 & Y2); apply Nat.eqb_eq in Y2; subst y; contradiction.
  - unfold fupd in E'. destruct w as [|w]; cbn in E'; [|congruence]. apply NW. rewrite E0. apply orb_true_iff in E1; destruct E1 as [E1|E1].
    + left. destruct n; [reflexivity|discriminate].
    + right. apply existsb_exists in E1; destruct E1 as (y & Y1 & Y2); destruct y; [exact Y1|discriminate].
Qed.

Definition parts (x : sys) : Prop :=
  texec (y_tr x) (y_net x) /\ reachable begins (y_man x) /\ tb (y_man x) 0 = BOther /\ y_fed x <= length (t_msgs (y_net x)).

Lemma read_more_msgs : forall o s b n r n', read_more o s b n = Val (r, n') -> exists l, t_msgs n' = t_msgs n ++ l.
Proof.
  intros o s b n r n' H; unfold read_more in H; destruct (sock_read _ _ _) as [[bytes|] sk].
  - destruct (Block.b_store _ _ _); [|discriminate]; cbn [obind] in H; destruct (Block.b_setSize _ _); [|discriminate].
    cbn [obind] in H; injection H as _ <-; exists []; cbn; now rewrite app_nil_r.
  - injection H as _ <-; eexists; reflexivity.
Qed.
Lemma body_msgs : forall o s b n n', receive_body o s b n = Val n' -> exists l, t_msgs n' = t_msgs n ++ l.
Proof.
  intros o s b n n' H; unfold receive_body in H.
  destruct (if (Block.b_size b =? 8)%nat then _ else _) as [b1|]; [|discriminate]; cbn [obind] in H.
  destruct (read_more o s b1 n) as [[r n1]|] eqn:E; [|discriminate]; cbn [obind] in H; apply read_more_msgs in E; destruct E as (l & E).
  destruct r as [b2|]; [|injection H as <-; eauto]. destruct (_ <? _); [injection H as <-; eauto|].
  destruct (h_fcgiId b2); [|discriminate]; cbn [obind] in H; injection H as <-; cbn; rewrite E, <- app_assoc; eauto.
Qed.
Lemma msgs_grow : forall e n n', tstep e n = Some (Val n') -> exists l, t_msgs n' = t_msgs n ++ l.
Proof.
  intros e n n' H.
  destruct e as [s|s bytes|s data kill|p|o1 o2| |o| |].
  4,6,7,8,9: exists []; rewrite app_nil_r; refine (proj1 (TransceiverProofs.other_events_quiet _ _ _ 0%N H I)).
  - cbn in H; destruct (t_pc n); try discriminate; destruct (s_born _); [discriminate|]; injection H as <-; exists []; cbn; now rewrite app_nil_r.
  - cbn in H; destruct (s_valid _); [|discriminate]; injection H as <-; exists []; cbn; now rewrite app_nil_r.
  - exists []; rewrite app_nil_r; refine (proj1 (TransceiverProofs.other_events_quiet _ _ _ 0%N H I)).
  - cbn in H; destruct (t_pc n) as [|[s|]| | |]; try discriminate.
    2: injection H as <-; exists []; cbn; now rewrite app_nil_r.
    destruct (receive o1 o2 s n) as [n1|] eqn:E; [|discriminate]; cbn [obind] in H; injection H as <-; cbn [set_pc t_msgs].
    unfold receive in E; destruct (negb _); [injection E as <-; exists []; now rewrite app_nil_r|].
    destruct (_ <? _); [|eapply body_msgs; eauto]. destruct (Block.b_setReserve _ _); [|discriminate]; cbn [obind] in E.
    destruct (read_more o1 s _ n) as [[r n2]|] eqn:R; [|discriminate]; cbn [obind] in E; apply read_more_msgs in R; destruct R as (l & R).
    destruct r as [b2|]; [|injection E as <-; eauto]. destruct (_ <? _); [injection E as <-; eauto|].
    apply body_msgs in E; destruct E as (l' & E); rewrite E, R, <- app_assoc; eauto.
Qed.

Lemma wshape_net : forall t a x x', wshape t a x x' -> y_net x' = y_net x /\ y_man x' = y_man x /\ y_fed x' = y_fed x /\ y_tr x' = y_tr x /\ y_sent x' = y_sent x.
Proof. intros t a x x' H; destruct H; cbn; auto. Qed.

Lemma parts_step : forall x x', parts x -> sshape x x' -> parts x'.
Proof.
  intros x x' (T & R & B & F) S; destruct S; unfold parts; cbn.
  - destruct (msgs_grow _ _ _ H1) as (l & E); split; [econstructor; eauto|]; split; [exact R|]; split; [exact B|]; rewrite E, app_length; lia.
  - split; [exact T|]; split; [eapply reach_step; eauto|].
    split; [refine (other_base _ _ _ (inv_reachable begins _ R) _ H0 B); discriminate|].
    apply nth_error_Some; congruence.
  - destruct (wshape_net _ _ _ _ H1) as (-> & E & -> & -> & _); split; [exact T|]; split; [eapply reach_step; eauto|]; split; [|exact F].
    pose proof (inv_reachable begins _ R) as I. destruct t.
    + eapply other_base; [exact I| |exact H0|exact B]; intros ->; discriminate.
    + destruct (step_others begins _ _ _ _ I H0 0) as [->|[X _]]; [discriminate|exact B|congruence].
  - destruct (msgs_grow _ _ _ H3) as (l & E); split; [econstructor; eauto|]; split; [exact R|]; split; [exact B|]; rewrite E, app_length; lia.
Qed.
Lemma parts_reach : forall x, sreach x -> parts x.
Proof.
  apply sreach_ind; [|exact parts_step]. repeat split; [constructor|exists []; reflexivity|cbn; lia].
Qed.
Lemma sreach_ind' : forall P : sys -> Prop, P (y_init u) ->
  (forall x x', parts x -> P x -> sshape x x' -> P x') -> forall x, sreach x -> P x.
Proof.
  intros P P0 PS x R. enough (parts x /\ P x) by tauto. revert x R; apply sreach_ind.
  - split; [apply parts_reach; exists []; reflexivity|exact P0].
  - intros x x' [H1 H2] S; split; [eapply parts_step; eauto|eauto].
Qed.
End Proofs.
