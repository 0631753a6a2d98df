(** Messages pushed by the application, and the requests that get them. *)
From Coq Require Import String List NArith ZArith Bool Arith Lia.
From Verif Require Import Model.Base Model.Protocol Model.Transceiver Model.RequestMap Model.Environment Model.Manager Model.Request Model.System
  Spec.ManagerSpec Spec.SystemSpec Spec.CallbackSpec
  Proofs.RequestMapProofs Proofs.ManagerProofs Proofs.ManagerStep Proofs.ManagerFacts Proofs.ManagerEnds.
Import ListNotations.

Section Calls.
Context {M : Type}.
Variable begins : M -> bool.
Notation state := (Manager.state M).
Notation tb s t := (t_base (s_threads s t)).
Notation tp s t := (t_push (s_threads s t)).
Notation ts s t := (t_sig (s_threads s t)).
Notation ob s o := (s_objs s o).

Lemma logged_step : forall (s : state) t a s', inv s -> (forall o m, In (EPushed o m) (s_log s) -> o < s_next s) ->
  Manager.step begins t a s = Some s' -> forall o m, In (EPushed o m) (s_log s') -> o < s_next s'.
Proof.
  intros s t a s' I K H o m.
  destruct (step_effect begins s t a s' H) as [L R X K1|id o1 m1 q T B AL Q B' L R X O K1|id o1 m1 T AL MS T' L R X O K1
    |id m1 T FI BG T' L R X O K1|id o1 T B AL T' B' L R X O1 O2 O3 K1|sk k o1 todo T AL MU T' L R X O1 O2 O3 K1];
  rewrite L, X; rewrite ?in_app_iff; cbn [In]; intro Y.
  - eauto.
  - destruct Y as [Y|[Y|[]]]; [eauto|discriminate].
  - destruct Y as [Y|[Y|[]]]; [eauto|]. injection Y as <- <-. exact (i_next s I o1 AL).
  - apply K in Y. lia.
  - destruct Y as [Y|[Y|[]]]; [eauto|discriminate].
  - destruct Y as [Y|[Y|[]]]; [eauto|discriminate].
Qed.

Section Count.
Variable P : M -> bool.
Variable id : rid.

Definition carries (th : thread M) : nat :=
  match t_push th with
  | Some (PStart i m) | Some (PLocal i m) | Some (PWant i m) | Some (PFind i m) | Some (PMsg i _ m) =>
      if rid_eqb i id && P m then 1 else 0
  | _ => 0
  end.
Definition call1 (a : action M) : nat := match a with APush i m => if rid_eqb i id && P m then 1 else 0 | _ => 0 end.

Definition hit (s : state) (e : event M) : bool :=
  match e with EPushed o m => rid_eqb (o_rid (ob s o)) id && P m | _ => false end.

Lemma carries_step : forall (s : state) t a s', Manager.step begins t a s = Some s' ->
  carries (s_threads s' t) <= carries (s_threads s t) + call1 a.
Proof.
  intros s t a s' H. assert (NA : forall s1 : state, tp (notify_all M s1) t = tp s1 t) by (intro s1; apply all_threads).
  unfold carries, call1.
  cases H S0 P0 B0; cbn -[notify_all]; rewrite ?fupd_same; cbn -[notify_all]; rewrite ?NA; cbn [t_push set_flag s_threads]; rewrite ?P0; try lia.
Qed.

Lemma deliveries_step : forall (s : state) t a s', inv s -> (forall o m, In (EPushed o m) (s_log s) -> o < s_next s) ->
  Manager.step begins t a s = Some s' ->
  deliveries P id s' + carries (s_threads s' t) <= deliveries P id s + carries (s_threads s t) + call1 a.
Proof.
  intros s t a s' I K H. pose proof (carries_step s t a s' H) as C.
  assert (same : (forall o, o < s_next s -> o_rid (ob s' o) = o_rid (ob s o)) ->
     length (filter (hit s') (s_log s)) = deliveries P id s).
  { intro E. unfold deliveries. f_equal. apply filter_ext_in. intros e Y. destruct e; try reflexivity. cbn. rewrite E; eauto. }
  fold (deliveries P id s'). change (deliveries P id s') with (length (filter (hit s') (s_log s'))).
  assert (KR : forall o1, (forall o, o <> o1 -> kept s s' o) -> o_rid (ob s' o1) = o_rid (ob s o1) ->
    forall o, o < s_next s -> o_rid (ob s' o) = o_rid (ob s o)).
  { intros o1 K1 E o _. destruct (Nat.eq_dec o o1) as [->|N]; [exact E|apply (K1 o N)]. }
  destruct (step_effect begins s t a s' H) as [L R X K1|id1 o1 m1 q T B AL Q B' L R X O K1|id1 o1 m1 T AL MS T' L R X O K1
    |id1 m1 T FI BG T' L R X O K1|id1 o1 T B AL T' B' L R X O1 O2 O3 K1|sk k o1 todo T AL MU T' L R X O1 O2 O3 K1];
  rewrite L, ?filter_app, ?app_length; cbn [filter hit length].
  - rewrite same; [lia|]. intros o _. apply K1.
  - rewrite same; [lia|]. apply (KR o1 K1). now rewrite O.
  - rewrite same; [|apply (KR o1 K1); now rewrite O].
    destruct (i_pmsg s I t id1 o1 m1 T) as [_ E]. rewrite O. cbn [o_rid]. rewrite E.
    unfold carries. rewrite T, T'. destruct (rid_eqb id1 id && P m1); cbn; lia.
  - rewrite same; [lia|]. intros o Lo. apply K1. lia.
  - rewrite same; [lia|]. exact (KR o1 K1 O2).
  - rewrite same; [lia|]. exact (KR o1 K1 O2).
Qed.

Lemma calls_snoc : forall l t a, calls P id (l ++ [(t, a)]) = calls P id l + call1 a.
Proof.
  intros l t a. unfold calls. rewrite filter_app, app_length. cbn. destruct a; cbn; try reflexivity. destruct (_ && _); reflexivity.
Qed.

Lemma exec_snoc : forall l (s s' : state) t a, exec begins (l ++ [(t, a)]) s = Some s' ->
  exists s1, exec begins l s = Some s1 /\ Manager.step begins t a s1 = Some s'.
Proof.
  induction l as [|[t0 a0] l IH]; intros s s' t a H; cbn in *.
  - destruct (Manager.step begins t a s) as [s1|] eqn:E; [|discriminate]. cbn in H. injection H as <-. eauto.
  - destruct (Manager.step begins t0 a0 s) as [s1|]; [|discriminate]. cbn in H |- *. eauto.
Qed.

Lemma counted : forall l n (s : state), (forall t a, In (t, a) l -> t < n) -> exec begins l (st_init M) = Some s ->
  inv s /\ (forall o m, In (EPushed o m) (s_log s) -> o < s_next s) /\
  deliveries P id s + sumf n (fun t => carries (s_threads s t)) <= calls P id l.
Proof.
  induction l as [|[t a] l IH] using rev_ind; intros n s N H.
  - cbn in H. injection H as <-. split; [apply (inv_init begins)|]. split; [contradiction|].
    assert (E : sumf n (fun t => carries (s_threads (st_init M) t)) = 0) by (clear; induction n; cbn in *; auto). rewrite E. cbn. lia.
  - destruct (exec_snoc l _ _ t a H) as (s1 & H1 & S).
    destruct (IH n s1 ltac:(intros t0 a0 Y; eapply N; apply in_or_app; eauto) H1) as (I & K & C).
    assert (L : t < n) by (apply (N t a), in_or_app; right; now left).
    split; [eapply inv_step; eauto|]. split; [eapply logged_step; eauto|].
    pose proof (deliveries_step s1 t a s I K S) as D. rewrite calls_snoc.
    pose proof (sumf_at n (fun t => carries (s_threads s t)) (fun t => carries (s_threads s1 t)) t L) as Y.
    specialize (Y ltac:(intros t' D'; cbn; unfold carries; now rewrite (step_other_push begins s1 t a s I S t' D'))). cbn in Y. lia.
Qed.

Lemma at_most_once : forall l (s : state), exec begins l (st_init M) = Some s -> deliveries P id s <= calls P id l.
Proof.
  intros l s H. assert (B : exists n, forall t a, In (t, a) l -> t < n).
  { clear. induction l as [|[t a] l (n & B)]; [exists 0; contradiction|]. exists (Nat.max (S t) n). intros t' a' [Y|Y].
    - injection Y as <- <-. lia.
    - specialize (B _ _ Y). lia. }
  destruct B as (n & B). destruct (counted l n s B H) as (_ & _ & C). lia.
Qed.
End Count.

(** A call of [push] while the request is there puts the message in its queue. *)
Definition on_way (t : nat) (id : rid) (o : nat) (m : M) (s : state) : Prop :=
  tp s t = Some (PStart id m) \/ tp s t = Some (PWant id m) \/ tp s t = Some (PFind id m) \/ tp s t = Some (PMsg id o m) \/
  In m (pushed o (s_log s)).

Lemma pushed_grows : forall (s : state) t a s' o m, Manager.step begins t a s = Some s' -> In m (pushed o (s_log s)) -> In m (pushed o (s_log s')).
Proof.
  intros s t a s' o m H Y.
  destruct (step_effect begins s t a s' H) as [L R X K|i1 o1 m1 q T B AL Q B' L R X O K|i1 o1 m1 T AL MS T' L R X O K
    |i1 m1 T FI BG T' L R X O K|i1 o1 T B AL T' B' L R X O1 O2 O3 K|sk k o1 todo T AL MU T' L R X O1 O2 O3 K];
  rewrite L; rewrite ?pushed_app; rewrite ?in_app_iff; auto.
Qed.

Lemma on_way_step : forall t0 id o m (s : state) t a s', inv s -> r_id id <> 0%N -> r_id id <> 65535%N ->
  o_alive (ob s o) = true -> o_rid (ob s o) = id -> on_way t0 id o m s -> Manager.step begins t a s = Some s' -> on_way t0 id o m s'.
Proof.
  intros t0 id o m s t a s' I N1 N2 AL E W S. unfold on_way in *.
  destruct (Nat.eq_dec t0 t) as [->|D].
  2:{ rewrite (step_other_push begins s t a s' I S t0 D). destruct W as [W|[W|[W|[W|W]]]]; auto. right; right; right; right. eapply pushed_grows; eauto. }
  destruct W as [W|[W|[W|[W|W]]]]; [..|right; right; right; right; eapply pushed_grows; eauto].
  all: destruct (step_pushes begins s t a s' S) as [Z|Z]; [rewrite Z; auto|]; rewrite W in Z.
  - inversion Z; subst; try contradiction; auto.
  - inversion Z; subst; auto.
  - assert (F : map_find id (s_requests s) = Some o) by (apply (i_map s I); auto).
    inversion Z; subst; [congruence|]. assert (o0 = o) by congruence. subst. auto 6.
  - right; right; right; right.
    destruct (step_effect begins s t a s' S) as [L R X K|i1 o1 m1 q T B AL1 Q B' L R X O K|i1 o1 m1 T AL1 MS T' L R X O K
    |i1 m1 T FI BG T' L R X O K|i1 o1 T B AL1 T' B' L R X O1 O2 O3 K|sk k o1 todo T AL1 MU T' L R X O1 O2 O3 K]; try congruence.
    + exfalso. clear - S W L Z. cases S S0 P0 B0; rewrite ?P0 in W; try discriminate W.
      all: cbn -[notify_all] in Z, L; rewrite ?fupd_same in Z; cbn -[notify_all] in Z; rewrite ?W in Z.
      all: try (inversion Z; fail).
      all: try (apply (f_equal (@length _)) in L; rewrite app_length in L; cbn in L; lia).
      unfold notify_all in Z at 2. rewrite (proj1 (all_threads (s_waiters (set_flag M b s)) (set_flag M b s) t)) in Z. cbn -[notify_all] in Z. rewrite W in Z. inversion Z.
    + rewrite W in T. injection T as <- <- <-. rewrite L, pushed_app, in_app_iff. right. cbn. rewrite Nat.eqb_refl. now left.
Qed.

Lemma arrives : forall l (s0 s1 s2 : state) t id o m, reachable begins s0 ->
  o_alive (ob s0 o) = true -> o_rid (ob s0 o) = id -> Manager.step begins t (APush id m) s0 = Some s1 ->
  throughout begins (fun s => o_alive (ob s o) = true) l s1 -> exec begins l s1 = Some s2 -> tp s2 t = None ->
  In m (pushed o (s_log s2)).
Proof.
  intros l s0 s1 s2 t id o m R AL E S TH X T.
  pose proof (inv_reachable begins s0 R) as I0. destruct (i_rid s0 I0 o AL) as [N1 N2]. rewrite E in N1, N2.
  assert (I1 : inv s1) by (eapply inv_step; eauto).
  assert (W : on_way t id o m s1).
  { left. cbn in S. destruct (ts s0 t); [discriminate|]. destruct (tp s0 t); [discriminate|].
    destruct (tb s0 t); try discriminate; injection S as <-; cbn; now rewrite fupd_same. }
  assert (E1 : o_rid (ob s1 o) = id).
  { cbn in S. destruct (ts s0 t); [discriminate|]. destruct (tp s0 t); [discriminate|].
    destruct (tb s0 t); try discriminate; injection S as <-; exact E. }
  assert (G : on_way t id o m s2).
  { clear S R I0 AL E s0. revert s1 TH X I1 W E1. induction l as [|[t1 a1] l IH]; intros s1 TH X I1 W E1; cbn in X.
    - injection X as <-. exact W.
    - destruct (Manager.step begins t1 a1 s1) as [s3|] eqn:S; [|discriminate]. cbn in X.
      assert (A1 : o_alive (ob s1 o) = true) by (apply (TH [] ((t1, a1) :: l) s1); [reflexivity|discriminate|reflexivity]).
      apply (IH s3); auto.
      + intros l1 l2 s' L N Y. apply (TH ((t1, a1) :: l1) l2 s'); [cbn; now rewrite L|exact N|]. cbn. now rewrite S.
      + eapply inv_step; eauto.
      + eapply on_way_step; eauto.
      + pose proof (i_next s1 I1 o A1) as LT.
        destruct (step_effect begins s1 t1 a1 s3 S) as [L R X1 K|i1 o1 m1 q T1 B AL1 Q B' L R X1 O K|i1 o1 m1 T1 AL1 MS T' L R X1 O K
          |i1 m1 T1 FI BG T' L R X1 O K|i1 o1 T1 B AL1 T' B' L R X1 O1 O2 O3 K|sk k o1 todo T1 AL1 MU T' L R X1 O1 O2 O3 K].
        * destruct (K o) as [-> _]. exact E1.
        * destruct (Nat.eq_dec o o1) as [->|D]; [now rewrite O|destruct (K o D) as [-> _]; exact E1].
        * destruct (Nat.eq_dec o o1) as [->|D]; [now rewrite O|destruct (K o D) as [-> _]; exact E1].
        * destruct (K o ltac:(lia)) as [-> _]. exact E1.
        * destruct (Nat.eq_dec o o1) as [->|D]; [congruence|destruct (K o D) as [-> _]; exact E1].
        * destruct (Nat.eq_dec o o1) as [->|D]; [congruence|destruct (K o D) as [-> _]; exact E1]. }
  unfold on_way in G. rewrite T in G. destruct G as [G|[G|[G|[G|G]]]]; try discriminate G. exact G.
Qed.
End Calls.

(* ------------------------------------------------------------------ *)
(** * The whole server *)
Section Server.
Variable vts : list N -> list N -> list N.
Variable junk : nat -> list N.
Variable http_time : list N -> Z.
Variable k : chars.
Context {U : Type}.
Variable A : application U.
Variable maxPost : N.
Variable u : U.
Notation sstep := (System.sstep vts junk http_time k A maxPost u).
Notation sexec := (System.sexec vts junk http_time k A maxPost u).
Notation sys := (System.sys (U := U)).

Lemma work_man : forall t a (x x' : sys), System.work vts junk http_time k A maxPost u t a x = Done x' -> y_man x' = y_man x.
Proof.
  intros t a x x' H. destruct a; cbn [System.work] in H; try (injection H as <-; reflexivity).
  repeat match type of H with
    | Done _ = Done _ => injection H as <-; reflexivity
    | Undef = Done _ => discriminate H
    | Spin = Done _ => discriminate H
    | context[match ?e with _ => _ end] => destruct e eqn:?
    | run_bind ?r _ = _ => destruct r; cbn [run_bind] in H
    | _ => discriminate H
    end.
Qed.

Variable P : message -> bool.
Variable id : rid.
Hypothesis own : forall m, P m = true -> m_type m <> 0%Z.

Lemma step_acts : forall v (x x' : sys), sstep v x = Some (Done x') ->
  exists la, exec begins la (y_man x) = Some (y_man x') /\ calls P id la = callbacks P id [v].
Proof.
  intros v x x' H. destruct v as [e| |t a|t]; cbn [System.sstep] in H.
  - exists []. split; [|reflexivity]. cbn. f_equal.
    assert (N : forall x', net_step (U := U) e x = Some (Done x') -> y_man x = y_man x').
    { intros x1 Y. unfold net_step in Y. destruct (tstep e (y_net x)) as [[n|]|]; try discriminate. now injection Y as <-. }
    destruct e; try discriminate H; try (destruct (io_free x); [|discriminate H]); now apply N.
  - destruct (nth_error (t_msgs (y_net x)) (y_fed x)) as [p|]; [|discriminate].
    destruct (Manager.step begins 0 (APush (fst (push_of p)) (snd (push_of p))) (y_man x)) as [m|] eqn:S; [|discriminate].
    injection H as <-. exists [(0, APush (fst (push_of p)) (snd (push_of p)))]. cbn [exec bindo]. rewrite S. split; [reflexivity|].
    unfold calls. cbn. destruct (P (snd (push_of p))) eqn:E; [|now rewrite andb_false_r].
    exfalso. apply (own _ E). destruct p; reflexivity.
  - destruct (allowed t a x); [|discriminate]. destruct (Manager.step begins t a (y_man x)) as [m|] eqn:S; [|discriminate].
    destruct (System.work vts junk http_time k A maxPost u t a x) as [x1| | ] eqn:W; cbn [run_bind] in H; try discriminate.
    injection H as <-. exists [(t, a)]. cbn [exec bindo]. rewrite S. split; [reflexivity|].
    unfold calls, callbacks. cbn. destruct a as [| |i1 m1| | | |]; try reflexivity. destruct (rid_eqb i1 id && P m1); reflexivity.
  - exists []. split; [|reflexivity]. cbn. f_equal.
    destruct (sig_at x t); [discriminate|]. destruct (push_at x t); [discriminate|].
    destruct (base_of x t); try discriminate; destruct (y_out x t) as [|p r]; try discriminate;
      destruct (tstep _ (y_net x)) as [[n|]|]; try discriminate; now injection H as <-.
Qed.

Lemma exec_app_man : forall l1 l2 (s s' : Manager.state message), exec begins l1 s = Some s' -> exec begins (l1 ++ l2) s = exec begins l2 s'.
Proof.
  induction l1 as [|[t a] l1 IH]; intros l2 s s' H; cbn in *; [now injection H as <-|].
  destruct (Manager.step begins t a s); [|discriminate]. cbn in *. eauto.
Qed.

Lemma exec_acts : forall l (x x' : sys), sexec l x = Some (Done x') ->
  exists la, exec begins la (y_man x) = Some (y_man x') /\ calls P id la = callbacks P id l.
Proof.
  induction l as [|v l IH]; intros x x' H; cbn [System.sexec] in H.
  - injection H as <-. exists []. auto.
  - destruct (sstep v x) as [[x1| |]|] eqn:S; try discriminate H.
    destruct (step_acts v x x1 S) as (l1 & E1 & C1). destruct (IH x1 x' H) as (l2 & E2 & C2).
    exists (l1 ++ l2). split; [now rewrite (exec_app_man l1 l2 _ _ E1)|].
    unfold calls, callbacks in *. change (v :: l) with ([v] ++ l). rewrite !filter_app, !app_length. congruence.
Qed.

Lemma callback_once : forall l x, sexec l (y_init u) = Some (Done x) -> deliveries P id (y_man x) <= callbacks P id l.
Proof.
  intros l x H. destruct (exec_acts l _ x H) as (la & E & <-). exact (at_most_once begins P id la _ E).
Qed.
End Server.

Lemma message_dec : forall a b : message, {a = b} + {a <> b}.
Proof. decide equality; [apply list_eq_dec, N.eq_dec|apply Z.eq_dec]. Qed.

Lemma pushed_logged : forall (M : Type) o (m : M) l, In m (pushed o l) -> In (EPushed o m) l.
Proof.
  induction l as [|e l IH]; cbn; [auto|]. destruct e; auto. destruct (Nat.eqb_spec o o0) as [->|]; [|auto].
  intros [->|Y]; auto.
Qed.

Lemma callback_same_id : forall vts junk http_time k (U : Type) (A : application U) maxPost u l (x : sys (U := U)),
  sexec vts junk http_time k A maxPost u l (y_init u) = Some (Done x) ->
  forall o m, In m (given x o) -> m_type m <> 0%Z ->
  exists t, In (SMan t (APush (o_rid (s_objs (y_man x) o)) m)) l.
Proof.
  intros vts junk http_time k U A maxPost u l x H o m G T.
  pose proof (callback_once vts junk http_time k A maxPost u (fun m' => if message_dec m' m then true else false)
    (o_rid (s_objs (y_man x) o))) as C.
  specialize (C ltac:(intros m' E; cbn in E; destruct (message_dec m' m); [now subst|discriminate]) l x H).
  apply pushed_logged in G. unfold deliveries, callbacks in C.
  assert (D : 0 < length (filter (fun e => match e with
      | EPushed o0 m0 => rid_eqb (o_rid (s_objs (y_man x) o0)) (o_rid (s_objs (y_man x) o)) && (if message_dec m0 m then true else false)
      | _ => false end) (s_log (y_man x)))).
  { assert (Y : forall T (f : T -> bool) e l, In e l -> f e = true -> 0 < length (filter f l)).
    { clear. intros T f e l Y E. assert (Z : In e (filter f l)) by (apply filter_In; auto). destruct (filter f l); [contradiction|cbn; lia]. }
    eapply Y; [exact G|]. cbn. unfold rid_eqb. rewrite !N.eqb_refl. cbn. destruct (message_dec m m); [reflexivity|contradiction]. }
  match type of C with _ <= length ?L => destruct L as [|v L'] eqn:F end; [cbn in C; lia|].
  assert (Y : In v (v :: L')) by now left. rewrite <- F in Y. apply filter_In in Y. destruct Y as [Y1 Y2].
  destruct v as [| |t a|]; try discriminate. destruct a as [| |i m'| | | |]; try discriminate.
  apply andb_prop in Y2. destruct Y2 as [Y2 Y3]. destruct (message_dec m' m) as [->|]; [|discriminate].
  exists t. unfold rid_eqb in Y2. apply andb_prop in Y2. destruct Y2 as [Y4 Y5]. apply N.eqb_eq in Y4, Y5.
  assert (i = o_rid (s_objs (y_man x) o)) as <- by (destruct i, (o_rid _); cbn in *; congruence). exact Y1.
Qed.
