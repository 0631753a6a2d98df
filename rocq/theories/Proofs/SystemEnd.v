(** The whole server: why requests end, and what the application sees. *)
From Coq Require Import String List NArith ZArith Bool Arith Lia.
From Verif Require Import Model.Base Model.Endian Model.Protocol Model.Transceiver Model.RequestMap Model.Streams Model.Environment
  Model.Management Model.Manager Model.Request Model.System
  Spec.EndianSpec Spec.WireSpec Spec.EnvironmentSpec Spec.RequestSpec Spec.TransceiverSpec Spec.ManagerSpec Spec.SystemSpec
  Proofs.RequestMapProofs Proofs.ManagerProofs Proofs.ManagerStep Proofs.ManagerFacts Proofs.ManagerHist Proofs.ManagerUse
  Proofs.RequestProofs Proofs.SystemProofs Proofs.SystemFlow Proofs.SystemWork.
From Verif Require Proofs.TransceiverProofs.
Import ListNotations.

(** * Why a request ends *)
Definition leaving (b : bpc) : option (rid * nat) :=
  match b with HDrop id o | HWant id o | HErase1 id o | HErase2 id o => Some (id, o) | _ => None end.

Definition ends (s : Manager.state message) : Prop :=
  (forall t id o, tb s t = HRet id o false -> In (NComplete o) (s_hist s)) /\
  (forall t id o, leaving (tb s t) = Some (id, o) -> In (NComplete o) (s_hist s) \/ In (r_socket id) (s_invalid s)) /\
  (forall o, In (EEnded o) (s_log s) -> In (NComplete o) (s_hist s) \/ In (r_socket (o_rid (ob s o))) (s_invalid s)).

Lemma hist_more : forall (s : Manager.state message) t a s', Manager.step begins t a s = Some s' -> exists l, s_hist s' = s_hist s ++ l.
Proof.
  intros s t a s' H. destruct (step_hist begins s t a s' H); try (eexists; eassumption). exists []. now rewrite app_nil_r.
Qed.
Lemma notify_invalid : forall s : Manager.state message, s_invalid (notify_all message s) = s_invalid s.
Proof. intro s; exact (proj1 (proj2 (proj2 (proj2 (proj2 (proj2 (proj2 (proj2 (proj2 (proj2 (proj2 (all_fields (s_waiters s) s)))))))))))). Qed.
Lemma invalid_more : forall (s : Manager.state message) t a s' sk, Manager.step begins t a s = Some s' -> In sk (s_invalid s) -> In sk (s_invalid s').
Proof.
  intros s t a s' sk H IN.
  cases H S0 P0 B0; cbn -[notify_all]; rewrite ?notify_invalid; auto; cbn; auto.
Qed.
Lemma invalid_new : forall (s : Manager.state message) t a s' sk, Manager.step begins t a s = Some s' -> In sk (s_invalid s') ->
  In sk (s_invalid s) \/ a = AClose sk.
Proof.
  intros s t a s' sk H IN.
  cases H S0 P0 B0; cbn -[notify_all] in IN; rewrite ?notify_invalid in IN; auto; cbn in IN; auto.
  destruct IN as [<-|IN]; auto.
Qed.

Lemma ret_complete : forall (s : Manager.state message) t a s' id o, inv s -> Manager.step begins t a s = Some s' ->
  tb s' t = HRet id o false -> tb s t = HRet id o false \/ In (NComplete o) (s_hist s').
Proof.
  intros s t a s' id o I H E. destruct (step_own begins s t a s' I H) as [X|[[X Y]|[_ F]]]; [left; congruence|congruence|].
  rewrite E in F. assert (B : tb s t = RProc id o) by (inversion F; congruence). right.
  pose proof (step_wmove s t a s' I H) as WM. destruct WM as [| c i o' PA PB PW PR PL PH PX |PW]; [congruence| |].
  - rewrite PH. assert (o' = o) as -> by congruence. destruct c; [apply in_or_app; right; left; reflexivity|].
    exfalso. subst a. cbn in H. rewrite PB in H. destruct (ts s t); [discriminate|]. destruct (tp s t); [discriminate|].
    unfold touch in H. destruct (o_alive _); [|discriminate]. injection H as <-. cbn in E. rewrite fupd_same in E. discriminate.
  - rewrite E, B in PW. discriminate.
Qed.

Lemma ends_step : forall (s : Manager.state message) t a s', inv s -> fate s -> ends s -> Manager.step begins t a s = Some s' -> ends s'.
Proof.
  intros s t a s' I FA (E1 & E2 & E3) H.
  destruct (hist_more _ _ _ _ H) as (l & HH).
  assert (HC : forall o, In (NComplete o) (s_hist s) -> In (NComplete o) (s_hist s')) by (intros o X; rewrite HH; apply in_or_app; auto).
  pose proof (fun sk => invalid_more _ _ _ _ sk H) as HI.
  split; [|split].
  - intros t' id o E. destruct (Nat.eq_dec t' t) as [->|N].
    + destruct (ret_complete _ _ _ _ _ _ I H E) as [X|X]; eauto.
    + destruct (step_others begins _ _ _ _ I H t' N) as [X|[_ X]]; rewrite X in E; [eauto|discriminate].
  - intros t' id o E. destruct (Nat.eq_dec t' t) as [->|N].
    + destruct (step_own begins s t a s' I H) as [X|[[X Y]|[_ F]]].
      * rewrite X in E. destruct (E2 _ _ _ E); auto.
      * rewrite Y in E. discriminate.
      * remember (tb s t) as b0 eqn:B0. remember (tb s' t) as b1 eqn:B1. symmetry in B0.
        destruct F; try discriminate E; cbn in E; injection E as <- <-.
        -- left. eauto.
        -- right. apply HI. unfold valid in H0. apply negb_false_iff, existsb_exists in H0. destruct H0 as (y & Y1 & Y2).
           apply N.eqb_eq in Y2. now subst.
        -- destruct (E2 t id0 o0); [now rewrite B0|auto..].
        -- destruct (E2 t id0 o0); [now rewrite B0|auto..].
        -- destruct (E2 t id0 o0); [now rewrite B0|auto..].
    + destruct (step_others begins _ _ _ _ I H t' N) as [X|[_ X]]; rewrite X in E; [|discriminate]. destruct (E2 _ _ _ E); auto.
  - intros o E.
    assert (RID : o < s_next s -> o_rid (ob s' o) = o_rid (ob s o)) by (intro L; eapply step_rid; eauto).
    assert (OLD : In (EEnded o) (s_log s) -> In (NComplete o) (s_hist s') \/ In (r_socket (o_rid (ob s' o))) (s_invalid s')).
    { intro X. destruct FA as (_ & _ & FA). destruct (FA o X) as [L _]. rewrite RID by exact L. destruct (E3 o X); auto. }
    destruct (step_effect begins _ _ _ _ H) as [L|? ? ? ? ? ? ? ? ? L|? ? ? ? ? ? ? L|? ? ? ? ? ? L|i o' P B AL P' B' L L1 L2 L3 L4|? ? ? ? ? ? ? ? L];
      rewrite L in E; try (apply in_app_or in E; destruct E as [E|[E|[]]]; [auto|try discriminate E]); auto.
    injection E as ->. destruct (E2 t i o); [now rewrite B|auto|]. right. apply HI. rewrite L4.
    assert (o_rid (ob s o) = i) as -> by (apply (i_obj s I t); now rewrite B). assumption.
Qed.
Lemma ends_reachable : forall s, reachable begins s -> ends s.
Proof.
  intros s R. enough (fate s /\ ends s) by tauto. revert s R. apply reach_ind.
  - split; [apply (fate_reachable begins); exists []; reflexivity|]. split; [|split]; cbn; try discriminate; intros; contradiction.
  - intros s t a s' I [F E] S. split; [eapply fate_step; eauto|eapply ends_step; eauto].
Qed.

(** * Connections that are gone stay gone *)
Definition gone (n : trx) (s : N) : Prop := s_born (t_socks n s) = true /\ s_valid (t_socks n s) = false.

Lemma fset_if : forall {T} (f : N -> T) s v s', fset f s v s' = if (s' =? s)%N then v else f s'.
Proof. reflexivity. Qed.

Lemma read_gone : forall o s b n r n' s0, read_more o s b n = Val (r, n') -> gone n s0 -> gone n' s0.
Proof.
  intros o s b n r n' s0 H G; unfold read_more in H.
  destruct (sock_read o (Block.b_reserve b - Block.b_size b) (t_socks n s)) as [w sk] eqn:E.
  assert (Q : s_born (fset (t_socks n) s sk s0) = true /\ s_valid (fset (t_socks n) s sk s0) = false).
  { destruct G as [G1 G2]. rewrite fset_if. destruct (N.eqb_spec s0 s) as [->|]; [|auto]. unfold sock_read in E. rewrite G2 in E. cbn in E. injection E as _ <-. auto. }
  destruct w as [bytes|].
  - destruct (Block.b_store _ _ _); [|discriminate]; cbn [obind] in H; destruct (Block.b_setSize _ _); [|discriminate].
    cbn [obind] in H; injection H as _ <-. exact Q.
  - injection H as _ <-. unfold gone. cbn. rewrite fset_if. destruct (N.eqb_spec s0 s) as [->|]; [|exact Q].
    unfold sock_close; cbn; rewrite fset_if in *; rewrite N.eqb_refl in *; cbn; tauto.
Qed.
Lemma body_gone : forall o s b n n' s0, receive_body o s b n = Val n' -> gone n s0 -> gone n' s0.
Proof.
  intros o s b n n' s0 H G; unfold receive_body in H.
  destruct (if (Block.b_size b =? 8)%nat then _ else _) as [b1|]; [|discriminate]; cbn [obind] in H.
  destruct (read_more o s b1 n) as [[r n1]|] eqn:E; [|discriminate]; cbn [obind] in H. apply (read_gone _ _ _ _ _ _ s0) in E; [|exact G].
  destruct r as [b2|]; [|injection H as <-; exact E]. destruct (_ <? _); [injection H as <-; exact E|].
  destruct (h_fcgiId b2); [|discriminate]; cbn [obind] in H; injection H as <-. exact E.
Qed.
Lemma gone_step : forall e n n' s0, tstep e n = Some (Val n') -> gone n s0 -> gone n' s0.
Proof.
  intros e n n' s0 H G. pose proof G as [G1 G2].
  destruct e as [s|s bytes|s data kill|p|o1 o2| |o| |]; cbn in H.
  - destruct (t_pc n); try discriminate; destruct (s_born (t_socks n s)) eqn:B; [discriminate|]; injection H as <-; unfold gone; cbn; rewrite fset_if.
    destruct (N.eqb_spec s0 s) as [->|]; [congruence|auto].
  - destruct (s_valid (t_socks n s)) eqn:V; [|discriminate]. injection H as <-; unfold gone; cbn; rewrite fset_if.
    destruct (N.eqb_spec s0 s) as [->|]; [congruence|auto].
  - destruct (s_born (t_socks n s)); [|discriminate]. injection H as <-. exact G.
  - destruct p as [[s h]|].
    + destruct (t_pc n); try discriminate; destruct (s_valid (t_socks n s)) eqn:V; [|discriminate]. injection H as <-; unfold gone; cbn; rewrite fset_if.
      destruct (N.eqb_spec s0 s) as [->|]; [congruence|auto].
    + destruct (t_pc n); try discriminate; injection H as <-; exact G.
  - destruct (t_pc n) as [|[s|]| | |]; try discriminate.
    2: injection H as <-; exact G.
    destruct (receive o1 o2 s n) as [n1|] eqn:E; [|discriminate]; cbn [obind] in H; injection H as <-; unfold gone; cbn [set_pc t_socks].
    change (gone n1 s0).
    unfold receive in E; destruct (negb _); [injection E as <-; exact G|].
    destruct (_ <? _); [|eapply body_gone; eauto]. destruct (Block.b_setReserve _ _); [|discriminate]; cbn [obind] in E.
    destruct (read_more o1 s _ n) as [[r n2]|] eqn:R; [|discriminate]; cbn [obind] in E. apply (read_gone _ _ _ _ _ _ s0) in R; [|exact G].
    destruct r as [b2|]; [|injection E as <-; exact R]. destruct (_ <? _); [injection E as <-; exact R|].
    eapply body_gone; eauto.
  - destruct (t_pc n); try discriminate; destruct (t_queue n); [discriminate|]; injection H as <-; exact G.
  - destruct (t_pc n) as [| | |r|]; try discriminate.
    destruct (sock_write o (skipn (x_read r) (x_data r)) (t_socks n (x_sock r))) as [w sk] eqn:E.
    assert (Q : s_born (fset (t_socks n) (x_sock r) sk s0) = true /\ s_valid (fset (t_socks n) (x_sock r) sk s0) = false).
    { rewrite fset_if. destruct (N.eqb_spec s0 (x_sock r)) as [->|]; [|auto]. unfold sock_write in E. rewrite G2 in E. cbn in E. injection E as _ <-. auto. }
    destruct w as [c|]; [|injection H as <-; exact Q].
    destruct (negb _); [injection H as <-; exact Q|]. destruct (x_kill r); [|injection H as <-; exact Q].
    injection H as <-. unfold gone; cbn. rewrite fset_if in *. destruct (N.eqb_spec s0 (x_sock r)) as [->|]; [cbn; tauto|exact G].
  - destruct (t_pc n); try discriminate; injection H as <-; exact G.
  - destruct (t_pc n); try discriminate; destruct (t_queue n); [|discriminate]; injection H as <-; exact G.
Qed.

(** * Connections reported lost *)
Definition bad_push (p : option (ppc message)) : option N :=
  match p with
  | Some (PBadWant sk) | Some (PBad sk _) => Some sk
  | Some (PStart id _) => if N.eqb (r_id id) 65535 then Some (r_socket id) else None
  | _ => None
  end.

Section End.
Variable vts : list N -> list N -> list N.
Variable junk : nat -> list N.
Variable http_time : list N -> Z.
Variable k : chars.
Context {U : Type}.
Variable A : application U.
Variable maxPost : N.
Variable u : U.
Notation sys := (System.sys (U := U)).
Notation sreach := (SystemSpec.sreach vts junk http_time k A maxPost u).
Notation sshape := (SystemProofs.sshape vts junk http_time k A maxPost u).
Notation wshape := (SystemProofs.wshape vts junk http_time k A maxPost u).
Notation rstep := (Request.step vts junk http_time k A).
Notation handler := (Request.handler vts junk http_time k A).
Notation mstep := (Manager.step begins).
Notation flowI := (SystemFlow.flowI maxPost).
Notation rid_of x o := (o_rid (ob (y_man x) o)).
Notation next x := (s_next (y_man x)).

Definition told (x : sys) (sk : N) : Prop := exists p, In p (inbox x) /\ r_socket (fst p) = sk /\ r_id (fst p) = 65535%N.

Record lossI (x : sys) : Prop := mkLoss {
  l_push : forall t sk, bad_push (tp (y_man x) t) = Some sk -> told x sk;
  l_lost : forall o sk, In (ELost o sk) (s_log (y_man x)) -> told x sk;
  l_gone : forall sk, In sk (s_invalid (y_man x)) -> gone (y_net x) sk
}.

Lemma step_bad : forall s t a s', mstep t a s = Some s' -> forall sk, bad_push (tp s' t) = Some sk ->
  bad_push (tp s t) = Some sk \/ exists id m, a = APush id m /\ r_id id = 65535%N /\ r_socket id = sk.
Proof.
  intros s t a s' H sk B.
  destruct (step_pushes begins s t a s' H) as [E|F]; [left; congruence|].
  remember (tp s t) as p0 eqn:E0. remember (tp s' t) as p1 eqn:E1. destruct F; try discriminate B; cbn in B; auto.
  - right. cases H S0 P0 B0; cbn in E1; rewrite ?fupd_same in E1; cbn in E1; try congruence.
    + rewrite (proj1 (all_threads _ _ _)) in E1. cbn in E1. congruence.
    + unfold notify_all in E1. rewrite (proj1 (all_threads _ _ _)) in E1. congruence.
    + injection E1 as <- <-. destruct (N.eqb_spec (r_id id) 65535); [|discriminate]. injection B as <-. eauto.
    + injection E1 as <- <-. destruct (N.eqb_spec (r_id id) 65535); [|discriminate]. injection B as <-. eauto.
  - left. cbn. rewrite H0. exact B.
Qed.

Lemma told_more : forall (x x' : sys) l sk, t_msgs (y_net x') = t_msgs (y_net x) ++ l -> told x sk -> told x' sk.
Proof. intros x x' l sk E (p & P1 & P2); exists p; split; [|exact P2]. unfold inbox in *. rewrite E, map_app. apply in_or_app; auto. Qed.

Lemma loss_step : forall x x', parts x -> flowI x -> lossI x -> sshape x x' -> lossI x'.
Proof.
  intros x x' (T & R & B & FE) F [L1 L2 L3] S. pose proof (inv_reachable begins _ R) as I. destruct S.
  - destruct (msgs_grow _ _ _ H1) as (l & E). constructor; cbn; intros.
    + eapply told_more; eauto.
    + eapply told_more; eauto.
    + eapply gone_step; eauto.
  - destruct (push_call _ _ _ _ _ H0) as [P ->]. constructor; cbn; auto.
    intros t sk. unfold fupd. destruct (Nat.eqb_spec t 0); cbn; [|apply L1].
    destruct (N.eqb_spec (r_id (fst (push_of p))) 65535); [|discriminate]. intro E; injection E as <-.
    exists (push_of p). split; [|auto]. unfold inbox. cbn. apply in_map. eapply nth_error_In; eauto.
  - destruct (wshape_net _ _ _ _ _ _ _ _ _ _ _ H1) as (EN & EM & EF & _).
    assert (TT : forall sk, told (with_man m x1) sk <-> told x sk) by (intro sk; unfold told, inbox; cbn; now rewrite EN).
    assert (LP : forall t' sk, bad_push (tp m t') = Some sk -> told x sk).
    { intros t' sk X. destruct (Nat.eq_dec t' t) as [->|N].
      - destruct (step_bad _ _ _ _ H0 sk X) as [Y|(id & mm & -> & Y1 & Y2)]; [eapply L1; eauto|exfalso].
        cbn in H. apply andb_true_iff in H as [_ H]. apply existsb_exists in H as (o & O1 & O2). apply in_seq in O1.
        apply andb_true_iff in O2 as [_ O2]. apply N.eqb_eq in O2. destruct (f_id _ x F o) as [_ Q]; [lia|congruence].
      - rewrite (step_other_push begins _ _ _ _ I H0 t' N) in X. eapply L1; eauto. }
    constructor.
    + intros t' sk X. apply TT. exact (LP t' sk X).
    + intros o sk X. apply TT. cbn in X.
      destruct (step_effect begins _ _ _ _ H0) as [L|? ? ? ? ? ? ? ? ? L|? ? ? ? ? ? ? L|? ? ? ? ? ? L|? ? ? ? ? ? ? L|sk' k0 o' todo P AL MU P' L];
        rewrite L in X; try (apply in_app_or in X; destruct X as [X|[X|[]]]; [eauto|try discriminate X]); eauto.
      injection X as <- <-. apply (L1 t). rewrite P. reflexivity.
    + intros sk X. cbn in X. cbn. rewrite EN. destruct (invalid_new _ _ _ _ _ H0 X) as [Y|Y]; [auto|]. subst a.
      cbn in H. apply andb_true_iff in H as [V1 V2]. apply negb_true_iff in V2. split; assumption.
  - destruct (msgs_grow _ _ _ H3) as (l & E). constructor; cbn; intros.
    + eapply told_more; eauto.
    + eapply told_more; eauto.
    + eapply gone_step; eauto.
Qed.
Lemma loss_reach : forall x, sreach x -> lossI x.
Proof.
  intros x R. enough (flowI x /\ lossI x) by tauto. revert x R.
  apply sreach_ind'.
  - split; [apply (flow_reach vts junk http_time k A maxPost u); exists []; reflexivity|].
    constructor; cbn; try discriminate; contradiction.
  - intros x x' PA [F W] S; split; [eapply flow_step; eauto|eapply loss_step; eauto].
Qed.

(** * The records on the wire *)
Lemma whole_nonempty : forall id r, whole_record id r -> r <> [].
Proof. intros id r (v & t & c & p & q & _ & _ & _ & ->). discriminate. Qed.

Lemma wire_prefix : forall recs recs' rest more, Forall (fun '(id, r) => whole_record id r) recs ->
  Forall (fun '(id, r) => whole_record id r) recs' ->
  concat (map snd recs) = (concat (map snd recs') ++ rest) ++ more -> exists tl, recs = recs' ++ tl.
Proof.
  intros recs recs'; revert recs. induction recs' as [|[i r] recs' IH]; intros recs rest more W W' E; [exists recs; reflexivity|].
  inversion W' as [|? ? W1 W2]; subst. destruct recs as [|[i0 r0] recs].
  - exfalso. cbn in E. apply (f_equal (@length N)) in E. rewrite !app_length in E. cbn in E. apply whole_nonempty in W1. destruct r; [contradiction|cbn in E; lia].
  - inversion W as [|? ? V1 V2]; subst. cbn in E. rewrite <- !app_assoc in E.
    destruct (TransceiverProofs.whole_split _ _ _ _ _ _ V1 W1 E) as (-> & E' & ->).
    rewrite app_assoc in E'. destruct (IH recs rest more V2 W2 E') as (tl & ->). exists tl. reflexivity.
Qed.

Lemma bytes_known : forall r, bytes_of (known r) = r.
Proof. intro r; unfold bytes_of, known. rewrite map_map. apply map_id. Qed.

Lemma inbox_records : forall s i (ms : list msg) recs, i <> 65535%N ->
  filter (is_rec_of s) ms = map (fun '(id, r) => MRecord id s (known r)) recs ->
  for_rid (mkRid s i) (map push_of ms) = records_for i recs.
Proof.
  intros s i ms recs N0. revert recs. induction ms as [|m ms IH]; intros recs E; cbn in E.
  - destruct recs; [reflexivity|discriminate].
  - change (map push_of (m :: ms)) with ([push_of m] ++ map push_of ms). rewrite for_rid_app.
    destruct m as [id s' data|s']; cbn in E.
    + destruct (N.eqb_spec s' s) as [->|NS].
      * destruct recs as [|[id' r] recs]; [discriminate|]. cbn in E. injection E as -> -> E.
        rewrite (IH recs E). unfold records_for. cbn [push_of filter fst map]. destruct (N.eqb_spec id' i) as [->|NI].
        -- rewrite for_rid_one. cbn. now rewrite bytes_known.
        -- rewrite for_rid_other by congruence. reflexivity.
      * rewrite <- (IH recs E). cbn [push_of]. rewrite for_rid_other by congruence. reflexivity.
    + rewrite <- (IH recs E). cbn [push_of]. rewrite for_rid_other by congruence. reflexivity.
Qed.

Lemma wire_inbox : forall (x : sys) s i recs, parts x -> Forall ev_ok (y_tr x) -> on_wire x s recs -> i <> 65535%N ->
  exists tl, records_for i recs = for_rid (mkRid s i) (inbox x) ++ tl.
Proof.
  intros x s i recs (T & _) EV [W (more & E)] N0.
  destruct (TransceiverProofs.reassembly _ _ s T EV) as (recs' & rest & E1 & E2 & E3 & _).
  rewrite E1 in E. destruct (wire_prefix recs recs' rest more W E3 E) as (tl & ->).
  exists (records_for i tl). unfold inbox. rewrite (inbox_records s i _ recs' N0 E2). unfold records_for. now rewrite filter_app, map_app.
Qed.

Lemma before_at : forall (x : sys) o, y_fed x <= length (t_msgs (y_net x)) -> flowI x -> o < next x ->
  before x o = for_rid (rid_of x o) (firstn (y_at x o) (settled x)).
Proof.
  intros x o FE F L. unfold before. f_equal. unfold settled. rewrite firstn_firstn. f_equal.
  pose proof (f_at _ x F o L) as Q. rewrite (settled_length x FE) in Q. lia.
Qed.

(** * What a request handles *)
Lemma handled_is : forall x, sreach x -> Forall ev_ok (y_tr x) -> forall s recs i o, on_wire x s recs -> is_request x o (mkRid s i) ->
  exists earlier mb later b,
    records_for i recs = earlier ++ mb :: records_only (given x o) ++ later /\ before x o = earlier ++ [mb] /\
    begins mb = true /\ begin_config maxPost (mkRid s i) mb = Some (y_cfg x o) /\
    (exists waiting, given x o = handled x o ++ waiting) /\
    handler (y_cfg x o) (handled x o) (rq_init u) = Done (b, [], y_rq x o).
Proof.
  intros x R EV s recs i o W [O1 O2].
  pose proof (parts_reach _ _ _ _ _ _ _ x R) as PA. pose proof (flow_reach _ _ _ _ _ _ _ x R) as F. pose proof (work_reach _ _ _ _ _ _ _ x R) as WK.
  pose proof PA as (T & RM & B & FE).
  destruct (f_id _ x F o O1) as [N0 N1]. rewrite O2 in N0, N1. cbn in N0, N1.
  destruct (wire_inbox x s i recs PA EV W N1) as (tl & E).
  destruct (f_pre _ x F o O1) as (pre & mb & P1 & P2 & P3). destruct (f_got _ x F o O1) as (rest & G1 & G2).
  destruct (w_run _ _ _ _ _ _ x WK o O1) as (b & H1 & _).
  assert (BE : before x o = pre ++ [mb]) by (rewrite (before_at x o FE F O1); exact P1).
  rewrite O2 in *.
  assert (SE : for_rid (mkRid s i) (settled x) = pre ++ mb :: records_only (given x o) ++ rest).
  { rewrite <- (firstn_skipn (y_at x o) (settled x)), for_rid_app, P1, G1, <- app_assoc. reflexivity. }
  exists pre, mb, (rest ++ for_rid (mkRid s i) (skipn (y_fed x - busy x) (inbox x)) ++ tl), b.
  split; [|split; [exact BE|split; [exact P2|split; [exact P3|split; [|exact H1]]]]].
  - assert (Q : for_rid (mkRid s i) (inbox x) = for_rid (mkRid s i) (settled x) ++ for_rid (mkRid s i) (skipn (y_fed x - busy x) (inbox x)))
      by (unfold settled; now rewrite <- for_rid_app, firstn_skipn).
    rewrite E, Q, SE. rewrite <- !app_assoc. cbn. now rewrite <- !app_assoc.
  - exact (prefix_only begins _ RM o).
Qed.
End End.
