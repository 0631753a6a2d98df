From Coq Require Import String List NArith ZArith Arith Lia ZifyBool ZifyNat ZifyN Bool.
From Verif Require Import Model.Base Model.Endian Model.Protocol Model.Block Model.Transceiver
  Spec.EndianSpec Spec.WireSpec Spec.TransceiverSpec
  Proofs.EndianProofs Proofs.ProtocolProofs Proofs.BlockProofs Proofs.ReceiveProofs.
Import ListNotations.
Local Open Scope nat_scope.

Lemma peer_app : forall s a b, peer_bytes s (a ++ b) = peer_bytes s a ++ peer_bytes s b.
Proof.
  intros s a b. induction a as [|e a IH]; [reflexivity|].
  destruct e; cbn [app peer_bytes]; rewrite ?IH, ?app_assoc; reflexivity.
Qed.

Lemma sends_app : forall s a b, sends s (a ++ b) = sends s a ++ sends s b.
Proof.
  intros s a b. induction a as [|e a IH]; [reflexivity|].
  destruct e; cbn [app sends]; rewrite ?IH, ?app_assoc; reflexivity.
Qed.

Lemma msgs_app : forall s a b, msgs_of s (a ++ b) = msgs_of s a ++ msgs_of s b.
Proof. intros. apply filter_app. Qed.

(** ** Input *)
Definition mkrec (s : N) (r : list N) : msg :=
  MRecord (be_value (firstn 2 (skipn 2 r))) s (known r).

Record Rinv (tr : list tev) (st : trx) (s : N) : Prop := {
  r_bytes : bytes_ok (s_in (t_socks st s));
  r_unborn : s_born (t_socks st s) = false ->
    s_valid (t_socks st s) = false /\ peer_bytes s tr = [] /\ msgs_of s (t_msgs st) = [] /\
    t_bufs st s = b_empty;
  r_main : exists recs rest,
    peer_bytes s tr = concat recs ++ rest /\
    Forall (fun r => complete r /\ bytes_ok r) recs /\
    (msgs_of s (t_msgs st) = map (mkrec s) recs \/
     (s_valid (t_socks st s) = false /\ t_bufs st s = b_empty /\
      msgs_of s (t_msgs st) = map (mkrec s) recs ++ [MClosed s])) /\
    (s_valid (t_socks st s) = true ->
     msgs_of s (t_msgs st) = map (mkrec s) recs /\
     exists l, rest = l ++ s_in (t_socks st s) /\ rest_inv (t_bufs st s) l)
}.

Lemma Rinv_init : forall s, Rinv [] t_init s.
Proof.
  intros s. split; cbn; [constructor|auto|]. exists [], []. cbn. repeat split; auto; discriminate.
Qed.

Lemma Rinv_quiet : forall tr e st st' s, Rinv tr st s ->
  peer_bytes s (tr ++ [e]) = peer_bytes s tr -> msgs_of s (t_msgs st') = msgs_of s (t_msgs st) ->
  s_in (t_socks st' s) = s_in (t_socks st s) -> s_born (t_socks st' s) = s_born (t_socks st s) ->
  (s_valid (t_socks st' s) = s_valid (t_socks st s) \/ s_valid (t_socks st' s) = false) ->
  (t_bufs st' s = t_bufs st s \/ (s_valid (t_socks st' s) = false /\ t_bufs st' s = b_empty)) ->
  Rinv (tr ++ [e]) st' s.
Proof.
  intros tr e st st' s [HB HU (recs & rest & M1 & M2 & M3 & M4)] E1 E2 E3 E4 E5 E6. split.
  - now rewrite E3.
  - rewrite E4, E1, E2. intros U. destruct (HU U) as (U1 & U2 & U3 & U4).
    repeat split; auto.
    + destruct E5 as [->| ->]; auto.
    + destruct E6 as [->|[_ ->]]; auto.
  - exists recs, rest. rewrite E1, E2, E3. split; auto. split; auto. split.
    + destruct M3 as [M3|(V & B & M3)]; [now left|right].
      split; [destruct E5 as [->| ->]; auto|]. split; auto. destruct E6 as [->|[_ ->]]; auto.
    + intros V. destruct E5 as [E5|E5]; [|congruence]. rewrite E5 in V.
      destruct E6 as [->|[F _]]; [auto|congruence].
Qed.

Lemma recv_Rinv : forall tr e st st' s x, Rinv tr st s ->
  s_valid (t_socks st x) = true ->
  (forall y, peer_bytes y (tr ++ [e]) = peer_bytes y tr) ->
  (x = s -> forall l, rest_inv (t_bufs st s) l -> received s l st st') ->
  (x <> s -> frame x st st' /\ msgs_of s (t_msgs st') = msgs_of s (t_msgs st)) ->
  Rinv (tr ++ [e]) st' s.
Proof.
  intros tr e st st' s x HI HV HP HR HN.
  destruct (N.eq_dec x s) as [->|NE].
  - destruct HI as [HB HU (recs & rest & M1 & M2 & M3 & M4)].
    destruct (M4 HV) as (MM & l & -> & RI).
    destruct (HR eq_refl l RI) as (HF & [HC|(d & HT & HD)]).
    + destruct HC as (C1 & C2 & C3 & C4 & (d & C5) & C6 & C7). split.
      * rewrite C5 in HB. apply Forall_app in HB. apply HB.
      * rewrite C2. intros U. apply HU in U. destruct U. congruence.
      * exists recs. eexists. rewrite HP. split; [exact M1|]. split; auto. split; [|congruence].
        right. split; auto. split; auto. rewrite C7, msgs_app, MM.
        cbn [msgs_of filter msg_of]. now rewrite N.eqb_refl.
    + destruct HT as (T1 & T2 & T3 & T4 & T5).
      destruct HD as [(RI' & MS)|(CO & BO & BE & MS)]; split.
      * rewrite T1 in HB. apply Forall_app in HB. apply HB.
      * rewrite T2. intros U. apply HU in U. destruct U. congruence.
      * exists recs. eexists. rewrite HP. split; [exact M1|]. split; auto. rewrite MS.
        split; [now left|]. intros _. split; auto. exists (l ++ d). split; auto.
        now rewrite T1, app_assoc.
      * rewrite T1 in HB. apply Forall_app in HB. apply HB.
      * rewrite T2. intros U. apply HU in U. destruct U. congruence.
      * exists (recs ++ [l ++ d]), (s_in (t_socks st' s)). rewrite HP, concat_app. cbn [concat].
        rewrite M1, T1, app_nil_r, <- !app_assoc. split; [reflexivity|].
        split; [apply Forall_app; auto|].
        assert (MS' : msgs_of s (t_msgs st') = map (mkrec s) (recs ++ [l ++ d])).
        { rewrite MS, msgs_app, MM, map_app. cbn [msgs_of filter msg_of map].
          now rewrite N.eqb_refl. }
        split; [now left|]. intros _. split; auto. exists []. split; auto. rewrite BE. apply rest_empty.
  - destruct (HN NE) as ((F1 & F2 & F3) & FM).
    apply (Rinv_quiet tr e st st' s); auto; rewrite ?F1, ?F2 by auto; auto.
Qed.

Lemma received_other : forall x s l st st', received x l st st' -> x <> s ->
  frame x st st' /\ msgs_of s (t_msgs st') = msgs_of s (t_msgs st).
Proof.
  intros x s l st st' (HF & H) NE. split; auto.
  assert (E : forall m, msg_of s m = false -> msgs_of s (t_msgs st ++ [m]) = msgs_of s (t_msgs st)).
  { intros m Hm. rewrite msgs_app. cbn. rewrite Hm. apply app_nil_r. }
  assert (X : (x =? s)%N = false) by (apply N.eqb_neq; auto).
  destruct H as [(_ & _ & _ & _ & _ & _ & ->)|(d & _ & [(_ & ->)|(_ & _ & _ & ->)])]; auto.
Qed.

(** What one event does, with the undefined outcomes excluded. *)
Lemma tstep_Rinv : forall tr e st r, (forall s, Rinv tr st s) -> ev_ok e ->
  tstep e st = Some r -> exists st', r = Val st' /\ forall s, Rinv (tr ++ [e]) st' s.
Proof.
  intros tr e st r HI HE HS.
  assert (PB : forall s, (match e with EPeer _ _ => False | _ => True end) ->
     peer_bytes s (tr ++ [e]) = peer_bytes s tr).
  { intros s H. rewrite peer_app. destruct e; cbn; try apply app_nil_r. contradiction. }
  destruct e as [s|s bytes|s data kill|p|o1 o2| |o| |].
  - cbn in HS. destruct (t_pc st); try discriminate.
    destruct (s_born (t_socks st s)) eqn:B; [discriminate|]. injection HS as <-.
    eexists. split; [reflexivity|]. intros x. destruct (N.eq_dec x s) as [->|NE].
    + destruct (HI s) as [_ HU _]. destruct (HU B) as (U1 & U2 & U3 & U4).
      split; cbn [set_sock t_socks t_bufs t_msgs]; rewrite fset_same; cbn [s_in s_born s_valid].
      * constructor.
      * discriminate.
      * exists [], []. rewrite PB, U2, U3, U4 by exact I. repeat split; auto.
        exists []. split; [reflexivity|apply rest_empty].
    + apply (Rinv_quiet tr _ st _ x); auto; cbn [set_sock t_socks t_bufs t_msgs]; rewrite ?fset_other by auto; auto.
  - cbn in HS. destruct (s_valid (t_socks st s)) eqn:V; [|discriminate]. injection HS as <-.
    eexists. split; [reflexivity|]. intros x. destruct (N.eq_dec x s) as [->|NE].
    + destruct (HI s) as [HB HU (recs & rest & M1 & M2 & M3 & M4)].
      split; cbn [set_sock t_socks t_bufs t_msgs]; rewrite fset_same; cbn [s_in s_born s_valid].
      * apply Forall_app. auto.
      * intros U. apply HU in U. destruct U; congruence.
      * exists recs, (rest ++ bytes). rewrite peer_app. cbn [peer_bytes]. rewrite N.eqb_refl, app_nil_r.
        rewrite M1, app_assoc. split; auto. split; auto. split.
        { destruct M3 as [M3|(F & _)]; [auto|congruence]. }
        intros _. destruct (M4 V) as (MM & l & -> & RI). split; auto. exists l. split; auto.
        now rewrite app_assoc.
    + apply (Rinv_quiet tr _ st _ x); auto; cbn [set_sock t_socks t_bufs t_msgs]; rewrite ?fset_other by auto; auto.
      rewrite peer_app. cbn [peer_bytes]. destruct (N.eqb_spec s x); [congruence|]. apply app_nil_r.
  - cbn in HS. destruct (s_born (t_socks st s)); [|discriminate]. injection HS as <-.
    eexists. split; [reflexivity|]. intros x. apply (Rinv_quiet tr _ st _ x); auto; apply PB; exact I.
  - cbn in HS. destruct p as [[s hup]|].
    + destruct (t_pc st); try discriminate. destruct (s_valid (t_socks st s)) eqn:V; [|discriminate].
      injection HS as <-. eexists. split; [reflexivity|]. intros x.
      apply (Rinv_quiet tr _ st _ x); auto; cbn [set_pc set_sock t_socks t_bufs t_msgs];
      (destruct (N.eq_dec x s) as [->|NE]; [rewrite ?fset_same|rewrite ?fset_other by auto]; auto).
    + destruct (t_pc st); try discriminate. injection HS as <-. eexists. split; [reflexivity|].
      intros x. apply (Rinv_quiet tr _ st _ x); auto; apply PB; exact I.
  - cbn in HS. destruct (t_pc st) as [|[s|]| | |]; try discriminate.
    + destruct (s_valid (t_socks st s)) eqn:V.
      * destruct (HI s) as [HB HU (recs & rest & M1 & M2 & M3 & M4)].
        destruct (M4 V) as (_ & l & _ & RI).
        destruct (receive_ok o1 o2 s st l RI V HB) as (st' & E & HR). rewrite E in HS. cbn [obind] in HS.
        injection HS as <-. eexists. split; [reflexivity|]. intros x.
        apply (recv_Rinv tr _ st (set_pc TxTop st') x s); auto.
        { intros ->. intros l' RI'.
          destruct (receive_ok o1 o2 x st l' RI' V HB) as (st2 & E2 & HR2).
          rewrite E in E2. injection E2 as <-. exact HR2. }
        intros NE. exact (received_other s x l st st' HR NE).
      * unfold receive in HS. rewrite V in HS. cbn [negb obind] in HS. injection HS as <-.
        eexists. split; [reflexivity|]. intros x. apply (Rinv_quiet tr _ st _ x); auto; apply PB; exact I.
    + injection HS as <-. eexists. split; [reflexivity|]. intros x.
      apply (Rinv_quiet tr _ st _ x); auto; apply PB; exact I.
  - cbn in HS. destruct (t_pc st); try discriminate. destruct (t_queue st); [discriminate|].
    injection HS as <-. eexists. split; [reflexivity|]. intros x.
    apply (Rinv_quiet tr _ st _ x); auto; apply PB; exact I.
  - cbn in HS. destruct (t_pc st) as [| | |r0|]; try discriminate.
    set (s := x_sock r0) in *. unfold sock_write in HS.
    destruct (negb (s_valid (t_socks st s)) || s_closing (t_socks st s)) eqn:D.
    + injection HS as <-. eexists. split; [reflexivity|]. intros x.
      apply (Rinv_quiet tr _ st _ x); auto; cbn [set_pc set_sock t_socks t_bufs t_msgs];
      (destruct (N.eq_dec x s) as [->|NE]; [rewrite ?fset_same|rewrite ?fset_other by auto]; auto).
    + destruct o as [c|].
      * set (c' := Nat.min c (length (skipn (x_read r0) (x_data r0)))) in HS.
        destruct (Nat.eqb (x_read r0 + c') (length (x_data r0))) eqn:N1;
        [destruct (x_kill r0)|]; cbv beta iota zeta delta [negb] in HS; injection HS as <-;
        (eexists; split; [reflexivity|]; intros x;
         apply (Rinv_quiet tr _ st _ x); auto; cbn [set_pc set_sock t_socks t_bufs t_msgs];
         (destruct (N.eq_dec x s) as [->|NE]; [rewrite ?fset_same|rewrite ?fset_other by auto]; auto)).
      * injection HS as <-. eexists. split; [reflexivity|]. intros x.
        apply (Rinv_quiet tr _ st _ x); auto; cbn [set_pc set_sock t_socks t_bufs t_msgs];
        (destruct (N.eq_dec x s) as [->|NE]; [rewrite ?fset_same|rewrite ?fset_other by auto]; auto).
  - cbn in HS. destruct (t_pc st); try discriminate. injection HS as <-. eexists. split; [reflexivity|].
    intros x. apply (Rinv_quiet tr _ st _ x); auto; apply PB; exact I.
  - cbn in HS. destruct (t_pc st); try discriminate. destruct (t_queue st); [|discriminate].
    injection HS as <-. eexists. split; [reflexivity|]. intros x.
    apply (Rinv_quiet tr _ st _ x); auto; apply PB; exact I.
Qed.

Lemma exec_Rinv : forall tr st, texec tr st -> Forall ev_ok tr -> forall s, Rinv tr st s.
Proof.
  induction 1 as [|tr e st st' H IH HS]; intros HO s; [apply Rinv_init|].
  apply Forall_app in HO as [HO1 HO2]. inversion HO2; subst.
  destruct (tstep_Rinv tr e st (Val st') (IH HO1)) as (st2 & E & HR); auto.
  injection E as <-. apply HR.
Qed.

Lemma no_ub : forall tr st e r, texec tr st -> Forall ev_ok tr -> ev_ok e ->
  tstep e st = Some r -> r <> UB.
Proof.
  intros tr st e r H HO HE HS.
  destruct (tstep_Rinv tr e st r (exec_Rinv tr st H HO) HE HS) as (st' & -> & _). discriminate.
Qed.

Lemma rec_msgs : forall s ms, filter (is_rec_of s) (msgs_of s ms) = filter (is_rec_of s) ms.
Proof.
  intros s ms. induction ms as [|m ms IH]; [reflexivity|].
  cbn [msgs_of filter]. fold (msgs_of s ms). destruct m as [id s' d|s']; cbn [msg_of is_rec_of].
  - destruct (s' =? s)%N eqn:E; cbn [filter is_rec_of]; rewrite ?E, IH; reflexivity.
  - destruct (s' =? s)%N eqn:E; cbn [filter is_rec_of]; exact IH.
Qed.

Lemma rec_mkrec : forall s recs, filter (is_rec_of s) (map (mkrec s) recs) = map (mkrec s) recs.
Proof.
  intros s. induction recs as [|r recs IH]; [reflexivity|]. cbn [map filter]. unfold mkrec at 1.
  cbn [is_rec_of]. rewrite N.eqb_refl, IH. reflexivity.
Qed.

Lemma reassembly : forall tr st s, texec tr st -> Forall ev_ok tr ->
  exists recs rest,
    peer_bytes s tr = concat (map snd recs) ++ rest /\
    filter (is_rec_of s) (t_msgs st) = map (fun '(id, r) => MRecord id s (known r)) recs /\
    Forall (fun '(id, r) => whole_record id r) recs /\
    (s_valid (t_socks st s) = true ->
     exists partial, rest = partial ++ s_in (t_socks st s) /\
       forall id w t, whole_record id w -> partial <> w ++ t).
Proof.
  intros tr st s H HO.
  destruct (exec_Rinv tr st H HO s) as [HB HU (recs & rest & M1 & M2 & M3 & M4)].
  exists (map (fun r => (be_value (firstn 2 (skipn 2 r)), r)) recs), rest.
  rewrite !map_map. cbn [snd]. rewrite map_id. split; auto. split; [|split].
  - rewrite <- rec_msgs. destruct M3 as [->|(_ & _ & ->)].
    + apply rec_mkrec.
    + rewrite filter_app, rec_mkrec. cbn. apply app_nil_r.
  - apply Forall_forall. intros [id r] HIn. apply in_map_iff in HIn as (r' & E & HIn).
    injection E as <- <-. rewrite Forall_forall in M2. apply M2 in HIn as [C B].
    now apply complete_whole.
  - intros V. destruct (M4 V) as (_ & l & -> & RI). exists l. split; auto.
    apply incomplete_no_record. apply RI.
Qed.

(** Records are self-delimiting. *)
Lemma whole_split : forall id1 w1 t1 id2 w2 t2, whole_record id1 w1 -> whole_record id2 w2 ->
  w1 ++ t1 = w2 ++ t2 -> w1 = w2 /\ t1 = t2 /\ id1 = id2.
Proof.
  intros id1 w1 t1 id2 w2 t2 H1 H2 E.
  destruct (whole_complete _ _ H1) as [A1 A2]. destruct (whole_complete _ _ H2) as [B1 B2].
  assert (L : length w1 = length w2).
  { rewrite A2, B2, <- (need_app w1 t1), <- (need_app w2 t2), E by assumption. reflexivity. }
  assert (W : w1 = w2).
  { apply (f_equal (firstn (length w1))) in E. rewrite firstn_at in E by reflexivity.
    rewrite firstn_at in E by auto. exact E. }
  subst w2. apply app_inv_head in E. repeat split; auto.
  destruct H1 as (v & t & c & p & r & Hi & Hc & Hp & E1). destruct H2 as (v' & t' & c' & p' & r' & Hi' & Hc' & Hp' & E2).
  rewrite E1 in E2. apply (f_equal (skipn 2)) in E2. rewrite !skipn_at in E2 by reflexivity.
  pose proof (be_digits_length 2 id1) as L1. pose proof (be_digits_length 2 id2) as L2.
  assert (D : be_digits 2 id1 = be_digits 2 id2).
  { apply (f_equal (firstn 2)) in E2. rewrite !firstn_at in E2 by auto. exact E2. }
  rewrite <- (be_value_digits 2 id1), <- (be_value_digits 2 id2) by (change (256 ^ N.of_nat 2)%N with 65536%N; auto).
  now rewrite D.
Qed.

(** A peer that sent whole records which have all been read gets exactly
    them delivered. *)
Lemma reassembly_all : forall tr st s rs, texec tr st -> Forall ev_ok tr ->
  Forall (fun '(id, r) => whole_record id r) rs ->
  peer_bytes s tr = concat (map snd rs) ->
  s_valid (t_socks st s) = true -> s_in (t_socks st s) = [] ->
  filter (is_rec_of s) (t_msgs st) = map (fun '(id, r) => MRecord id s (known r)) rs.
Proof.
  intros tr st s rs H HO HW HP HV HI.
  destruct (reassembly tr st s H HO) as (recs & rest & P & M & W & Q). rewrite M. f_equal.
  destruct (Q HV) as (partial & -> & NP). rewrite HI, app_nil_r in P. rewrite HP in P.
  clear -HW W NP P. revert recs W P. induction HW as [|[id r] rs Hr HW IH]; intros recs W P.
  - destruct W as [|[id' r'] recs Hr' W]; [reflexivity|]. cbn in P.
    destruct (whole_complete _ _ Hr') as [A _]. destruct r'; [cbn in A; lia|discriminate].
  - destruct W as [|[id' r'] recs Hr' W].
    + cbn [map concat snd app] in P. exfalso. apply (NP id r (concat (map snd rs)) Hr). auto.
    + cbn [map concat snd] in P. rewrite <- app_assoc in P.
      destruct (whole_split _ _ _ _ _ _ Hr Hr' P) as (-> & P' & ->). f_equal. apply IH; auto.
Qed.

(** Reading makes progress. *)
Lemma receive_takes : forall tr st s c1 c2, texec tr st -> Forall ev_ok tr ->
  t_pc st = AtRecv (Some s) -> s_valid (t_socks st s) = true -> s_in (t_socks st s) <> [] ->
  exists st', tstep (ERecv (KGive (S c1)) (KGive (S c2))) st = Some (Val st') /\
    length (s_in (t_socks st' s)) < length (s_in (t_socks st s)).
Proof.
  intros tr st s c1 c2 H HO HP HV HN.
  destruct (exec_Rinv tr st H HO s) as [HB HU (recs & rest & M1 & M2 & M3 & M4)].
  destruct (M4 HV) as (_ & l & _ & RI).
  destruct (receive_progress c1 c2 s st l RI HV HB HN) as (st' & E & L).
  cbn. rewrite HP, E. cbn [obind]. eexists. split; [reflexivity|]. exact L.
Qed.

(** ** Closing *)
Lemma closed_once : forall tr st s, texec tr st -> Forall ev_ok tr ->
  exists recs tail, msgs_of s (t_msgs st) = recs ++ tail /\
    (forall m, In m recs -> is_rec_of s m = true) /\
    (tail = [] \/ (tail = [MClosed s] /\ s_valid (t_socks st s) = false /\ t_bufs st s = b_empty)).
Proof.
  intros tr st s H HO.
  destruct (exec_Rinv tr st H HO s) as [HB HU (recs & rest & M1 & M2 & M3 & M4)].
  assert (F : forall m, In m (map (mkrec s) recs) -> is_rec_of s m = true).
  { intros m Hm. apply in_map_iff in Hm as (r & <- & _). cbn. apply N.eqb_refl. }
  destruct M3 as [M3|(V & B & M3)].
  - exists (map (mkrec s) recs), []. rewrite app_nil_r. auto.
  - exists (map (mkrec s) recs), [MClosed s]. split; [exact M3|]. split; [exact F|]. right. auto.
Qed.

(** A receive step concerns one connection only; if it ends the connection,
    the partial data is dropped and one notification is added. *)
Lemma recv_isolated : forall tr st o1 o2 st' s, texec tr st -> Forall ev_ok tr ->
  t_pc st = AtRecv (Some s) -> tstep (ERecv o1 o2) st = Some (Val st') ->
  (forall x, x <> s -> t_socks st' x = t_socks st x /\ t_bufs st' x = t_bufs st x /\
     msgs_of x (t_msgs st') = msgs_of x (t_msgs st)) /\
  t_queue st' = t_queue st /\
  (s_valid (t_socks st s) = true -> s_valid (t_socks st' s) = false ->
   t_bufs st' s = b_empty /\ t_msgs st' = t_msgs st ++ [MClosed s]).
Proof.
  intros tr st o1 o2 st' s H HO HP HS. cbn in HS. rewrite HP in HS.
  destruct (s_valid (t_socks st s)) eqn:V.
  - destruct (exec_Rinv tr st H HO s) as [HB HU (recs & rest & M1 & M2 & M3 & M4)].
    destruct (M4 V) as (_ & l & _ & RI).
    destruct (receive_ok o1 o2 s st l RI V HB) as (st2 & E & HR). rewrite E in HS. cbn [obind] in HS.
    injection HS as <-. cbn [set_pc t_socks t_bufs t_msgs t_queue].
    destruct HR as ((F1 & F2 & F3) & HR). split; [|split; auto].
    + intros x Hx. rewrite F1, F2 by auto. split; auto. split; auto.
      apply (received_other s x l st st2); auto. split; auto. split; auto.
    + intros _ V'. destruct HR as [(_ & _ & _ & _ & _ & B & M)|(d & (_ & _ & T & _) & _)]; [auto|congruence].
  - unfold receive in HS. rewrite V in HS. cbn in HS. injection HS as <-. cbn. repeat split; auto; discriminate.
Qed.

(** Nothing but the arrival of bytes and reading changes what is, or will be,
    delivered on a connection that stays open. *)
Lemma other_events_quiet : forall e st st' s, tstep e st = Some (Val st') ->
  match e with EPeer _ _ | ERecv _ _ | EAccept _ => False | _ => True end ->
  t_msgs st' = t_msgs st /\ s_in (t_socks st' s) = s_in (t_socks st s) /\
  (s_valid (t_socks st' s) = true -> t_bufs st' s = t_bufs st s).
Proof.
  intros e st st' s HS HE.
  destruct e as [x|x bytes|x data kill|p|o1 o2| |o| |]; try contradiction; cbn in HS.
  - destruct (s_born _); [|discriminate]. injection HS as <-. auto.
  - destruct p as [[x hup]|]; destruct (t_pc st); try discriminate.
    + destruct (s_valid (t_socks st x)); [|discriminate]. injection HS as <-. cbn.
      split; auto. split; auto. unfold fset. destruct (N.eqb_spec s x); subst; auto.
    + injection HS as <-. auto.
  - destruct (t_pc st); try discriminate. destruct (t_queue st); [discriminate|]. injection HS as <-. auto.
  - destruct (t_pc st) as [| | |r0|]; try discriminate. unfold sock_write in HS.
    set (x := x_sock r0) in *.
    destruct (negb (s_valid (t_socks st x)) || s_closing (t_socks st x)).
    + injection HS as <-. cbn. split; auto. split; auto. unfold fset. destruct (N.eqb_spec s x); subst; auto.
    + destruct o as [c|].
      * set (c' := Nat.min c (length (skipn (x_read r0) (x_data r0)))) in HS.
        destruct (Nat.eqb (x_read r0 + c') (length (x_data r0))) eqn:N1;
        [destruct (x_kill r0)|]; cbv beta iota zeta delta [negb] in HS; injection HS as <-;
        cbn; unfold fset; destruct (N.eqb_spec s x); subst; cbn; repeat split; auto; discriminate.
      * injection HS as <-. cbn; unfold fset; destruct (N.eqb_spec s x); subst; cbn; repeat split; auto.
  - destruct (t_pc st); try discriminate. injection HS as <-. auto.
  - destruct (t_pc st); try discriminate. destruct (t_queue st); [|discriminate]. injection HS as <-. auto.
Qed.
