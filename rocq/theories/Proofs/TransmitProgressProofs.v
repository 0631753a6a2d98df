(** How sending goes on. *)
From Coq Require Import String List NArith ZArith Arith Lia Bool.
From Verif Require Import Model.Base Model.Protocol Model.Block Model.Transceiver Model.Wake
  Spec.TransceiverSpec Spec.WakeSpec Spec.TransmitProgressSpec
  Proofs.ReceiveProofs Proofs.TransceiverProofs Proofs.TransmitProofs.
Import ListNotations.
Local Open Scope nat_scope.

Lemma texec_snoc : forall tr e st', texec (tr ++ [e]) st' ->
  exists st, texec tr st /\ tstep e st = Some (Val st').
Proof.
  intros tr e st' H. inversion H as [E|tr0 e0 st st0 H1 H2 E1 E2]; subst.
  - destruct tr; discriminate.
  - apply app_inj_tail in E1 as [-> ->]. eauto.
Qed.

Lemma texec_det : forall tr st, texec tr st -> forall st', texec tr st' -> st = st'.
Proof.
  intros tr st H. induction H as [|tr e st st1 H IH S1]; intros st' H'.
  - inversion H' as [|tr0 e0 s s' A B C D]; [reflexivity|]. destruct tr0; discriminate.
  - apply texec_snoc in H' as (st2 & H2 & S2). rewrite <- (IH _ H2) in S2. congruence.
Qed.

(** Records handed over, for all connections. *)
Fixpoint all_sends (l : list tev) : list txrec :=
  match l with
  | [] => []
  | ESend s d k :: l' => mkX s d 0 k :: all_sends l'
  | _ :: l' => all_sends l'
  end.

Lemma all_sends_app : forall a b, all_sends (a ++ b) = all_sends a ++ all_sends b.
Proof. induction a as [|e a IH]; intros; [reflexivity|]. destruct e; cbn; rewrite ?IH; reflexivity. Qed.

Definition key (r : txrec) : N * list obyte * bool := (x_sock r, x_data r, x_kill r).

Definition left_of (l : list txrec) : nat :=
  fold_right (fun r n => (length (x_data r) - x_read r) + n) 0 l.

Definition rank (p : tpc) : nat :=
  match p with AtPoll => 4 | AtRecv _ => 3 | TxTop => 2 | TxHave _ => 1 | TxBack _ => 5 end.

Definition phi (old : list txrec) (p : tpc) : nat := 5 * left_of old + 2 * length old + rank p.

(** Of what was waiting [old] is left; behind it is what came in since. *)
Definition G (phi0 : nat) (l : list tev) (st : trx) : Prop :=
  exists old new pre, waiting st = old ++ new /\ map key (all_sends l) = pre ++ map key new /\
    (old = [] \/ io_steps l + phi old (t_pc st) <= phi0).

Lemma io_steps_snoc : forall l e, io_steps (l ++ [e]) = io_steps l + (if io e then 1 else 0).
Proof.
  intros l e. unfold io_steps. rewrite filter_app, app_length. cbn [filter]. destruct (io e); cbn; lia.
Qed.

Lemma all_sends_other : forall l e, match e with ESend _ _ _ => False | _ => True end ->
  all_sends (l ++ [e]) = all_sends l.
Proof. intros l e H. rewrite all_sends_app. destruct e; cbn; try apply app_nil_r. contradiction. Qed.

Lemma G_same : forall phi0 l e st st', G phi0 l st ->
  match e with ESend _ _ _ => False | _ => True end ->
  waiting st' = waiting st ->
  (waiting st <> [] -> rank (t_pc st') + (if io e then 1 else 0) <= rank (t_pc st)) ->
  G phi0 (l ++ [e]) st'.
Proof.
  intros phi0 l e st st' (old & new & pre & W & S1 & B) NS E R.
  exists old, new, pre. rewrite E, all_sends_other by auto. split; [auto|]. split; [auto|].
  destruct B as [B|B]; [now left|]. destruct old as [|r old]; [now left|]. right.
  assert (waiting st <> []) by (rewrite W; discriminate). rewrite io_steps_snoc. unfold phi in *.
  specialize (R H). lia.
Qed.

Lemma recv_queue : forall tr st o1 o2 s st', texec tr st -> Forall ev_ok tr ->
  t_pc st = AtRecv (Some s) -> tstep (ERecv o1 o2) st = Some (Val st') ->
  t_queue st' = t_queue st /\ t_pc st' = TxTop.
Proof.
  intros tr st o1 o2 s st' T F PC H. split.
  - now destruct (recv_isolated tr st o1 o2 st' s T F PC H) as (_ & Q & _).
  - cbn in H. rewrite PC in H. injection H as H. destruct (receive o1 o2 s st); [|discriminate].
    cbn in H. injection H as <-. reflexivity.
Qed.

(** No more of a record is written than there is. *)
Definition read_ok (r : txrec) : Prop := x_read r <= length (x_data r).

Lemma waiting_ok : forall tr st, texec tr st -> Forall ev_ok tr -> Forall read_ok (waiting st).
Proof.
  intros tr st T. induction T as [|tr e st st' T IH HS]; intros F; [constructor|].
  assert (F' : Forall ev_ok tr) by (apply Forall_app in F; tauto). specialize (IH F').
  destruct e as [x|x bytes|x data kill|p|o1 o2| |o| |].
  - cbn in HS. destruct (t_pc st) eqn:PC; try discriminate.
    destruct (s_born (t_socks st x)); [discriminate|]. injection HS as <-. exact IH.
  - cbn in HS. destruct (s_valid (t_socks st x)); [|destruct (t_pc st); discriminate].
    assert (E : st' = set_sock x (mkS (s_born (t_socks st x)) true (s_closing (t_socks st x))
               (s_in (t_socks st x) ++ bytes) (s_out (t_socks st x))) st) by (destruct (t_pc st); congruence).
    subst st'. exact IH.
  - cbn in HS. destruct (s_born (t_socks st x)); [|destruct (t_pc st); discriminate].
    assert (E : st' = mkT (t_socks st) (t_bufs st) (t_queue st ++ [mkX x data 0 kill]) (t_msgs st) (t_pc st))
      by (destruct (t_pc st); congruence).
    subst st'. unfold waiting in *. cbn [t_pc t_queue]. rewrite app_assoc. apply Forall_app. split; [exact IH|].
    constructor; [|constructor]. unfold read_ok. cbn. lia.
  - cbn in HS. destruct p as [[x hup]|]; destruct (t_pc st) eqn:PC; try discriminate.
    + destruct (s_valid (t_socks st x)); [|discriminate]. injection HS as <-.
      unfold waiting in *. rewrite PC in IH. exact IH.
    + injection HS as <-. unfold waiting in *. rewrite PC in IH. exact IH.
  - destruct (t_pc st) as [|[x|]| | |] eqn:PC; try (cbn in HS; rewrite PC in HS; discriminate).
    + destruct (recv_queue _ _ _ _ _ _ T F' PC HS) as [Q P'].
      unfold waiting in *. rewrite PC in IH. now rewrite P', Q.
    + cbn in HS. rewrite PC in HS. injection HS as <-. unfold waiting in *. rewrite PC in IH. exact IH.
  - cbn in HS. destruct (t_pc st) eqn:PC; try discriminate.
    destruct (t_queue st) as [|r q] eqn:Q; [discriminate|]. injection HS as <-.
    unfold waiting in *. rewrite PC, Q in IH. exact IH.
  - cbn in HS. destruct (t_pc st) as [| | |r|] eqn:PC; try discriminate.
    unfold waiting in IH. rewrite PC in IH. cbn [app] in IH.
    pose proof (Forall_inv IH) as R0. pose proof (Forall_inv_tail IH) as IH'.
    unfold sock_write in HS. destruct (negb (s_valid (t_socks st (x_sock r))) || s_closing (t_socks st (x_sock r))).
    { injection HS as <-. exact IH'. }
    destruct o as [k|]; [|injection HS as <-; exact IH']. cbv beta zeta iota in HS.
    set (c := Nat.min k (length (skipn (x_read r) (x_data r)))) in HS.
    destruct (Nat.eqb_spec (x_read r + c) (length (x_data r))) as [EQ|NE]; cbn [negb] in HS.
    { destruct (x_kill r); injection HS as <-; exact IH'. }
    injection HS as <-. unfold waiting. cbn [t_pc set_pc set_sock t_queue app]. constructor; [|exact IH'].
    unfold read_ok in *. cbn [x_read x_data]. subst c. rewrite skipn_length. lia.
  - cbn in HS. destruct (t_pc st) eqn:PC; try discriminate. injection HS as <-.
    unfold waiting in *. rewrite PC in IH. exact IH.
  - cbn in HS. destruct (t_pc st) eqn:PC; try discriminate.
    destruct (t_queue st) eqn:Q; [|discriminate]. injection HS as <-. unfold waiting. cbn. rewrite Q. constructor.
Qed.

Lemma tstep_G : forall phi0 tr l e st st', texec (tr ++ l) st -> Forall ev_ok (tr ++ l) ->
  reading e -> G phi0 l st -> tstep e st = Some (Val st') -> G phi0 (l ++ [e]) st'.
Proof.
  intros phi0 tr l e st st' T F RD HG HS.
  destruct e as [x|x bytes|x data kill|p|o1 o2| |o| |].
  - (* EAccept *) cbn in HS. destruct (t_pc st) eqn:PC; try discriminate.
    destruct (s_born (t_socks st x)); [discriminate|]. injection HS as <-.
    apply (G_same phi0 l _ st); auto. cbn. lia.
  - (* EPeer *) cbn in HS. destruct (s_valid (t_socks st x)); [|destruct (t_pc st); discriminate].
    assert (E : st' = set_sock x (mkS (s_born (t_socks st x)) true (s_closing (t_socks st x))
               (s_in (t_socks st x) ++ bytes) (s_out (t_socks st x))) st) by (destruct (t_pc st); congruence).
    subst st'. apply (G_same phi0 l _ st); auto. cbn. lia.
  - (* ESend *) cbn in HS. destruct (s_born (t_socks st x)); [|destruct (t_pc st); discriminate].
    assert (E : st' = mkT (t_socks st) (t_bufs st) (t_queue st ++ [mkX x data 0 kill]) (t_msgs st) (t_pc st))
      by (destruct (t_pc st); congruence).
    subst st'. destruct HG as (old & new & pre & W & S1 & B).
    exists old, (new ++ [mkX x data 0 kill]), pre. unfold waiting in *. cbn [t_pc t_queue].
    split; [rewrite app_assoc, W, app_assoc; reflexivity|].
    split; [rewrite all_sends_app, !map_app, S1, app_assoc; reflexivity|].
    destruct B as [B|B]; [now left|right]. rewrite io_steps_snoc. cbn [io]. lia.
  - (* EPoll *) cbn in HS. destruct p as [[x hup]|]; destruct (t_pc st) eqn:PC; try discriminate.
    + destruct (s_valid (t_socks st x)); [|discriminate]. injection HS as <-.
      apply (G_same phi0 l _ st); auto; [unfold waiting; cbn; now rewrite PC|rewrite PC; cbn; lia].
    + injection HS as <-. apply (G_same phi0 l _ st); auto; [unfold waiting; cbn; now rewrite PC|rewrite PC; cbn; lia].
  - (* ERecv *) destruct (t_pc st) as [|[x|]| | |] eqn:PC; try (cbn in HS; rewrite PC in HS; discriminate).
    + destruct (recv_queue _ _ _ _ _ _ T F PC HS) as [Q P'].
      apply (G_same phi0 l _ st); auto; [unfold waiting; now rewrite PC, P', Q|rewrite PC, P'; cbn; lia].
    + cbn in HS. rewrite PC in HS. injection HS as <-.
      apply (G_same phi0 l _ st); auto; [unfold waiting; cbn; now rewrite PC|rewrite PC; cbn; lia].
  - (* EPop *) cbn in HS. destruct (t_pc st) eqn:PC; try discriminate.
    destruct (t_queue st) as [|r q] eqn:Q; [discriminate|]. injection HS as <-.
    apply (G_same phi0 l _ st); auto; [unfold waiting; cbn; now rewrite PC, Q|rewrite PC; cbn; lia].
  - (* EWrite *) cbn in HS. destruct (t_pc st) as [| | |r|] eqn:PC; try discriminate.
    destruct HG as (old & new & pre & W & S1 & B). unfold waiting in W. rewrite PC in W. cbn [app] in W.
    unfold G. rewrite (all_sends_other l (EWrite o)) by exact I. rewrite io_steps_snoc. cbn [io].
    assert (DROP : forall s', t_pc s' = TxTop -> t_queue s' = t_queue st ->
      exists old0 new0 pre0, waiting s' = old0 ++ new0 /\ map key (all_sends l) = pre0 ++ map key new0 /\
        (old0 = [] \/ io_steps l + 1 + phi old0 (t_pc s') <= phi0)).
    { intros s' P' Q'. unfold waiting. rewrite P', Q'. cbn [app]. destruct old as [|r0 old].
      - cbn [app] in W. destruct new as [|r1 new]; [discriminate|]. injection W as -> W.
        exists [], new, (pre ++ [key r1]). split; [auto|]. split; [rewrite S1, <- app_assoc; reflexivity|now left].
      - cbn [app] in W. injection W as -> W. exists old, new, pre. split; [auto|]. split; [auto|].
        destruct B as [B|B]; [discriminate|]. right. rewrite PC in B. unfold phi in *. cbn [length rank left_of fold_right] in *.
        change (fold_right (fun r n => length (x_data r) - x_read r + n) 0 old) with (left_of old) in B. lia. }
    unfold sock_write in HS. destruct (negb (s_valid (t_socks st (x_sock r))) || s_closing (t_socks st (x_sock r))).
    { injection HS as <-. now apply DROP. }
    destruct o as [k|]; [|injection HS as <-; now apply DROP].
    cbv beta zeta iota in HS.
    set (c := Nat.min k (length (skipn (x_read r) (x_data r)))) in HS.
    destruct (Nat.eqb_spec (x_read r + c) (length (x_data r))) as [EQ|NE]; cbn [negb] in HS.
    { destruct (x_kill r); injection HS as <-; now apply DROP. }
    injection HS as <-. unfold waiting. cbn [t_pc set_pc set_sock t_queue app].
    set (r' := mkX (x_sock r) (x_data r) (x_read r + c) (x_kill r)).
    assert (RO : read_ok r).
    { pose proof (waiting_ok _ _ T F) as X. unfold waiting in X. rewrite PC in X. exact (Forall_inv X). }
    assert (K0 : k <> 0) by (intros ->; now apply RD).
    unfold read_ok in RO. subst c. rewrite skipn_length in *.
    destruct old as [|r0 old].
    + cbn [app] in W. destruct new as [|r1 new]; [discriminate|]. injection W as -> W.
      exists [], (r' :: new), pre. rewrite W. split; [reflexivity|]. split; [exact S1|now left].
    + cbn [app] in W. injection W as -> W. exists (r' :: old), new, pre. rewrite W. split; [reflexivity|].
      split; [exact S1|]. destruct B as [B|B]; [discriminate|]. right. rewrite PC in B.
      unfold phi in *. cbn [length rank left_of fold_right] in *.
      change (fold_right (fun r n => length (x_data r) - x_read r + n) 0 old) with (left_of old) in *.
      subst r'. cbn [x_data x_read]. rewrite skipn_length. clear - B RO NE K0. lia.
  - (* EBack *) cbn in HS. destruct (t_pc st) eqn:PC; try discriminate. injection HS as <-.
    apply (G_same phi0 l _ st); auto; [unfold waiting; cbn; now rewrite PC|rewrite PC; cbn; lia].
  - (* EDone *) cbn in HS. destruct (t_pc st) eqn:PC; try discriminate.
    destruct (t_queue st) eqn:Q; [|discriminate]. injection HS as <-.
    apply (G_same phi0 l _ st); auto.
    + unfold waiting. cbn. now rewrite PC.
    + unfold waiting. rewrite PC, Q. cbn. congruence.
Qed.

Lemma exec_G : forall tr st, texec tr st -> forall l st', texec (tr ++ l) st' -> Forall ev_ok (tr ++ l) ->
  Forall reading l -> G (phi (waiting st) (t_pc st)) l st'.
Proof.
  intros tr st T l. induction l as [|e l IH] using rev_ind; intros st' T' F RD.
  - rewrite app_nil_r in T'. rewrite <- (texec_det _ _ T _ T').
    exists (waiting st), [], []. split; [now rewrite app_nil_r|]. split; [reflexivity|]. right. cbn. lia.
  - rewrite app_assoc in T', F. apply texec_snoc in T' as (st1 & T1 & S1).
    apply Forall_app in RD as [RD1 RD2]. pose proof (proj1 (proj1 (Forall_app _ _ _) F)) as F1.
    apply (tstep_G _ tr l e st1); auto. exact (Forall_inv RD2).
Qed.

Lemma sends_keys : forall s l, sends s l = map asend (filter (for_sock s) (all_sends l)).
Proof.
  intros s l. induction l as [|e l IH]; [reflexivity|]. destruct e; cbn; auto.
  unfold for_sock at 1. cbn [x_sock]. destruct (N.eqb s0 s); cbn; now rewrite IH.
Qed.

Lemma keys_filter : forall s a b, map key a = map key b ->
  map asend (filter (for_sock s) a) = map asend (filter (for_sock s) b).
Proof.
  intros s a. induction a as [|x a IH]; intros [|y b] H; try discriminate; auto.
  cbn [map] in H. unfold key in H at 1 3. injection H as E1 E2 E3 E4. cbn [filter].
  assert (for_sock s x = for_sock s y) as -> by (unfold for_sock; now rewrite E1).
  destruct (for_sock s y); [|now apply IH]. cbn [map].
  assert (asend x = asend y) as -> by (unfold asend; congruence). f_equal. now apply IH.
Qed.

Lemma bytes_left : forall st, left_of (waiting st) = bytes_waiting st.
Proof. reflexivity. Qed.

Lemma written : forall tr st l st', texec tr st -> texec (tr ++ l) st' -> Forall ev_ok (tr ++ l) ->
  Forall reading l ->
  5 * bytes_waiting st + 2 * length (waiting st) + 5 <= io_steps l ->
  forall s, s_valid (t_socks st' s) = true -> s_closing (t_socks st' s) = false ->
  (exists more, s_out (t_socks st' s) = contents (sends s tr) ++ more) /\ nokill (sends s tr).
Proof.
  intros tr st l st' T T' F RD B s V C.
  destruct (exec_G tr st T l st' T' F RD) as (old & new & pre & W & S1 & [->|P]).
  2:{ destruct old as [|r old].
      - exfalso. unfold phi in P. cbn [left_of fold_right length] in P. rewrite bytes_left in P.
        pose proof (exec_G tr st T l st' T' F RD). destruct (t_pc st), (t_pc st'); cbn [rank] in P; lia.
      - exfalso. unfold phi in P. rewrite bytes_left in P. cbn [length] in P.
        destruct (t_pc st), (t_pc st'); cbn [rank] in P; lia. }
  cbn [app] in W.
  pose proof (exec_Tinv _ _ T' F s) as [_ TL _].
  destruct TL as (done & S2 & NK & O & _); [unfold live; now rewrite V, C|].
  assert (PW : pend_of s st' = filter (for_sock s) new) by (unfold pend_of; rewrite <- W; reflexivity).
  rewrite PW in *.
  rewrite sends_app in S2.
  assert (exists mid, sends s l = mid ++ map asend (filter (for_sock s) new)) as (mid & M).
  { rewrite sends_keys.
    assert (X : exists p n, all_sends l = p ++ n /\ map key n = map key new).
    { exists (firstn (length pre) (all_sends l)), (skipn (length pre) (all_sends l)).
      split; [now rewrite firstn_skipn|]. rewrite <- skipn_map, S1, skipn_app, skipn_all, Nat.sub_diag. reflexivity. }
    destruct X as (p & n & -> & E). rewrite filter_app, map_app. rewrite (keys_filter s n new E). eauto. }
  rewrite M, app_assoc in S2. apply app_inv_tail in S2. subst done. unfold nokill in *. split.
  - rewrite O, contents_app, <- app_assoc. eexists. reflexivity.
  - apply Forall_app in NK. tauto.
Qed.

Lemma goes_on : forall tr st, texec tr st -> Forall ev_ok tr ->
  exists e st', io e = true /\ reading e /\ tstep e st = Some (Val st').
Proof.
  intros tr st T F. destruct (t_pc st) as [|[s|]| |r|r] eqn:PC.
  - exists (EPoll None). eexists. split; [reflexivity|]. split; [discriminate|]. cbn. rewrite PC. reflexivity.
  - exists (ERecv KAgain KAgain). destruct (tstep (ERecv KAgain KAgain) st) as [[st'|]|] eqn:S1.
    + exists st'. split; [reflexivity|]. split; [discriminate|reflexivity].
    + exfalso. exact (no_ub tr st (ERecv KAgain KAgain) _ T F I S1 eq_refl).
    + cbn in S1. rewrite PC in S1. discriminate.
  - exists (ERecv KAgain KAgain). eexists. split; [reflexivity|]. split; [discriminate|]. cbn. rewrite PC. reflexivity.
  - destruct (t_queue st) eqn:Q.
    + exists EDone. eexists. split; [reflexivity|]. split; [discriminate|]. cbn. rewrite PC, Q. reflexivity.
    + exists EPop. eexists. split; [reflexivity|]. split; [discriminate|]. cbn. rewrite PC, Q. reflexivity.
  - exists (EWrite (WTake 1)). cbn [tstep]. rewrite PC.
    destruct (sock_write (WTake 1) (skipn (x_read r) (x_data r)) (t_socks st (x_sock r))) as [[c|] k].
    + destruct (negb (x_read r + c =? length (x_data r))); [|destruct (x_kill r)];
        eexists; (split; [reflexivity|]); (split; [discriminate|]); reflexivity.
    + eexists. split; [reflexivity|]. split; [discriminate|]. reflexivity.
  - exists EBack. eexists. split; [reflexivity|]. split; [discriminate|]. cbn. rewrite PC. reflexivity.
Qed.

(* ------------------------------------------------------------------ *)
(** * A client that does not read *)

Definition stalled : list tev :=
  ([EAccept 1; EAccept 2; ESend 1 [Some 7] false; ESend 2 [Some 9] false])%N.
Definition round : list tev := [EPoll None; ERecv KAgain KAgain; EPop; EWrite (WTake 0); EBack].
Fixpoint rounds (n : nat) : list tev := match n with O => [] | S n => round ++ rounds n end.

Definition stalled_state (q : list txrec) (st : trx) : Prop :=
  t_pc st = AtPoll /\ t_queue st = mkX 1 [Some 7%N] 0 false :: q /\
  s_valid (t_socks st 1) = true /\ s_closing (t_socks st 1) = false /\
  s_valid (t_socks st 2) = true /\ s_closing (t_socks st 2) = false /\ s_out (t_socks st 2) = [].

Lemma round_stalled : forall q st, stalled_state q st -> exists st', trun round st = Some st' /\ stalled_state q st'.
Proof.
  intros q st (P & Q & V1 & C1 & V2 & C2 & O2). destruct st as [socks bufs queue msgs pc].
  cbn [t_pc t_queue t_socks] in *. subst pc queue.
  cbn [trun round tstep t_pc set_pc t_queue t_socks x_sock x_read x_data x_kill].
  unfold sock_write. rewrite V1, C1. cbn [negb orb skipn length Nat.min x_read x_data x_sock x_kill Nat.add Nat.eqb trun tstep t_pc set_pc set_sock].
  eexists. split; [reflexivity|]. unfold stalled_state. cbn [t_pc t_queue t_socks].
  repeat (split; [reflexivity|]). unfold fset. cbn. auto 10.
Qed.

Lemma rounds_stalled : forall n q st, stalled_state q st -> exists st', trun (rounds n) st = Some st' /\ stalled_state q st'.
Proof.
  induction n as [|n IH]; intros q st H.
  - exists st. split; [reflexivity|auto].
  - destruct (round_stalled q st H) as (st1 & R1 & H1). destruct (IH q st1 H1) as (st2 & R2 & H2).
    exists st2. split; [|auto]. cbn [rounds].
    assert (X : forall a b s s', trun a s = Some s' -> trun (a ++ b) s = trun b s').
    { induction a as [|e a IHa]; intros b s s' R; cbn in *; [congruence|].
      destruct (tstep e s) as [[s1|]|]; try discriminate. eapply IHa; eauto. }
    rewrite (X _ _ _ _ R1). exact R2.
Qed.

Lemma rounds_io : forall n, io_steps (rounds n) = 5 * n.
Proof.
  induction n as [|n IH]; [reflexivity|]. cbn [rounds]. unfold io_steps in *. rewrite filter_app, app_length, IH.
  change (length (filter io round)) with 5. lia.
Qed.

Lemma rounds_plain : forall n, Forall ev_ok (rounds n) /\
  Forall (fun e => forall o, e = EWrite o -> o = WTake 0) (rounds n) /\ sends 2 (rounds n) = [].
Proof.
  induction n as [|n (A & B & C)]; [repeat constructor|]. cbn [rounds]. split; [|split].
  - apply Forall_app. split; [|auto]. unfold round. repeat constructor.
  - apply Forall_app. split; [|auto]. unfold round. repeat (constructor; [intros o E; congruence|]). constructor.
  - rewrite sends_app, C. reflexivity.
Qed.

(** All along the record for the client that does not read is first. *)
Definition first_stalled (st : trx) : Prop :=
  (exists r q, waiting st = r :: q /\ x_sock r = 1%N /\ x_read r < length (x_data r)) /\
  s_valid (t_socks st 1) = true /\ s_closing (t_socks st 1) = false /\
  (forall s, t_pc st <> AtRecv (Some s)).

Lemma first_step : forall e st st', In e round -> first_stalled st -> tstep e st = Some (Val st') -> first_stalled st'.
Proof.
  intros e st st' I ((r & q & W & X & R) & V & C & P) H.
  destruct st as [socks bufs queue msgs pc]. unfold waiting in W. cbn [t_pc t_queue t_socks] in *.
  destruct I as [<-|[<-|[<-|[<-|[<-|[]]]]]]; destruct pc as [|[s|]| |r0|r0]; try discriminate H;
    try (exfalso; exact (P s eq_refl)); cbn [app] in W.
  - injection H as <-. split; [exists r, q; auto|]. cbn. split; [auto|]. split; [auto|]. discriminate.
  - injection H as <-. split; [exists r, q; auto|]. cbn. split; [auto|]. split; [auto|]. discriminate.
  - cbn in H. destruct queue as [|r1 q1]; [discriminate|]. injection H as <-.
    split; [exists r, q; auto|]. cbn. split; [auto|]. split; [auto|]. discriminate.
  - injection W as -> W. cbn [tstep t_pc t_socks] in H. unfold sock_write in H. rewrite X, V, C in H.
    cbn [negb orb Nat.min] in H. rewrite Nat.add_0_r in H.
    destruct (Nat.eqb_spec (x_read r) (length (x_data r))); [lia|]. cbn [negb] in H. injection H as <-.
    split; [exists (mkX 1 (x_data r) (x_read r) (x_kill r)), q|].
    + unfold waiting. cbn. rewrite W. auto.
    + cbn [t_socks set_pc set_sock t_pc]. unfold fset. cbn. split; [auto|]. split; [auto|]. discriminate.
  - injection W as -> W. injection H as <-.
    split; [exists r, q; unfold waiting; cbn; now rewrite W|]. cbn. split; [auto|]. split; [auto|]. discriminate.
Qed.

Lemma first_along : forall tr st, texec tr st -> first_stalled st -> forall l st', Forall (fun e => In e round) l ->
  texec (tr ++ l) st' -> first_stalled st'.
Proof.
  intros tr st T H l. induction l as [|e l IH] using rev_ind; intros st' F T'.
  - rewrite app_nil_r in T'. now rewrite <- (texec_det _ _ T _ T').
  - rewrite app_assoc in T'. apply texec_snoc in T' as (st1 & T1 & S1). apply Forall_app in F as [F1 F2].
    apply (first_step e st1 st' (Forall_inv F2)); auto.
Qed.

Lemma rounds_in : forall n, Forall (fun e => In e round) (rounds n).
Proof.
  induction n as [|n IH]; [constructor|]. cbn [rounds]. apply Forall_app. split; [|auto].
  apply Forall_forall. auto.
Qed.

Lemma one_stalls_all : forall n, exists tr st l st',
  texec tr st /\ texec (tr ++ l) st' /\ Forall ev_ok (tr ++ l) /\ n <= io_steps l /\
  sends 2 tr = [([Some 9%N], false)] /\
  (forall l1 l2 st1 r, l = l1 ++ l2 -> texec (tr ++ l1) st1 -> t_pc st1 = TxHave r -> x_sock r = 1%N) /\
  s_valid (t_socks st' 1) = true /\
  s_valid (t_socks st' 2) = true /\ s_closing (t_socks st' 2) = false /\ s_out (t_socks st' 2) = [].
Proof.
  intro n.
  destruct (trun_ex stalled (stalled_state [mkX 2 [Some 9%N] 0 false])) as (st & T & H).
  { vm_compute. auto 10. }
  destruct (rounds_stalled n _ st H) as (st' & R & H').
  exists stalled, st, (rounds n), st'. split; [exact T|].
  split; [eapply trun_from; eauto|].
  destruct (rounds_plain n) as (A & _).
  split; [apply Forall_app; split; [unfold stalled; repeat constructor|exact A]|].
  split; [rewrite rounds_io; lia|]. split; [reflexivity|]. split.
  - intros l1 l2 st1 r E T1 PC.
    assert (FS : first_stalled st1).
    { apply (first_along stalled st T) with (l := l1);
        [|pose proof (rounds_in n) as X; rewrite E in X; apply Forall_app in X; apply X|exact T1].
      destruct H as (P & Q & V1 & C1 & _). split; [|split; [auto|split; [auto|congruence]]].
      unfold waiting. rewrite P, Q. cbn [app]. do 2 eexists. split; [reflexivity|]. cbn. split; [reflexivity|lia]. }
    destruct FS as ((r1 & q & W & X & _) & _). unfold waiting in W. rewrite PC in W. cbn in W. congruence.
  - destruct H' as (P & _ & V1 & _ & V & C & O). auto.
Qed.

(* ------------------------------------------------------------------ *)
(** * When the thread runs *)

Definition wrank (p : lpc) : nat :=
  match p with
  | LRead => 1 | LLock => 2
  | LWait true => 3 | LFresh true => 4 | LRefresh true => 5 | LPoll true => 6 | LTop true => 7
  | LTx => 8 | LTxHave => 9 | LRecv => 9
  | LWait false => 10 | LFresh false => 11 | LRefresh false => 12 | LPoll false => 13 | LTop false => 14
  | LClear => 14
  | LDone => 0 | LFail => 0
  end.

Definition wphi (s : wst) : nat := wrank (w_loop s) + 15 * w_bytes s + 2 * w_queue s.

Definition is_loop (a : wact) : nat := match a with WLoop _ _ _ => 1 | _ => 0 end.

Lemma wphi_step : forall a s s', wstep a s = Some s' ->
  wphi s' + is_loop a <= wphi s + 15 * (if from_outside a s then 1 else 0).
Proof.
  intros a s s' H. destruct a as [e c f|t|t|t|t|t]; cbn [wstep from_outside is_loop] in *.
  - destruct s as [lp th ow wk by_ qu co te st ac re li du].
    unfold loop_step in H. cbn [w_loop w_terminate w_stop w_conns w_refresh w_accept w_bytes w_owner w_queue w_listening] in *.
    unfold wphi. destruct lp as [b|b|b|b|b| | | | | | | |]; cbn [w_loop].
    + destruct (te || (st && (co =? 0))); injection H as <-; destruct b; cbn -[Nat.mul Nat.sub]; lia.
    + injection H as <-; destruct b; cbn -[Nat.mul Nat.sub]; lia.
    + destruct re; injection H as <-; destruct b; cbn -[Nat.mul Nat.sub]; lia.
    + injection H as <-; destruct b; cbn -[Nat.mul Nat.sub]; lia.
    + destruct e.
      * destruct (Nat.eqb_spec by_ 0); [discriminate|]. injection H as <-. destruct b; cbn -[Nat.mul Nat.sub]; lia.
      * destruct (co =? 0); [discriminate|]. injection H as <-. destruct b; cbn -[Nat.mul Nat.sub]; lia.
      * destruct li; [|discriminate]. injection H as <-. destruct b, ac; cbn -[Nat.mul Nat.sub]; lia.
      * injection H as <-. destruct b; cbn -[Nat.mul Nat.sub]; lia.
    + destruct ow; [discriminate|]. injection H as <-. cbn -[Nat.mul Nat.sub]. lia.
    + destruct (Nat.eqb_spec by_ 0); injection H as <-; cbn -[Nat.mul Nat.sub]; lia.
    + injection H as <-. cbn -[Nat.mul Nat.sub]. lia.
    + injection H as <-. cbn -[Nat.mul Nat.sub]. lia.
    + destruct qu; injection H as <-; cbn -[Nat.mul Nat.sub]; lia.
    + destruct f; injection H as <-; cbn -[Nat.mul Nat.sub]; lia.
    + discriminate.
    + discriminate.
  - destruct (idle t s); [|discriminate]. injection H as <-. unfold wphi. cbn -[Nat.mul]. lia.
  - destruct (idle t s); [|discriminate]. injection H as <-. unfold wphi. cbn -[Nat.mul]. lia.
  - destruct (idle t s); [|discriminate]. injection H as <-. unfold wphi. cbn -[Nat.mul]. lia.
  - destruct (idle t s); [|discriminate]. injection H as <-. unfold wphi. cbn -[Nat.mul]. lia.
  - unfold run_step in H. unfold wphi.
    destruct (w_threads s t); try discriminate.
    + destruct (w_accept s); injection H as <-; cbn -[Nat.mul]; lia.
    + injection H as <-; cbn -[Nat.mul]; lia.
    + injection H as <-; cbn -[Nat.mul]; lia.
    + destruct (w_owner s); [discriminate|]. injection H as <-; cbn -[Nat.mul]; lia.
    + destruct (w_waking s); injection H as <-; cbn -[Nat.mul]; lia.
    + injection H as <-; cbn -[Nat.mul]; lia.
    + injection H as <-; cbn -[Nat.mul]; lia.
Qed.

Lemma loops_cons : forall a l, loops (a :: l) = is_loop a + loops l.
Proof. intros [] l; reflexivity. Qed.

Lemma runs_bounded : forall l s s', wexec l s = Some s' ->
  loops l <= 15 * (1 + w_bytes s + w_queue s + outside l s).
Proof.
  intros l s s' H.
  assert (X : loops l + wphi s' <= wphi s + 15 * outside l s).
  { revert s H. induction l as [|a l IH]; intros s H; cbn [wexec] in H.
    - injection H as <-. cbn. lia.
    - destruct (wstep a s) as [s1|] eqn:S1; [|discriminate]. specialize (IH s1 H).
      pose proof (wphi_step a s s1 S1) as P. rewrite loops_cons. cbn [outside]. rewrite S1. lia. }
  assert (wrank (w_loop s) <= 14) by (destruct (w_loop s) as [[]|[]|[]|[]|[]| | | | | | | |]; cbn; lia).
  unfold wphi in X. lia.
Qed.

(** Going round with a record nobody takes. *)
Definition spin_start : list wact :=
  [WSend 0; WLoop EvNone 0 false; WLoop EvNone 0 false; WLoop EvNone 0 false; WLoop EvNone 0 false;
   WLoop EvNone 0 false; WLoop EvNone 0 false; WLoop EvNone 0 false; WLoop EvNone 0 false].
Definition idle_loop : wact := WLoop EvNone 0 false.

Definition spinning (s : wst) : Prop :=
  w_loop s = LTop false /\ w_queue s = 1 /\ w_terminate s = false /\ w_stop s = false /\ w_refresh s = false.

Lemma spin_round : forall s, spinning s -> exists s', wexec (repeat idle_loop 7) s = Some s' /\ spinning s'.
Proof.
  intros s (A & B & C & D & E). destruct s as [lp th ow wk by_ qu co te st ac re li du].
  cbn [w_loop w_queue w_terminate w_stop w_refresh] in *. subst.
  exists (mkW (LTop false) th ow wk by_ 1 (co - 0) false false ac false li du).
  split; [reflexivity|]. unfold spinning. cbn. auto.
Qed.

Lemma wexec_app : forall a b s s', wexec a s = Some s' -> wexec (a ++ b) s = wexec b s'.
Proof.
  induction a as [|x a IH]; intros b s s' H; cbn in *; [congruence|].
  destruct (wstep x s); [|discriminate]. eapply IH; eauto.
Qed.

Lemma spins : forall n s, spinning s -> exists s', wexec (repeat idle_loop (n * 7)) s = Some s' /\ spinning s'.
Proof.
  induction n as [|n IH]; intros s H; [exists s; split; [reflexivity|auto]|].
  destruct (spin_round s H) as (s1 & R & H1). destruct (IH s1 H1) as (s2 & R2 & H2).
  exists s2. split; [|auto]. replace (S n * 7) with (7 + n * 7) by lia. rewrite repeat_app.
  rewrite (wexec_app _ _ _ _ R). exact R2.
Qed.

Lemma loops_idle : forall n, loops (repeat idle_loop n) = n.
Proof. induction n; [reflexivity|]. cbn [repeat]. rewrite loops_cons, IHn. reflexivity. Qed.

Lemma spins_forever : forall n, exists s l s',
  wreachable s /\ wexec l s = Some s' /\ n <= loops l /\ w_terminate s' = false /\
  Forall (fun a => a = WLoop EvNone 0 false) l.
Proof.
  intro n.
  assert (X : exists s, wexec spin_start w_init = Some s /\ spinning s).
  { eexists. split; [vm_compute; reflexivity|]. vm_compute. auto. }
  destruct X as (s & R & H). destruct (spins n s H) as (s' & R' & H').
  exists s, (repeat idle_loop (n * 7)), s'. split; [exists spin_start; exact R|]. split; [exact R'|].
  split; [rewrite loops_idle; lia|]. split; [apply H'|].
  apply Forall_forall. intros a I. now apply repeat_spec in I.
Qed.
