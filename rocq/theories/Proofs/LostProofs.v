(** What is lost when a connection closes. *)
From Coq Require Import String List NArith ZArith Arith Lia ZifyBool ZifyNat ZifyN Bool.
From Verif Require Import Model.Base Model.Endian Model.Protocol Model.Block Model.Transceiver
  Spec.EndianSpec Spec.WireSpec Spec.TransceiverSpec
  Proofs.EndianProofs Proofs.ProtocolProofs Proofs.BlockProofs Proofs.ReceiveProofs Proofs.TransceiverProofs.
Import ListNotations.
Local Open Scope nat_scope.

(** Read but not delivered: less than a record, or a bare header from a peer
    that has closed its side. *)
Definition leftover (closing : bool) (l : list N) : Prop :=
  bytes_ok l /\ (incomplete l \/ (closing = true /\ complete l /\ length l = 8)).

Lemma read_more_closes : forall o s b st st', s_valid (t_socks st s) = true ->
  read_more o s b st = Val (None, st') ->
  s_in (t_socks st' s) = s_in (t_socks st s) /\
  s_closing (t_socks st' s) = s_closing (t_socks st s) /\
  (b_reserve b <= b_size b -> s_closing (t_socks st s) = true).
Proof.
  intros o s b st st' HV H. unfold read_more, sock_read in H. rewrite HV in H. cbn [negb] in H.
  set (k := t_socks st s) in *.
  destruct (b_reserve b - b_size b) as [|n] eqn:EN.
  - destruct (s_closing k) eqn:C.
    + injection H as <-. unfold cleanupSocket. cbn. rewrite !fset_same. cbn. auto.
    + exfalso. revert H. destruct (b_store _ _ _) as [b1|]; cbn [obind]; [|discriminate].
      destruct (b_setSize _ _) as [b2|]; cbn [obind]; discriminate.
  - destruct o as [c| | |].
    + exfalso. revert H. destruct (b_store _ _ _) as [b1|]; cbn [obind]; [|discriminate].
      destruct (b_setSize _ _) as [b2|]; cbn [obind]; discriminate.
    + exfalso. revert H. destruct (b_store _ _ _) as [b1|]; cbn [obind]; [|discriminate].
      destruct (b_setSize _ _) as [b2|]; cbn [obind]; discriminate.
    + destruct (s_closing k) eqn:C.
      * injection H as <-. unfold cleanupSocket. cbn. rewrite !fset_same. cbn. auto.
      * exfalso. revert H. destruct (b_store _ _ _) as [b1|]; cbn [obind]; [|discriminate].
        destruct (b_setSize _ _) as [b2|]; cbn [obind]; discriminate.
    + injection H as <-. unfold cleanupSocket. cbn. rewrite !fset_same. cbn.
      split; [reflexivity|]. split; [reflexivity|]. lia.
Qed.

Definition lost (s : N) (l : list N) (st st' : trx) : Prop :=
  exists d, s_in (t_socks st s) = d ++ s_in (t_socks st' s) /\
    s_closing (t_socks st' s) = s_closing (t_socks st s) /\
    leftover (s_closing (t_socks st s)) (l ++ d).

Lemma body_lost : forall o s b l st st', b_inv b -> b_view b = known l -> bytes_ok l ->
  8 <= length l -> (length l <> 8 -> b_reserve b = need l) -> length l <= need l ->
  (length l = need l -> length l = 8) ->
  s_valid (t_socks st s) = true -> bytes_ok (s_in (t_socks st s)) ->
  receive_body o s b st = Val st' -> s_valid (t_socks st' s) = false -> lost s l st st'.
Proof.
  intros o s b l st st' HI HV HB H8 HR HN HE HS HIN H HF. unfold receive_body in H.
  destruct (h_fields b l HV HB H8) as (F1 & F2 & F3).
  assert (SZ : b_size b = length l) by (apply view_size; auto).
  assert (B1 : exists b1, (if b_size b =? 8
      then obind (h_contentLength b) (fun cl => obind (h_paddingLength b) (fun pl =>
           b_setReserve (8 + N.to_nat cl + N.to_nat pl) b))
      else Val b) = Val b1 /\ b_inv b1 /\ b_view b1 = known l /\ b_reserve b1 = need l).
  { rewrite SZ. destruct (Nat.eqb_spec (length l) 8) as [E|E].
    - rewrite F2, F3. cbn [obind].
      destruct (setReserve_ok (need l) b HI) as (b1 & E1 & I1 & V1 & R1).
      change (8 + _ + _) with (need l). rewrite E1. exists b1. split; [reflexivity|]. split; auto. split; auto.
      rewrite V1, HV. apply firstn_all2. rewrite known_length. lia.
    - exists b. auto. }
  destruct B1 as (b1 & E1 & I1 & V1 & R1). rewrite E1 in H. cbn [obind] in H.
  assert (SZ1 : b_size b1 = length l) by (apply view_size; auto).
  destruct (read_more_ok o s b1 st I1 HS HIN) as [(st1 & E & _ & _)|(d & b2 & st1 & E & _ & HT & _)].
  - rewrite E in H. cbn [obind] in H. assert (st1 = st') by congruence. subst st1.
    destruct (read_more_closes o s b1 st st' HS E) as (C1 & C2 & C3).
    exists []. split; [now rewrite C1|]. split; [exact C2|]. rewrite app_nil_r. split; [exact HB|].
    destruct (Nat.eq_dec (length l) (need l)) as [EQ|NE].
    + right. split; [apply C3; lia|]. split; [split; assumption|auto].
    + left. right. lia.
  - exfalso. destruct HT as (_ & _ & T & _). rewrite E in H. cbn [obind] in H.
    destruct (b_size b2 <? b_reserve b2).
    + assert (st1 = st') by congruence. congruence.
    + revert H. destruct (h_fcgiId b2) as [id|]; cbn [obind]; [|discriminate].
      intros H. assert (Q : t_socks st' = t_socks st1) by (injection H as <-; reflexivity).
      rewrite Q in HF. congruence.
Qed.

Lemma receive_lost : forall o1 o2 s st st' l, rest_inv (t_bufs st s) l ->
  s_valid (t_socks st s) = true -> bytes_ok (s_in (t_socks st s)) ->
  receive o1 o2 s st = Val st' -> s_valid (t_socks st' s) = false -> lost s l st st'.
Proof.
  intros o1 o2 s st st' l (HI & HV & HB & HC & HR) HS HIN H HF. unfold receive in H. rewrite HS in H. cbn [negb] in H.
  assert (SZ : b_size (t_bufs st s) = length l) by (apply view_size; auto). rewrite SZ in H.
  destruct (Nat.ltb_spec (length l) 8) as [L|L].
  - destruct (setReserve_ok 8 (t_bufs st s) HI) as (b1 & E1 & I1 & V1 & R1). rewrite E1 in H. cbn [obind] in H.
    assert (V1' : b_view b1 = known l).
    { rewrite V1, HV. apply firstn_all2. rewrite known_length. lia. }
    destruct (read_more_ok o1 s b1 st I1 HS HIN) as [(st1 & E & _ & _)|(d & b2 & st1 & E & _ & HT & HD & I2 & V2 & R2 & BU & MS & _)].
    + rewrite E in H. cbn [obind] in H. assert (st1 = st') by congruence. subst st1.
      destruct (read_more_closes o1 s b1 st st' HS E) as (C1 & C2 & C3).
      exists []. split; [now rewrite C1|]. split; [exact C2|]. rewrite app_nil_r. split; [exact HB|].
      left. now left.
    + rewrite E in H. cbn [obind] in H.
      assert (V2' : b_view b2 = known (l ++ d)) by (rewrite V2, V1', known_app; reflexivity).
      assert (SZ2 : b_size b2 = length (l ++ d)) by (apply view_size; auto).
      assert (HB2 : bytes_ok (l ++ d)) by (apply Forall_app; auto).
      destruct HT as (T1 & T2 & T3 & T4 & T5).
      destruct (Nat.ltb_spec (b_size b2) 8) as [C|C].
      * exfalso. assert (st1 = st') by congruence. congruence.
      * assert (SE : length (l ++ d) = 8) by (destruct I2 as [I21 _]; lia).
        pose proof (need_ge (l ++ d)) as NG.
        destruct (body_lost o2 s b2 (l ++ d) st1 st' I2 V2' HB2) as (d2 & D1 & D2 & D3); try lia; auto.
        { rewrite T3. exact HS. }
        { rewrite T1 in HIN. apply Forall_app in HIN. apply HIN. }
        exists (d ++ d2). split; [now rewrite T1, D1, app_assoc|]. split; [congruence|].
        rewrite app_assoc, <- T4. exact D3.
  - destruct HC as [HC|[_ HC]]; [lia|].
    apply (body_lost o2 s (t_bufs st s) l st st'); auto; lia.
Qed.

(** ** Over an execution *)
Definition Linv (tr : list tev) (st : trx) (s : N) : Prop :=
  s_valid (t_socks st s) = false ->
  exists recs l,
    peer_bytes s tr = concat recs ++ l ++ s_in (t_socks st s) /\
    Forall (fun r => complete r /\ bytes_ok r) recs /\
    filter (is_rec_of s) (t_msgs st) = map (mkrec s) recs /\
    leftover (s_closing (t_socks st s)) l.

Lemma open_left : forall tr st s, Rinv tr st s -> s_valid (t_socks st s) = true ->
  exists recs l,
    peer_bytes s tr = concat recs ++ l ++ s_in (t_socks st s) /\
    Forall (fun r => complete r /\ bytes_ok r) recs /\
    filter (is_rec_of s) (t_msgs st) = map (mkrec s) recs /\
    rest_inv (t_bufs st s) l.
Proof.
  intros tr st s [_ _ (recs & rest & M1 & M2 & _ & M4)] V. destruct (M4 V) as (M & l & -> & R).
  exists recs, l. split; auto. split; auto. split; [|exact R].
  now rewrite <- rec_msgs, M, rec_mkrec.
Qed.

(** A step that delivers nothing and takes nothing from the connection. *)
Lemma Linv_quiet : forall tr e st st' s, Rinv tr st s -> Linv tr st s ->
  peer_bytes s (tr ++ [e]) = peer_bytes s tr ->
  filter (is_rec_of s) (t_msgs st') = filter (is_rec_of s) (t_msgs st) ->
  s_in (t_socks st' s) = s_in (t_socks st s) ->
  (s_valid (t_socks st s) = false -> s_closing (t_socks st' s) = s_closing (t_socks st s)) ->
  Linv (tr ++ [e]) st' s.
Proof.
  intros tr e st st' s R L E1 E2 E3 E4 V. rewrite E1, E2, E3.
  destruct (s_valid (t_socks st s)) eqn:V0.
  - destruct (open_left tr st s R V0) as (recs & l & P & A & M & (_ & _ & B & I & _)).
    exists recs, l. split; auto. split; auto. split; auto. split; auto.
  - rewrite E4 by auto. apply L. exact V0.
Qed.

Lemma rec_other : forall x s l st st', received x l st st' -> x <> s ->
  filter (is_rec_of s) (t_msgs st') = filter (is_rec_of s) (t_msgs st).
Proof.
  intros x s l st st' H NE. destruct (received_other x s l st st' H NE) as [_ E].
  rewrite <- (rec_msgs s (t_msgs st')), <- (rec_msgs s (t_msgs st)). now rewrite E.
Qed.

Lemma tstep_Linv : forall tr e st st' s, (forall s, Rinv tr st s) -> Linv tr st s -> ev_ok e ->
  tstep e st = Some (Val st') -> Linv (tr ++ [e]) st' s.
Proof.
  intros tr e st st' s HI HL HE HS.
  assert (PB : (match e with EPeer _ _ => False | _ => True end) ->
     peer_bytes s (tr ++ [e]) = peer_bytes s tr).
  { intros H. rewrite peer_app. destruct e; cbn; try apply app_nil_r. contradiction. }
  pose proof (HI s) as R.
  destruct e as [x|x bytes|x data kill|p|o1 o2| |o| |].
  - cbn in HS. destruct (t_pc st); try discriminate.
    destruct (s_born (t_socks st x)) eqn:B; [discriminate|]. injection HS as <-.
    destruct (N.eq_dec s x) as [->|NE].
    + intros V. cbn [set_sock t_socks] in V. rewrite fset_same in V. discriminate.
    + apply (Linv_quiet tr _ st _ s); auto; cbn [set_sock t_socks t_bufs t_msgs]; rewrite ?fset_other by auto; auto.
  - cbn in HS. destruct (s_valid (t_socks st x)) eqn:V; [|discriminate]. injection HS as <-.
    destruct (N.eq_dec s x) as [->|NE].
    + intros V'. cbn [set_sock t_socks] in V'. rewrite fset_same in V'. cbn in V'. congruence.
    + apply (Linv_quiet tr _ st _ s); auto; cbn [set_sock t_socks t_bufs t_msgs]; rewrite ?fset_other by auto; auto.
      rewrite peer_app. cbn [peer_bytes]. destruct (N.eqb_spec x s); [congruence|]. apply app_nil_r.
  - cbn in HS. destruct (s_born (t_socks st x)); [|discriminate]. injection HS as <-.
    apply (Linv_quiet tr _ st _ s); auto; apply PB; exact I.
  - cbn in HS. destruct p as [[x hup]|].
    + destruct (t_pc st); try discriminate. destruct (s_valid (t_socks st x)) eqn:V; [|discriminate].
      injection HS as <-.
      apply (Linv_quiet tr _ st _ s); auto; cbn [set_pc set_sock t_socks t_bufs t_msgs];
      (destruct (N.eq_dec s x) as [->|NE]; [rewrite ?fset_same|rewrite ?fset_other by auto]; auto).
      congruence.
    + destruct (t_pc st); try discriminate. injection HS as <-.
      apply (Linv_quiet tr _ st _ s); auto; apply PB; exact I.
  - cbn in HS. destruct (t_pc st) as [|[x|]| | |]; try discriminate.
    + destruct (s_valid (t_socks st x)) eqn:V.
      * destruct (open_left tr st x (HI x) V) as (recs & l & P & A & M & RI).
        destruct (HI x) as [HB _ _].
        destruct (receive_ok o1 o2 x st l RI V HB) as (st1 & E & HR). rewrite E in HS. cbn [obind] in HS.
        injection HS as <-.
        destruct (N.eq_dec x s) as [->|NE].
        { intros V'. cbn [set_pc t_socks t_msgs] in *.
          destruct (receive_lost o1 o2 s st st1 l RI V HB E V') as (d & D1 & D2 & D3).
          exists recs, (l ++ d). rewrite PB, P, D1, D2, !app_assoc by exact I. split; [reflexivity|].
          split; [exact A|]. split; [|exact D3].
          destruct HR as (_ & [(_ & _ & _ & _ & _ & _ & MS)|(d' & (_ & _ & T & _) & _)]); [|congruence].
          rewrite MS, filter_app. cbn [filter is_rec_of]. now rewrite app_nil_r. }
        pose proof (rec_other x s l st st1 HR NE) as MO. destruct HR as ((F1 & F2 & F3) & _).
        apply (Linv_quiet tr _ st _ s); auto; cbn [set_pc t_socks t_msgs]; rewrite ?F1 by auto; auto.
      * unfold receive in HS. rewrite V in HS. cbn [negb obind] in HS. injection HS as <-.
        apply (Linv_quiet tr _ st _ s); auto; apply PB; exact I.
    + injection HS as <-. apply (Linv_quiet tr _ st _ s); auto; apply PB; exact I.
  - cbn in HS. destruct (t_pc st); try discriminate. destruct (t_queue st); [discriminate|].
    injection HS as <-. apply (Linv_quiet tr _ st _ s); auto; apply PB; exact I.
  - cbn in HS. destruct (t_pc st) as [| | |r0|]; try discriminate.
    set (x := x_sock r0) in *. unfold sock_write in HS.
    destruct (negb (s_valid (t_socks st x)) || s_closing (t_socks st x)) eqn:D.
    + injection HS as <-.
      apply (Linv_quiet tr _ st _ s); auto; cbn [set_pc set_sock t_socks t_bufs t_msgs];
      (destruct (N.eq_dec s x) as [->|NE]; [rewrite ?fset_same|rewrite ?fset_other by auto]; auto).
    + destruct o as [c|].
      * set (c' := Nat.min c (length (skipn (x_read r0) (x_data r0)))) in HS.
        destruct (Nat.eqb (x_read r0 + c') (length (x_data r0))) eqn:N1;
        [destruct (x_kill r0)|]; cbv beta iota zeta delta [negb] in HS; injection HS as <-;
        (apply (Linv_quiet tr _ st _ s); auto; cbn [set_pc set_sock t_socks t_bufs t_msgs];
         (destruct (N.eq_dec s x) as [->|NE]; [rewrite ?fset_same|rewrite ?fset_other by auto]; auto)).
      * injection HS as <-.
        apply (Linv_quiet tr _ st _ s); auto; cbn [set_pc set_sock t_socks t_bufs t_msgs];
        (destruct (N.eq_dec s x) as [->|NE]; [rewrite ?fset_same|rewrite ?fset_other by auto]; auto).
  - cbn in HS. destruct (t_pc st); try discriminate. injection HS as <-.
    apply (Linv_quiet tr _ st _ s); auto; apply PB; exact I.
  - cbn in HS. destruct (t_pc st); try discriminate. destruct (t_queue st); [|discriminate].
    injection HS as <-. apply (Linv_quiet tr _ st _ s); auto; apply PB; exact I.
Qed.

Lemma exec_Linv : forall tr st, texec tr st -> Forall ev_ok tr -> forall s, Linv tr st s.
Proof.
  induction 1 as [|tr e st st' H IH HS]; intros HO s.
  - intros _. exists [], []. cbn. split; auto. split; [constructor|]. split; auto.
    split; [constructor|]. left. left. cbn. lia.
  - apply Forall_app in HO as [HO1 HO2]. inversion HO2; subst.
    apply (tstep_Linv tr e st st' s); auto. apply exec_Rinv; auto.
Qed.

Lemma close_loses : forall tr st s, texec tr st -> Forall ev_ok tr ->
  s_valid (t_socks st s) = false ->
  exists recs partial,
    peer_bytes s tr = concat (map snd recs) ++ partial ++ s_in (t_socks st s) /\
    filter (is_rec_of s) (t_msgs st) = map (fun '(id, r) => MRecord id s (known r)) recs /\
    Forall (fun '(id, r) => whole_record id r) recs /\
    ((forall id w t, whole_record id w -> partial <> w ++ t) \/
     (s_closing (t_socks st s) = true /\ length partial = 8%nat /\ exists id, whole_record id partial)).
Proof.
  intros tr st s H HO V. destruct (exec_Linv tr st H HO s V) as (recs & l & P & A & M & LB & L).
  exists (map (fun r => (be_value (firstn 2 (skipn 2 r)), r)) recs), l.
  split; [rewrite map_map; cbn [snd]; now rewrite map_id|]. split; [rewrite map_map; exact M|].
  split.
  { apply Forall_map. eapply Forall_impl; [|exact A]. intros r (C & B). cbn beta. now apply complete_whole. }
  destruct L as [L|(C & W & E)].
  - left. apply incomplete_no_record. exact L.
  - right. split; [exact C|]. split; [exact E|]. eexists. apply complete_whole; eassumption.
Qed.
