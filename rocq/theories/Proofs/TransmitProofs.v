From Coq Require Import String List NArith ZArith Arith Lia ZifyBool ZifyNat ZifyN Bool.
From Verif Require Import Model.Base Model.Endian Model.Protocol Model.Block Model.Transceiver
  Spec.EndianSpec Spec.WireSpec Spec.TransceiverSpec
  Proofs.EndianProofs Proofs.ProtocolProofs Proofs.BlockProofs Proofs.ReceiveProofs Proofs.TransceiverProofs.
Import ListNotations.
Local Open Scope nat_scope.

(** What is waiting, the record in the I/O thread's hands first. *)
Definition pend (st : trx) : list txrec :=
  match t_pc st with TxHave r | TxBack r => [r] | _ => [] end ++ t_queue st.

Definition for_sock (s : N) (r : txrec) : bool := (x_sock r =? s)%N.
Definition pend_of (s : N) (st : trx) : list txrec := filter (for_sock s) (pend st).
Definition asend (r : txrec) : list obyte * bool := (x_data r, x_kill r).

Definition live (k : sock) : bool := s_valid k && negb (s_closing k).

(** The written part of the first waiting record. *)
Definition part (l : list txrec) : list obyte :=
  match l with [] => [] | r :: _ => firstn (x_read r) (x_data r) end.


Record Tinv (tr : list tev) (st : trx) (s : N) : Prop := {
  ti_unborn : s_born (t_socks st s) = false ->
    s_valid (t_socks st s) = false /\ sends s tr = [] /\ pend_of s st = [] /\ s_out (t_socks st s) = [];
  ti_live : live (t_socks st s) = true ->
    exists done,
      sends s tr = done ++ map asend (pend_of s st) /\ nokill done /\
      s_out (t_socks st s) = contents done ++ part (pend_of s st) /\
      match pend_of s st with
      | [] => True
      | r :: l => (x_read r = 0 \/ x_read r < length (x_data r)) /\ Forall (fun x => x_read x = 0) l
      end;
  ti_dead : s_born (t_socks st s) = true -> live (t_socks st s) = false ->
    exists done rest, sends s tr = done ++ rest /\
     ((nokill done /\
       exists p, s_out (t_socks st s) = contents done ++ p /\
        (p = [] \/ exists d k rest' n, rest = (d, k) :: rest' /\ n < length d /\ p = firstn n d)) \/
      (s_valid (t_socks st s) = false /\
       exists pre d, nokill pre /\ done = pre ++ [(d, true)] /\ s_out (t_socks st s) = contents done))
}.

Lemma Tinv_init : forall s, Tinv [] t_init s.
Proof. intros s. split; cbn; auto; discriminate. Qed.

(** Events that leave the connection, its pending records and its sends as
    they are. *)
Lemma Tinv_quiet : forall tr e st st' s, Tinv tr st s ->
  sends s (tr ++ [e]) = sends s tr -> pend_of s st' = pend_of s st ->
  s_born (t_socks st' s) = s_born (t_socks st s) ->
  s_valid (t_socks st' s) = s_valid (t_socks st s) ->
  s_closing (t_socks st' s) = s_closing (t_socks st s) ->
  s_out (t_socks st' s) = s_out (t_socks st s) ->
  Tinv (tr ++ [e]) st' s.
Proof.
  intros tr e st st' s [HU HL HD] E1 E2 E3 E4 E5 E6.
  assert (LV : live (t_socks st' s) = live (t_socks st s)) by (unfold live; now rewrite E4, E5).
  split; rewrite ?E1, ?E2, ?E3, ?E4, ?E6, ?LV; auto.
Qed.

(** The connection stops being usable, nothing was written. *)
Lemma Tinv_die : forall tr e st st' s, Tinv tr st s ->
  sends s (tr ++ [e]) = sends s tr ->
  s_born (t_socks st' s) = s_born (t_socks st s) ->
  s_born (t_socks st s) = true ->
  (s_valid (t_socks st s) = false -> s_valid (t_socks st' s) = false) ->
  live (t_socks st' s) = false ->
  s_out (t_socks st' s) = s_out (t_socks st s) ->
  Tinv (tr ++ [e]) st' s.
Proof.
  intros tr e st st' s [HU HL HD] E1 E3 E3' E4 E5 E6. split; rewrite ?E1, ?E3, ?E6.
  - congruence.
  - congruence.
  - intros _ _. destruct (live (t_socks st s)) eqn:LV.
    + destruct (HL eq_refl) as (done & S & NK & O & P).
      exists done, (map asend (pend_of s st)). split; auto. left. split; auto.
      exists (part (pend_of s st)). split; auto.
      destruct (pend_of s st) as [|r l]; [now left|]. cbn [part map]. destruct P as [[P|P] _].
      * left. now rewrite P.
      * right. exists (x_data r), (x_kill r), (map asend l), (x_read r). auto.
    + destruct (HD E3' eq_refl) as (done & rest & S & [X|(V & X)]).
      * exists done, rest. auto.
      * exists done, rest. split; auto.
Qed.

Lemma live_split : forall k, live k = true -> s_valid k = true /\ s_closing k = false.
Proof. intros k H. unfold live in H. destruct (s_valid k), (s_closing k); auto; discriminate. Qed.

Lemma firstn_step : forall (A : Type) a c (l : list A),
  firstn a l ++ firstn c (skipn a l) = firstn (a + c) l.
Proof.
  intros A a. induction a as [|a IH]; intros c l; [reflexivity|].
  destruct l as [|x l]; [now rewrite !firstn_nil|]. cbn. now rewrite IH.
Qed.

Lemma tstep_Tinv : forall tr e st st', (forall s, Rinv tr st s) -> (forall s, Tinv tr st s) ->
  tstep e st = Some (Val st') -> forall s, Tinv (tr ++ [e]) st' s.
Proof.
  intros tr e st st' HR HI HS s.
  assert (SB : (match e with ESend _ _ _ => False | _ => True end) -> sends s (tr ++ [e]) = sends s tr).
  { intros H. rewrite sends_app. destruct e; cbn; try apply app_nil_r. contradiction. }
  destruct e as [x|x bytes|x data kill|p|o1 o2| |o| |].
  - cbn in HS. destruct (t_pc st) eqn:PC; try discriminate.
    destruct (s_born (t_socks st x)) eqn:B; [discriminate|]. injection HS as <-.
    assert (PE : pend_of s (set_sock x (mkS true true false [] []) st) = pend_of s st).
    { unfold pend_of, pend. cbn. now rewrite PC. }
    destruct (N.eq_dec s x) as [->|NE].
    + destruct (HI x) as [HU _ _]. destruct (HU B) as (U1 & U2 & U3 & U4).
      split; rewrite ?PE, ?SB by exact I; cbn [set_sock t_socks]; rewrite fset_same; cbn.
      * discriminate.
      * intros _. exists []. rewrite U2, U3. cbn. repeat split; constructor.
      * discriminate.
    + apply (Tinv_quiet tr _ st _ s); auto; cbn [set_sock t_socks]; rewrite ?fset_other by auto; auto.
  - cbn in HS. destruct (s_valid (t_socks st x)) eqn:V; [|discriminate]. injection HS as <-.
    apply (Tinv_quiet tr _ st _ s); auto; cbn [set_sock t_socks];
    (destruct (N.eq_dec s x) as [->|NE]; [rewrite ?fset_same|rewrite ?fset_other by auto]; auto).
  - cbn in HS. destruct (s_born (t_socks st x)) eqn:B; [|discriminate]. injection HS as <-.
    set (st' := mkT (t_socks st) (t_bufs st) (t_queue st ++ [mkX x data 0 kill]) (t_msgs st) (t_pc st)).
    assert (PE : pend_of s st' = pend_of s st ++ (if (x =? s)%N then [mkX x data 0 kill] else [])).
    { unfold pend_of, pend, st'. cbn [t_pc t_queue]. rewrite app_assoc, filter_app. reflexivity. }
    assert (SE : sends s (tr ++ [ESend x data kill]) = sends s tr ++ (if (x =? s)%N then [(data, kill)] else [])).
    { rewrite sends_app. cbn. now rewrite app_nil_r. }
    destruct (N.eqb_spec x s) as [->|NE].
    + destruct (HI s) as [HU HL HD]. split; cbn [st' t_socks].
      * congruence.
      * intros LV. destruct (HL LV) as (done & S & NK & O & P).
        exists done. rewrite SE, PE, map_app, S, <- app_assoc. cbn [map asend x_data x_kill].
        split; auto. split; auto. destruct (pend_of s st) as [|r l]; cbn [app part] in *.
        { split; auto. }
        split; auto. destruct P as [P1 P2]. split; auto. apply Forall_app. auto.
      * intros B' LV. destruct (HD B' LV) as (done & rest & S & X).
        exists done, (rest ++ [(data, kill)]). rewrite SE, S, <- app_assoc. split; auto.
        destruct X as [(NK & q & O & X)|X]; [left|right; exact X].
        split; auto. exists q. split; auto. destruct X as [X|(d & k & rest' & n & -> & X)]; [now left|right].
        exists d, k, (rest' ++ [(data, kill)]), n. auto.
    + rewrite app_nil_r in PE, SE. apply (Tinv_quiet tr _ st _ s); auto.
  - cbn in HS. destruct p as [[x hup]|].
    + destruct (t_pc st) eqn:PC; try discriminate. destruct (s_valid (t_socks st x)) eqn:V; [|discriminate].
      injection HS as <-.
      assert (PE : pend_of s (set_pc (AtRecv (Some x)) (set_sock x
         (mkS (s_born (t_socks st x)) true (s_closing (t_socks st x) || hup)
            (s_in (t_socks st x)) (s_out (t_socks st x))) st)) = pend_of s st).
      { unfold pend_of, pend. cbn. now rewrite PC. }
      assert (B : s_born (t_socks st x) = true).
      { destruct (s_born (t_socks st x)) eqn:B; auto. destruct (HI x) as [HU _ _]. destruct (HU B). congruence. }
      destruct (N.eq_dec s x) as [->|NE].
      * destruct (s_closing (t_socks st x) || hup) eqn:C.
        { apply (Tinv_die tr _ st _ x); auto; cbn [set_pc set_sock t_socks]; rewrite ?fset_same; auto. congruence. }
        apply orb_false_iff in C as [C1 C2].
        apply (Tinv_quiet tr _ st _ x); auto; cbn [set_pc set_sock t_socks]; rewrite ?fset_same; auto.
      * apply (Tinv_quiet tr _ st _ s); auto; cbn [set_pc set_sock t_socks]; rewrite ?fset_other by auto; auto.
    + destruct (t_pc st) eqn:PC; try discriminate. injection HS as <-.
      apply (Tinv_quiet tr _ st _ s); auto. unfold pend_of, pend. cbn. now rewrite PC.
  - cbn in HS. destruct (t_pc st) as [|[x|]| | |] eqn:PC; try discriminate.
    + destruct (s_valid (t_socks st x)) eqn:V.
      * destruct (HR x) as [HB HU (recs & rest & M1 & M2 & M3 & M4)].
        destruct (M4 V) as (_ & l & _ & RI).
        destruct (receive_ok o1 o2 x st l RI V HB) as (st2 & E & (F1 & F2 & F3) & HC). rewrite E in HS. cbn [obind] in HS.
        injection HS as <-.
        assert (PE : pend_of s (set_pc TxTop st2) = pend_of s st).
        { unfold pend_of, pend. cbn. now rewrite PC, F3. }
        destruct (N.eq_dec s x) as [->|NE].
        { destruct HC as [(C1 & C2 & C3 & C4 & C5)|(d & (T1 & T2 & T3 & T4 & T5) & _)].
          - apply (Tinv_die tr _ st _ x); auto; cbn [set_pc t_socks]; auto.
            + destruct (s_born (t_socks st x)) eqn:B; auto. destruct (HU eq_refl). congruence.
            + unfold live. now rewrite C1.
          - apply (Tinv_quiet tr _ st _ x); auto. }
        { apply (Tinv_quiet tr _ st _ s); auto; cbn [set_pc t_socks]; rewrite ?F1 by auto; auto. }
      * unfold receive in HS. rewrite V in HS. cbn [negb obind] in HS. injection HS as <-.
        apply (Tinv_quiet tr _ st _ s); auto. unfold pend_of, pend. cbn. now rewrite PC.
    + injection HS as <-. apply (Tinv_quiet tr _ st _ s); auto. unfold pend_of, pend. cbn. now rewrite PC.
  - cbn in HS. destruct (t_pc st) eqn:PC; try discriminate. destruct (t_queue st) as [|r q] eqn:Q; [discriminate|].
    injection HS as <-. apply (Tinv_quiet tr _ st _ s); auto. unfold pend_of, pend. cbn. now rewrite PC, Q.
  - cbn in HS. destruct (t_pc st) as [| | |r|] eqn:PC; try discriminate.
    set (x := x_sock r) in *. unfold sock_write in HS.
    assert (PO : pend_of s st = filter (for_sock s) [r] ++ filter (for_sock s) (t_queue st)).
    { unfold pend_of, pend. rewrite PC. apply filter_app. }
    assert (BX : s_valid (t_socks st x) = true -> s_born (t_socks st x) = true).
    { intros V. destruct (s_born (t_socks st x)) eqn:B; auto. destruct (HI x) as [HU _ _]. destruct (HU B). congruence. }
    assert (BB : s_born (t_socks st x) = true).
    { destruct (s_born (t_socks st x)) eqn:B; auto. destruct (HI x) as [HU _ _].
      destruct (HU B) as (_ & _ & PX & _). unfold pend_of, pend in PX. rewrite PC in PX. cbn in PX.
      unfold for_sock in PX. fold x in PX. rewrite N.eqb_refl in PX. discriminate. }
    assert (OTHER : forall st2, s <> x -> pend_of s st2 = filter (for_sock s) (t_queue st) ->
      t_socks st2 s = t_socks st s -> Tinv (tr ++ [EWrite o]) st2 s).
    { intros st2 NE P2 S2. apply (Tinv_quiet tr _ st _ s); auto; rewrite ?S2; auto.
      rewrite P2, PO. cbn. unfold for_sock at 2. fold x.
      destruct (N.eqb_spec x s); [congruence|reflexivity]. }
    destruct (negb (s_valid (t_socks st x)) || s_closing (t_socks st x)) eqn:D.
    + injection HS as <-. destruct (N.eq_dec s x) as [->|NE].
      * apply (Tinv_die tr _ st _ x); auto; cbn [set_pc set_sock t_socks]; rewrite ?fset_same; auto.
        unfold live. destruct (s_valid _), (s_closing _); auto; discriminate.
      * apply OTHER; auto. cbn [set_pc set_sock t_socks]. now rewrite fset_other.
    + assert (LV : live (t_socks st x) = true) by (unfold live; destruct (s_valid _), (s_closing _); auto).
      destruct (live_split _ LV) as [VX CX].
      destruct o as [c|].
      * set (c' := Nat.min c (length (skipn (x_read r) (x_data r)))) in HS.
        set (k' := mkS (s_born (t_socks st x)) (s_valid (t_socks st x)) (s_closing (t_socks st x))
             (s_in (t_socks st x)) (s_out (t_socks st x) ++ firstn c' (skipn (x_read r) (x_data r)))) in *.
        destruct (N.eq_dec s x) as [SX|NE].
        2:{ destruct (Nat.eqb (x_read r + c') (length (x_data r))) eqn:N1;
            [destruct (x_kill r)|]; cbv beta iota zeta delta [negb] in HS; injection HS as <-.
            - apply OTHER; auto. cbn. now rewrite fset_other.
            - apply OTHER; auto. cbn. now rewrite fset_other.
            - apply OTHER; auto.
              + unfold pend_of, pend. cbn. unfold for_sock at 1. cbn.
                destruct (N.eqb_spec x s); [congruence|reflexivity].
              + cbn. now rewrite fset_other. }
        subst s. destruct (HI x) as [_ HL _]. destruct (HL LV) as (done & S & NK & O & P).
        assert (FX : filter (for_sock x) [r] = [r]).
        { cbn. unfold for_sock. fold x. now rewrite N.eqb_refl. }
        rewrite PO, FX in S, O, P. cbn [app map part asend] in S, O, P. destruct P as [P1 P2].
        assert (LR : x_read r <= length (x_data r)) by lia.
        assert (OUT : s_out k' = contents done ++ firstn (x_read r + c') (x_data r)).
        { unfold k'. cbn [s_out]. rewrite O, <- app_assoc, firstn_step. reflexivity. }
        assert (LC : x_read r + c' <= length (x_data r)).
        { unfold c'. rewrite skipn_length. lia. }
        destruct (Nat.eqb_spec (x_read r + c') (length (x_data r))) as [N1|N1];
        [destruct (x_kill r) eqn:K|]; cbv beta iota zeta delta [negb] in HS; injection HS as <-.
        { (* killed *)
          rewrite N1, firstn_all in OUT.
          split; cbn [t_socks]; rewrite fset_same; cbn [sock_close s_born s_valid s_out]; try change (s_born k') with (s_born (t_socks st x)).
          - congruence.
          - discriminate.
          - intros _ _. exists (done ++ [(x_data r, true)]), (map asend (filter (for_sock x) (t_queue st))).
            rewrite SB, S by exact I. unfold asend at 1. rewrite K, <- app_assoc. split; auto. right. split; auto.
            exists done, (x_data r). split; auto. split; auto. rewrite OUT.
            unfold contents. rewrite map_app, concat_app. cbn. now rewrite app_nil_r. }
        { (* finished *)
          rewrite N1, firstn_all in OUT.
          assert (PE : pend_of x (set_pc TxTop (set_sock x k' st)) = filter (for_sock x) (t_queue st)) by reflexivity.
          split; rewrite ?PE; cbn [set_pc set_sock t_socks]; rewrite fset_same; try change (s_born k') with (s_born (t_socks st x)).
          - congruence.
          - intros _. exists (done ++ [(x_data r, false)]). rewrite SB, S by exact I.
            unfold asend at 1. rewrite K, <- app_assoc.
            split; auto. split; [apply Forall_app; repeat constructor; auto|].
            rewrite OUT. unfold contents. rewrite map_app, concat_app. cbn [map fst concat].
            rewrite app_nil_r.
            destruct (filter (for_sock x) (t_queue st)) as [|r2 l2]; cbn [part].
            + rewrite app_nil_r. auto.
            + inversion P2 as [|? ? Z1 Z2]; subst. rewrite Z1. cbn [firstn]. rewrite app_nil_r.
              split; auto.
          - intros _ L. unfold live in L. cbn in L. rewrite VX, CX in L. discriminate. }
        { (* to be put back *)
          assert (PE : pend_of x (set_pc (TxBack (mkX x (x_data r) (x_read r + c') (x_kill r))) (set_sock x k' st))
             = mkX x (x_data r) (x_read r + c') (x_kill r) :: filter (for_sock x) (t_queue st)).
          { unfold pend_of, pend. cbn. unfold for_sock at 1. cbn. now rewrite N.eqb_refl. }
          split; rewrite ?PE; cbn [set_pc set_sock t_socks]; rewrite fset_same; try change (s_born k') with (s_born (t_socks st x)).
          - congruence.
          - intros _. exists done. rewrite SB, S by exact I. split; auto. split; auto.
            rewrite OUT. cbn [part x_read x_data]. split; auto. split; auto. right. lia.
          - intros _ L. unfold live in L. cbn in L. rewrite VX, CX in L. discriminate. }
      * injection HS as <-. destruct (N.eq_dec s x) as [->|NE].
        { apply (Tinv_die tr _ st _ x); auto; cbn [set_pc set_sock t_socks]; rewrite ?fset_same; auto. }
        apply OTHER; auto. cbn [set_pc set_sock t_socks]. now rewrite fset_other.
  - cbn in HS. destruct (t_pc st) as [| | | |r] eqn:PC; try discriminate. injection HS as <-.
    apply (Tinv_quiet tr _ st _ s); auto. unfold pend_of, pend. cbn. now rewrite PC.
  - cbn in HS. destruct (t_pc st) eqn:PC; try discriminate. destruct (t_queue st) eqn:Q; [|discriminate].
    injection HS as <-. apply (Tinv_quiet tr _ st _ s); auto. unfold pend_of, pend. cbn. now rewrite PC.
Qed.

Lemma exec_Tinv : forall tr st, texec tr st -> Forall ev_ok tr -> forall s, Tinv tr st s.
Proof.
  induction 1 as [|tr e st st' H IH HS]; intros HO s; [apply Tinv_init|].
  apply Forall_app in HO as [HO1 HO2].
  apply (tstep_Tinv tr e st st'); auto. now apply exec_Rinv.
Qed.

Lemma contents_app : forall a b, contents (a ++ b) = contents a ++ contents b.
Proof. intros. unfold contents. now rewrite map_app, concat_app. Qed.

Lemma contents_part : forall l, exists r, contents (map asend l) = part l ++ r.
Proof.
  intros [|x l]; [exists []; reflexivity|]. cbn [part map].
  exists (skipn (x_read x) (x_data x) ++ contents (map asend l)).
  unfold contents at 1. cbn [map concat fst asend]. rewrite app_assoc, firstn_skipn. reflexivity.
Qed.

Lemma written_prefix : forall tr st s, texec tr st -> Forall ev_ok tr ->
  exists rest, contents (sends s tr) = s_out (t_socks st s) ++ rest.
Proof.
  intros tr st s H HO. destruct (exec_Tinv tr st H HO s) as [HU HL HD].
  destruct (s_born (t_socks st s)) eqn:B.
  - destruct (live (t_socks st s)) eqn:LV.
    + destruct (HL eq_refl) as (done & S & _ & O & _). rewrite S, O, contents_app.
      destruct (contents_part (pend_of s st)) as (r & ->). exists r. now rewrite app_assoc.
    + destruct (HD eq_refl eq_refl) as (done & rest & S & [(_ & p & O & X)|(_ & pre & d & _ & _ & O)]);
      rewrite S, O, contents_app.
      * destruct X as [->|(d & k & rest' & n & -> & _ & ->)].
        { rewrite app_nil_r. eauto. }
        unfold contents at 2. cbn [map concat fst].
        exists (skipn n d ++ concat (map fst rest')).
        rewrite <- app_assoc. f_equal. now rewrite app_assoc, firstn_skipn.
      * eauto.
  - destruct (HU eq_refl) as (_ & _ & _ & ->). eexists. reflexivity.
Qed.

Lemma drained : forall tr st s, texec tr st -> Forall ev_ok tr ->
  s_valid (t_socks st s) = true -> s_closing (t_socks st s) = false ->
  (forall r, In r (t_queue st) -> x_sock r <> s) ->
  (forall r, t_pc st = TxHave r \/ t_pc st = TxBack r -> x_sock r <> s) ->
  s_out (t_socks st s) = contents (sends s tr).
Proof.
  intros tr st s H HO V C Q P. destruct (exec_Tinv tr st H HO s) as [_ HL _].
  destruct HL as (done & S & _ & O & _). { unfold live. now rewrite V, C. }
  assert (PE : pend_of s st = []).
  { unfold pend_of, pend. rewrite filter_app.
    assert (F : forall l, (forall r, In r l -> x_sock r <> s) -> filter (for_sock s) l = []).
    { induction l as [|r l IH]; intros X; [reflexivity|]. cbn. unfold for_sock at 1.
      destruct (N.eqb_spec (x_sock r) s) as [E|_]; [exfalso; apply (X r); [now left|auto]|].
      apply IH. intros. apply X. now right. }
    rewrite (F (t_queue st) Q), app_nil_r.
    apply F. intros r Hr. apply P. destruct (t_pc st); cbn in Hr; try tauto; destruct Hr as [->|[]]; auto. }
  rewrite PE in S, O. cbn in S, O. rewrite app_nil_r in S, O. congruence.
Qed.

(** ** Closing from this side *)
Lemma nokill_In : forall l d, nokill l -> ~ In (d, true) l.
Proof. intros l d H HI. unfold nokill in H. rewrite Forall_forall in H. apply H in HI. discriminate. Qed.

Lemma kill_after : forall done rest pre d post, nokill done ->
  done ++ rest = pre ++ (d, true) :: post ->
  exists mid, pre = done ++ mid /\ rest = mid ++ (d, true) :: post.
Proof.
  induction done as [|a done IH]; intros rest pre d post NK E.
  - exists pre. auto.
  - inversion NK as [|? ? N1 N2]; subst. destruct pre as [|b pre].
    + cbn in E. injection E as -> _. discriminate.
    + cbn in E. injection E as -> E. destruct (IH _ _ _ _ N2 E) as (mid & -> & ->). exists mid. auto.
Qed.

Lemma local_close : forall tr st o st' s, texec tr st -> Forall ev_ok tr ->
  tstep (EWrite o) st = Some (Val st') ->
  s_valid (t_socks st s) = true -> s_valid (t_socks st' s) = false ->
  o = WErr \/
  exists pre d post, sends s tr = pre ++ (d, true) :: post /\ nokill pre /\
    s_out (t_socks st' s) = contents pre ++ d /\ t_bufs st' s = b_empty.
Proof.
  intros tr st o st' s H HO HS V V'.
  destruct (exec_Tinv tr st H HO s) as [_ HL _].
  cbn in HS. destruct (t_pc st) as [| | |r|] eqn:PC; try discriminate.
  set (x := x_sock r) in *. unfold sock_write in HS.
  destruct (negb (s_valid (t_socks st x)) || s_closing (t_socks st x)) eqn:D.
  { injection HS as <-. cbn in V'. unfold fset in V'. destruct (N.eqb_spec s x); congruence. }
  destruct o as [c|]; [|now left]. right.
  set (c' := Nat.min c (length (skipn (x_read r) (x_data r)))) in HS.
  destruct (N.eq_dec s x) as [->|NE].
  2:{ exfalso. destruct (Nat.eqb (x_read r + c') (length (x_data r))) eqn:N1;
      [destruct (x_kill r)|]; cbv beta iota zeta delta [negb] in HS; injection HS as <-;
      cbn in V'; rewrite fset_other in V' by auto; congruence. }
  destruct (Nat.eqb_spec (x_read r + c') (length (x_data r))) as [N1|N1];
  [destruct (x_kill r) eqn:K|]; cbv beta iota zeta delta [negb] in HS; injection HS as <-;
  cbn [set_pc set_sock t_socks t_bufs] in V' |- *; rewrite fset_same in V' |- *;
  try (cbn in V'; congruence).
  rewrite fset_same. cbn [sock_close s_out].
  destruct HL as (done & S & NK & O & P).
  { unfold live. destruct (s_valid _), (s_closing _); auto; discriminate. }
  assert (PO : pend_of x st = r :: filter (for_sock x) (t_queue st)).
  { unfold pend_of, pend. rewrite PC. cbn. unfold for_sock at 1. fold x. now rewrite N.eqb_refl. }
  rewrite PO in S, O. cbn [map asend part] in S, O. unfold asend at 1 in S. rewrite K in S.
  exists done, (x_data r), (map asend (filter (for_sock x) (t_queue st))).
  split; auto. split; auto. split; auto.
  rewrite O, <- app_assoc, firstn_step, N1, firstn_all. reflexivity.
Qed.

Lemma open_until_written : forall tr st s pre d post, texec tr st -> Forall ev_ok tr ->
  s_valid (t_socks st s) = true -> sends s tr = pre ++ (d, true) :: post -> d <> [] ->
  length (s_out (t_socks st s)) < length (contents pre ++ d).
Proof.
  intros tr st s pre d post H HO V S0 ND.
  assert (LD : 0 < length d) by (destruct d; [congruence|cbn; lia]).
  destruct (exec_Tinv tr st H HO s) as [HU HL HD].
  assert (B : s_born (t_socks st s) = true).
  { destruct (s_born (t_socks st s)) eqn:B; auto. destruct (HU eq_refl). congruence. }
  assert (G : forall done rest p, nokill done -> sends s tr = done ++ rest ->
    (p = [] \/ exists d' k rest' n, rest = (d', k) :: rest' /\ n < length d' /\ p = firstn n d') ->
    length (contents done ++ p) < length (contents pre ++ d)).
  { intros done rest p NK S X. rewrite S0 in S. symmetry in S.
    destruct (kill_after _ _ _ _ _ NK S) as (mid & -> & ->).
    rewrite !app_length, contents_app, app_length.
    destruct X as [->|(d' & k & rest' & n & E & L & ->)]; [cbn; lia|].
    rewrite firstn_length. destruct mid as [|m mid].
    - cbn in E. injection E as -> _ _. lia.
    - cbn in E. injection E as -> _. change (contents ((d', k) :: mid)) with (d' ++ contents mid). rewrite app_length. lia. }
  destruct (live (t_socks st s)) eqn:LV.
  - destruct (HL eq_refl) as (done & S & NK & O & P). rewrite O.
    apply (G done (map asend (pend_of s st))); auto.
    destruct (pend_of s st) as [|r l]; [now left|]. cbn [part map]. destruct P as [[P|P] _].
    + left. now rewrite P.
    + right. exists (x_data r), (x_kill r), (map asend l), (x_read r). auto.
  - destruct (HD B eq_refl) as (done & rest & S & [(NK & p & O & X)|(F & _)]); [|congruence].
    rewrite O. eapply G; eauto.
Qed.

(** Nothing else closes a connection than a failed read or write and the
    final record. *)
Lemma close_events : forall e st st' s, tstep e st = Some (Val st') ->
  s_valid (t_socks st s) = true -> s_valid (t_socks st' s) = false ->
  (exists o1 o2, e = ERecv o1 o2) \/ (exists o, e = EWrite o).
Proof.
  intros e st st' s HS V V'.
  destruct e as [x|x bytes|x data kill|p|o1 o2| |o| |]; cbn in HS; eauto; exfalso.
  - destruct (t_pc st); try discriminate. destruct (s_born (t_socks st x)); [discriminate|].
    injection HS as <-. cbn in V'. unfold fset in V'. destruct (N.eqb_spec s x); [discriminate|congruence].
  - destruct (s_valid (t_socks st x)) eqn:VX; [|discriminate]. injection HS as <-. cbn in V'.
    unfold fset in V'. destruct (N.eqb_spec s x); [discriminate|congruence].
  - destruct (s_born _); [|discriminate]. injection HS as <-. cbn in V'. congruence.
  - destruct p as [[x hup]|]; destruct (t_pc st); try discriminate.
    + destruct (s_valid (t_socks st x)) eqn:VX; [|discriminate]. injection HS as <-. cbn in V'.
      unfold fset in V'. destruct (N.eqb_spec s x); [discriminate|congruence].
    + injection HS as <-. cbn in V'. congruence.
  - destruct (t_pc st); try discriminate. destruct (t_queue st); [discriminate|]. injection HS as <-. cbn in V'. congruence.
  - destruct (t_pc st); try discriminate. injection HS as <-. cbn in V'. congruence.
  - destruct (t_pc st); try discriminate. destruct (t_queue st); [|discriminate]. injection HS as <-. cbn in V'. congruence.
Qed.

(** A half-closed peer gets nothing more. *)
Lemma half_closed_dropped : forall st r o, t_pc st = TxHave r ->
  s_closing (t_socks st (x_sock r)) = true ->
  exists st', tstep (EWrite o) st = Some (Val st') /\ t_pc st' = TxTop /\ t_queue st' = t_queue st /\
    forall s, s_out (t_socks st' s) = s_out (t_socks st s).
Proof.
  intros st r o PC C. cbn. rewrite PC. unfold sock_write. rewrite C, orb_true_r.
  eexists. split; [reflexivity|]. cbn. repeat split. intros s. unfold fset.
  destruct (N.eqb_spec s (x_sock r)); subst; reflexivity.
Qed.

(** Running a list of events, for examples. *)
Fixpoint trun (tr : list tev) (st : trx) : option trx :=
  match tr with
  | [] => Some st
  | e :: tr' => match tstep e st with Some (Val st') => trun tr' st' | _ => None end
  end.

Lemma trun_from : forall tr pre st st', texec pre st -> trun tr st = Some st' -> texec (pre ++ tr) st'.
Proof.
  induction tr as [|e tr IH]; intros pre st st' H R; cbn in R.
  - injection R as <-. now rewrite app_nil_r.
  - destruct (tstep e st) as [[st1|]|] eqn:S; try discriminate.
    replace (pre ++ e :: tr) with ((pre ++ [e]) ++ tr) by now rewrite <- app_assoc.
    eapply IH; eauto. econstructor; eauto.
Qed.

Lemma trun_exec : forall tr st, trun tr t_init = Some st -> texec tr st.
Proof. intros tr st R. apply (trun_from tr [] t_init st te_init R). Qed.

Lemma trun_ex : forall tr (Q : trx -> Prop),
  match trun tr t_init with Some st => Q st | None => False end -> exists st, texec tr st /\ Q st.
Proof.
  intros tr Q H. destruct (trun tr t_init) as [st|] eqn:E; [|contradiction].
  exists st. split; auto. now apply trun_exec.
Qed.

(** The last read before a connection of a half-closed peer is dropped eats a
    complete record without content. *)
Lemma half_closed_record_lost : exists tr st r,
  texec tr st /\ Forall ev_ok tr /\ whole_record 1 r /\
  peer_bytes 1 tr = r /\ s_in (t_socks st 1) = [] /\ t_msgs st = [MClosed 1].
Proof.
  set (tr := [EAccept 1; EPeer 1 [1;5;0;1;0;0;0;0]; EPoll (Some (1, true)); ERecv (KGive 8) KEof]%N).
  destruct (trun_ex tr (fun st => s_in (t_socks st 1) = [] /\ t_msgs st = [MClosed 1])) as (st & E & A & B).
  { vm_compute. auto. }
  exists tr, st, [1;5;0;1;0;0;0;0]%N.
  split; auto. split.
  { unfold tr. repeat apply Forall_cons; cbn; auto; repeat constructor. }
  split.
  { exists 1%N, 5%N, [], [], 0%N. repeat split. }
  auto.
Qed.

(** After a failed write the connection is gone and nobody is told; its
    partial input stays in the buffers. *)
Lemma write_error_silent : exists tr st,
  texec tr st /\ Forall ev_ok tr /\
  s_born (t_socks st 1) = true /\ s_valid (t_socks st 1) = false /\
  t_msgs st = [] /\ b_size (t_bufs st 1) = 3.
Proof.
  set (tr := [EAccept 1; EPeer 1 [1;5;0]; EPoll (Some (1, false)); ERecv (KGive 8) KAgain;
          ESend 1 [Some 1] false; EPop; EWrite WErr]%N).
  destruct (trun_ex tr (fun st => s_born (t_socks st 1) = true /\ s_valid (t_socks st 1) = false /\
    t_msgs st = [] /\ b_size (t_bufs st 1) = 3)) as (st & E & A).
  { vm_compute. auto. }
  exists tr, st. split; auto. split; auto.
  unfold tr. repeat apply Forall_cons; cbn; auto; repeat constructor.
Qed.
