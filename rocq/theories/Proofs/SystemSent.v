(** The whole server: what the peers get. *)
From Coq Require Import String List NArith ZArith Bool Arith Lia.
From Verif Require Import Model.Base Model.Endian Model.Protocol Model.Transceiver Model.RequestMap Model.Streams Model.Environment
  Model.Management Model.Manager Model.Request Model.System
  Spec.EndianSpec Spec.WireSpec Spec.EnvironmentSpec Spec.RequestSpec Spec.TransceiverSpec Spec.ManagerSpec Spec.SystemSpec
  Proofs.ManagementProofs Proofs.RequestMapProofs Proofs.ManagerProofs Proofs.ManagerStep Proofs.ManagerFacts Proofs.ManagerHist Proofs.ManagerUse
  Proofs.RequestProofs Proofs.SystemProofs Proofs.SystemFlow Proofs.SystemWork Proofs.SystemEnd Proofs.SystemSeen.
From Verif Require Proofs.TransceiverProofs Proofs.TransmitProofs.
Import ListNotations.

Lemma local_replies : forall data l, localHandler 1 data = Done l -> Forall is_unknown l.
Proof.
  intros data l H; unfold localHandler in H. destruct (_ <? _)%N; [discriminate|]. destruct (rd data 1) as [type|]; [|discriminate].
  destruct (type =? T_GET_VALUES)%N.
  - cbn in H. unfold get_values_turn in H. destruct (processParamHeader data headerSize (N.of_nat (length data))) as [[[[a b] c]|]|] eqn:E; try discriminate.
    injection H as <-. constructor.
  - injection H as <-. constructor; [|constructor]. intros bytes M. unfold unknown_reply in M.
    apply may_be_app in M as (h & b & -> & MH & M). apply may_be_app in M as (t & res & -> & MT & MR).
    apply may_be_app in MH as (h1 & r0 & -> & MH & M0). apply may_be_known in MH, MT. subst h1 t.
    apply may_be_one in M0 as (r & ->). apply may_be_length in MR. rewrite repeat_length in MR.
    exists type, res. split; [auto|]. split; [unfold len; cbn [length]; lia|].
    exists [], r. split; [cbn; lia|]. unfold record_bytes, len. cbn [length]. rewrite MR, app_nil_r. reflexivity.
Qed.

Lemma pairs_add : forall {T} (R : T -> T -> Prop) l p, ForallOrdPairs R l -> Forall (fun q => R q p) l -> ForallOrdPairs R (l ++ [p]).
Proof.
  intros T R l p H; induction H as [|a l H1 H2 IH]; intro F; cbn; [constructor; constructor|].
  inversion F; subst. constructor; [apply Forall_app; split; [exact H1|constructor; auto]|auto].
Qed.
Lemma pairs_filter : forall {T} (R : T -> T -> Prop) f l, ForallOrdPairs R l -> ForallOrdPairs R (filter f l).
Proof.
  intros T R f l H; induction H as [|a l H1 H2 IH]; cbn; [constructor|]. destruct (f a); [|exact IH].
  constructor; [|exact IH]. rewrite Forall_forall in *. intros y Y. apply filter_In in Y. now apply H1.
Qed.
Lemma pairs_impl : forall {T} (R R' : T -> T -> Prop) (P : T -> Prop) l, Forall P l -> (forall a b, P a -> P b -> R a b -> R' a b) -> ForallOrdPairs R l -> ForallOrdPairs R' l.
Proof.
  intros T R R' P l F I H; induction H as [|a l H1 H2 IH]; [constructor|]. inversion F as [|? ? F1 F2]; subst. constructor; [|auto].
  rewrite Forall_forall in *. intros y Y. apply I; auto.
Qed.

(** The request in the map is the last one with its id. *)
Definition latest (s : Manager.state message) : Prop :=
  forall o o', o_alive (ob s o) = true -> o' < s_next s -> o_rid (ob s o') = o_rid (ob s o) -> o' <= o.

Lemma latest_reach : forall s, reachable begins s -> latest s.
Proof.
  intros s R. enough (X : reachable begins s /\ latest s) by apply X. revert s R.
  intros s (l & L). assert (G : forall l s0 s1, reachable begins s0 -> latest s0 -> exec begins l s0 = Some s1 -> reachable begins s1 /\ latest s1).
  { clear. induction l as [|[t a] l IH]; intros s0 s1 R K H; cbn in H; [injection H as <-; auto|].
    destruct (Manager.step begins t a s0) as [s'|] eqn:E; [|discriminate]. cbn in H.
    apply (IH s' s1); [eapply reach_step; eauto| |exact H]. clear IH H.
    pose proof (inv_reachable begins _ R) as I. intros o o' A L E'.
    pose proof (step_pmove _ _ _ _ R E) as PM.
    destruct (step_alive begins _ _ _ _ o I E A) as [[A0 R0]|[-> _]].
    - destruct (Nat.lt_ge_cases o' (s_next s0)) as [LT|GE].
      + rewrite (step_rid begins s0 t a s' o' E LT), R0 in E'. eauto.
      + destruct PM as [id mm PA P P' PL PX|P' PL PX|id mm P P' C PL PX|w id mm PA PS P P' C BG PL PX PO|id oo mm P P' AL PL PX]; try lia.
        assert (o' = s_next s0) as -> by lia. rewrite PO, R0 in E'. cbn in E'.
        assert (X : map_find id (s_requests s0) = Some o) by (apply (i_map s0 I); auto). congruence.
    - destruct PM as [id mm PA P P' PL PX|P' PL PX|id mm P P' C PL PX|w id mm PA PS P P' C BG PL PX PO|id oo mm P P' AL PL PX]; lia. }
  eapply G; [exists []; reflexivity| |exact L]. intros o o' A. discriminate.
Qed.

Section Sent.
Variable vts : list N -> list N -> list N.
Variable junk : nat -> list N.
Variable http_time : list N -> Z.
Variable k : chars.
Context {U : Type}.
Variable A : application U.
Variable maxPost : N.
Variable u : U.
Notation sys := (System.sys (U := U)).
Notation sreach := (SystemSpec.sreach vts junk http_time k A maxPost u).
Notation sshape := (SystemProofs.sshape vts junk http_time k A maxPost u).
Notation handler := (Request.handler vts junk http_time k A).
Notation flowI := (SystemFlow.flowI maxPost).
Notation workI := (SystemWork.workI vts junk http_time k A u).
Notation rid_of x o := (o_rid (ob (y_man x) o)).
Notation next x := (s_next (y_man x)).

Definition reply (p : parcel) : Prop := p_req p = None -> is_unknown (p_data p) /\ p_kill p = false.
Record sentI (x : sys) : Prop := mkSent {
  e_out : forall t, Forall reply (y_out x t);
  e_sent : Forall reply (y_sent x);
  e_order : one_by_one x (y_sent x)
}.

Lemma sent_step : forall x x', parts x -> workI x -> sentI x -> sshape x x' -> sentI x'.
Proof.
  intros x x' (T & R & B & FE) W [E1 E2 E3] S. pose proof (inv_reachable begins _ R) as I.
  assert (KEEP : forall m : Manager.state message, (forall o, o < next x -> o_rid (ob m o) = rid_of x o) -> ForallOrdPairs (fun p q => forall o o', p_req p = Some o -> p_req q = Some o' ->
      o_rid (ob m o) = o_rid (ob m o') -> o <= o') (y_sent x)).
  { intros m RID. eapply pairs_impl; [exact (w_sock _ _ _ _ _ _ x W)| |exact E3]. cbn. intros p q P Q H o o' Po Qo RE.
    apply H; auto. rewrite !RID in RE; [exact RE|apply Q; exact Qo|apply P; exact Po]. }
  destruct S.
  - constructor; auto.
  - constructor; auto. cbn. destruct (push_call _ _ _ _ _ H0) as [_ ->]. apply KEEP. reflexivity.
  - assert (ES : y_sent x1 = y_sent x) by (destruct H1; reflexivity).
    constructor; cbn.
    + intro t'. destruct H1; cbn; auto.
      * unfold fupd. destruct (Nat.eqb _ _); [|auto]. apply Forall_forall. intros p X. apply in_map_iff in X as (r & <- & _). intro Y. discriminate.
      * unfold fupd. destruct (Nat.eqb _ _); [|auto]. apply Forall_forall. intros p X. apply in_map_iff in X as (r' & <- & X). intros _.
        apply local_replies in H6. rewrite Forall_forall in H6. cbn. auto.
    + rewrite ES. exact E2.
    + unfold one_by_one. cbn. rewrite ES. apply KEEP. intros o L. eapply step_rid; eauto.
  - pose proof (E1 t) as ET. rewrite H2 in ET. inversion ET as [|? ? ET1 ET2]; subst. constructor; cbn.
    + intro t'. unfold fupd. destruct (Nat.eqb _ _); auto.
    + apply Forall_app. auto.
    + unfold one_by_one. cbn. apply pairs_add; [exact E3|]. eapply Forall_impl; [|exact (w_sock _ _ _ _ _ _ x W)].
      intros q Q o o' Qo Po RE. destruct (Q o Qo) as [LT _].
      destruct (w_out _ _ _ _ _ _ x W t) as [X|[(o1 & X & Y)|[X Y]]]; rewrite H2 in *; [discriminate| |]; inversion Y as [|? ? Y1 Y2]; subst.
      * destruct Y1 as [Y1 _]. assert (o1 = o') as -> by congruence. destruct (wk_alive _ _ _ I X) as [AL _]. exact (latest_reach _ R o' o AL LT RE).
      * congruence.
Qed.

Lemma sent_reach : forall x, sreach x -> sentI x.
Proof.
  intros x R. enough (X : (flowI x /\ workI x) /\ sentI x) by apply X. revert x R. apply sreach_ind'.
  - split; [split; [apply flow_reach with (vts := vts) (junk := junk) (http_time := http_time) (k := k) (A := A) (u := u)
      |apply work_reach with (maxPost := maxPost)]; exists []; reflexivity|].
    constructor; cbn; [constructor|constructor|constructor].
  - intros x x' PA [[F W] E] S; split; [split; [eapply flow_step; eauto|eapply work_step; eauto]|eapply sent_step; eauto].
Qed.

Lemma wire : forall x s, sreach x -> Forall ev_ok (y_tr x) ->
  exists rest, concat (map p_data (to_peer x s)) = s_out (t_socks (y_net x) s) ++ rest.
Proof.
  intros x s R EV. pose proof (parts_reach _ _ _ _ _ _ _ x R) as (T & _). pose proof (work_reach _ _ _ _ _ _ _ x R) as W.
  destruct (TransmitProofs.written_prefix _ _ s T EV) as (rest & E). exists rest. rewrite <- E.
  unfold contents. rewrite (w_tr _ _ _ _ _ _ x W), map_map. reflexivity.
Qed.

Lemma delivered : forall x s, sreach x -> Forall ev_ok (y_tr x) -> SystemSpec.quiet x s ->
  s_valid (t_socks (y_net x) s) = true -> s_closing (t_socks (y_net x) s) = false ->
  (forall r, In r (t_queue (y_net x)) -> x_sock r <> s) ->
  s_out (t_socks (y_net x) s) = concat (map p_data (to_peer x s)).
Proof.
  intros x s R EV (_ & _ & PC & _) V C Q. pose proof (parts_reach _ _ _ _ _ _ _ x R) as (T & _). pose proof (work_reach _ _ _ _ _ _ _ x R) as W.
  rewrite (TransmitProofs.drained _ _ s T EV V C Q).
  - unfold contents. rewrite (w_tr _ _ _ _ _ _ x W), map_map. reflexivity.
  - intros r [X|X]; congruence.
Qed.

Lemma whose : forall x s, sreach x ->
  one_by_one x (to_peer x s) /\
  (forall o i, is_request x o (mkRid s i) -> map (fun p => (p_data p, p_kill p)) (filter (is_for o) (to_peer x s)) = sent_for x o) /\
  Forall (fun p => match p_req p with
                   | Some o => exists i, is_request x o (mkRid s i)
                   | None => is_unknown (p_data p) /\ p_kill p = false end) (to_peer x s).
Proof.
  intros x s R. pose proof (sent_reach x R) as [_ E2 E3]. pose proof (work_reach _ _ _ _ _ _ _ x R) as W.
  pose proof (w_sock _ _ _ _ _ _ x W) as WS. rewrite Forall_forall in WS, E2.
  split; [apply pairs_filter; exact E3|]. split.
  - intros o i [ON RI]. unfold sent_for, to_peer. f_equal.
    assert (H : forall l, incl l (y_sent x) -> filter (is_for o) (filter (fun p => (p_sock p =? s)%N) l) = filter (is_for o) l).
    { induction l as [|p l IH]; intro IN; [reflexivity|]. cbn. assert (IH' := IH (fun a b => IN a (or_intror b))).
      destruct (p_sock p =? s)%N eqn:X; cbn; rewrite ?IH'; [reflexivity|]. destruct (is_for o p) eqn:Y; [|reflexivity]. exfalso.
      apply is_for_spec in Y. destruct (WS p (IN p (or_introl eq_refl)) o Y) as [_ Z]. rewrite RI in Z. cbn in Z.
      apply N.eqb_neq in X. contradiction. }
    apply H, incl_refl.
  - apply Forall_forall. intros p X. apply filter_In in X as [X Y]. apply N.eqb_eq in Y. destruct (p_req p) as [o|] eqn:PR.
    + destruct (WS p X o PR) as [Z1 Z2]. exists (r_id (rid_of x o)). split; [exact Z1|]. destruct (rid_of x o) as [a b]. cbn in *. congruence.
    + exact (E2 p X PR).
Qed.

Lemma id_small : forall x o id, sreach x -> Forall ev_ok (y_tr x) -> is_request x o id -> (r_id id < 65536)%N.
Proof.
  intros x o [s i] R EV [ON RI]. pose proof (parts_reach _ _ _ _ _ _ _ x R) as (T & RM & B & FE). pose proof (flow_reach _ _ _ _ _ _ _ x R) as F.
  destruct (f_id _ x F o ON) as [_ N1]. destruct (f_pre _ x F o ON) as (pre & mb & P1 & _). rewrite RI in *. cbn in N1.
  destruct (TransceiverProofs.reassembly _ _ s T EV) as (recs & rest & _ & E2 & E3 & _).
  pose proof (inbox_records s i _ recs N1 E2) as IR. change (map push_of (t_msgs (y_net x))) with (inbox x) in IR.
  apply (records_id i recs mb i E3); [|reflexivity]. rewrite <- IR. unfold settled in P1. rewrite firstn_firstn in P1.
  set (n := Nat.min _ _) in P1. rewrite <- (firstn_skipn n (inbox x)), for_rid_app, P1. apply in_or_app. left. apply in_or_app. right. left. reflexivity.
Qed.

Lemma response : forall x, sreach x -> Forall ev_ok (y_tr x) -> app_writes (any_char k) A -> forall o s i, is_request x o (mkRid s i) ->
  exists out fin pending, Forall (is_stream i) out /\ sent_for x o ++ pending = map (fun r => (r, false)) out ++ fin /\
    (fin = [] \/ exists r status kill, (status = 0 \/ status = 3)%N /\ is_end i status r /\ fin = [(r, kill)] /\
       forall earlier mb role flags, before x o = earlier ++ [mb] -> web_begin role flags mb -> kill = negb (N.odd flags)) /\
    (~ worked_on x o -> pending = []) /\
    (~ alive x o -> s_valid (t_socks (y_net x) s) = true -> (forall p, In p (inbox x) -> fst p <> mkRid s 65535) -> fin <> [] /\ pending = []).
Proof.
  intros x R EV WR o s i IQ. pose proof (parts_reach _ _ _ _ _ _ _ x R) as (T & RM & B & FE). pose proof (inv_reachable begins _ RM) as I.
  pose proof (flow_reach _ _ _ _ _ _ _ x R) as F. pose proof (work_reach _ _ _ _ _ _ _ x R) as W. pose proof (loss_reach _ _ _ _ _ _ _ x R) as LO.
  pose proof (id_small x o _ R EV IQ) as SM. cbn in SM. pose proof IQ as [ON RI].
  destruct (f_pre _ x F o ON) as (pre & mb & P1 & P2 & P3). rewrite RI in P3, P1.
  assert (BE : before x o = pre ++ [mb]) by (rewrite (before_at vts junk http_time maxPost x o FE F ON), RI; exact P1).
  assert (CI : c_id (y_cfg x o) = i).
  { clear - P3. unfold begin_config in P3. destruct (from16 _); [|discriminate]. destruct (rd _ 10); [|discriminate]. injection P3 as <-. reflexivity. }
  destruct (w_run _ _ _ _ _ _ x W o ON) as (b & E1 & E2 & E3 & E4). destruct (w_sent _ _ _ _ _ _ x W o ON) as [S1 S2].
  destruct (request_sent vts junk http_time k U A (y_cfg x o) u _ _ _ _ ltac:(rewrite CI; exact SM) WR E1) as (out & FO & Q). rewrite CI in FO, Q.
  assert (PEND : exists pending, sent_for x o ++ pending = q_sent (y_rq x o) /\ (~ worked_on x o -> pending = [])).
  { assert (D : (exists t, wk (tb (y_man x) t) = Some o) \/ forall t, wk (tb (y_man x) t) <> Some o).
    { destruct (o_mutex (ob (y_man x) o)) as [t|] eqn:MU.
      - destruct (wk (tb (y_man x) t)) as [o'|] eqn:X.
        + destruct (Nat.eq_dec o' o) as [->|N]; [left; eauto|right]. intros t' Y.
          pose proof (i_req _ I t' o (wk_req _ _ Y)) as [_ Z]. congruence.
        + right. intros t' Y. pose proof (i_req _ I t' o (wk_req _ _ Y)) as [_ Z]. congruence.
      - right. intros t' Y. pose proof (i_req _ I t' o (wk_req _ _ Y)) as [_ Z]. congruence. }
    destruct D as [(t & D)|D].
    - exists (map (fun p => (p_data p, p_kill p)) (y_out x t)). split; [apply S1; exact D|]. intro N. exfalso. apply N. exists t.
      destruct (tb (y_man x) t); try discriminate; injection D as ->; eauto.
    - exists []. rewrite app_nil_r. split; [apply S2; exact D|reflexivity]. }
  destruct PEND as (pending & PE & PN). exists out.
  assert (KI : forall earlier mb0 role flags, before x o = earlier ++ [mb0] -> web_begin role flags mb0 -> c_kill (y_cfg x o) = negb (N.odd flags)).
  { intros earlier mb0 role flags X Y. rewrite BE in X. apply last_eq in X as [_ <-]. destruct (begun _ _ _ _ _ _ Y P3) as [_ ->]. reflexivity. }
  assert (NW : ~ alive x o -> ~ worked_on x o).
  { intros D (t & id & X). apply D. apply (wk_alive _ t o I). destruct X as [X|X]; rewrite X; reflexivity. }
  assert (DE : ~ alive x o -> s_valid (t_socks (y_net x) s) = true -> (forall p, In p (inbox x) -> fst p <> mkRid s 65535) -> b = true).
  { intros D V N. unfold alive in D. apply not_true_is_false in D.
    destruct (destroyed_why begins _ RM o ON D) as [(sk & X)|X].
    - exfalso. pose proof (proj2 (only_its_own begins _ RM o sk X)) as Y. rewrite RI in Y. cbn in Y. subst sk.
      destruct (l_lost x LO o s X) as (p & IN & X1 & X2). apply (N p IN). destruct (fst p); cbn in *; congruence.
    - destruct (ends_reachable _ RM) as (_ & _ & EN). destruct (EN o X) as [Y|Y]; [auto|].
      exfalso. rewrite RI in Y. cbn in Y. pose proof (l_gone x LO s Y) as [_ GN]. congruence. }
  destruct b.
  - destruct Q as (r & status & ST & IE & Q). exists [(r, c_kill (y_cfg x o))], pending. split; [exact FO|]. split; [rewrite PE; exact Q|].
    split; [right; exists r, status, (c_kill (y_cfg x o)); auto|]. split; [exact PN|]. intros D _ _. split; [discriminate|auto].
  - exists [], pending. split; [exact FO|]. split; [rewrite PE, app_nil_r; exact Q|]. split; [now left|]. split; [exact PN|].
    intros D V N. discriminate (DE D V N).
Qed.
End Sent.
