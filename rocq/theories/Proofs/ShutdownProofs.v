(** Shutting the whole server down. *)
From Coq Require Import String List NArith ZArith Bool Arith Lia.
From Verif Require Import Model.Base Model.Endian Model.Protocol Model.Block Model.Transceiver Model.RequestMap Model.Streams Model.Environment
  Model.Management Model.Manager Model.Request Model.System Model.Shutdown
  Spec.EndianSpec Spec.WireSpec Spec.TransceiverSpec Spec.ManagerSpec Spec.SystemSpec Spec.ShutdownSpec
  Proofs.ManagerProofs Proofs.ManagerStep Proofs.ManagerFacts Proofs.SystemProofs Proofs.SystemRest.
From Verif Require Proofs.TransmitProofs.
Import ListNotations.

(** * Why a connection is closed *)
Lemma read_keeps o n sk r sk' : sock_read o n sk = (r, sk') -> s_valid sk = true -> s_closing sk = false -> o <> KErr ->
  s_valid sk' = true /\ s_closing sk' = false /\ exists b, r = Some b.
Proof.
  unfold sock_read. intros H V C O. rewrite V, C in H. cbn in H. destruct n; [injection H as <- <-; eauto|].
  destruct o; try congruence; injection H as <- <-; cbn; eauto.
Qed.
Lemma more_keeps o s b st r st' : read_more o s b st = Val (r, st') -> s_valid (t_socks st s) = true -> s_closing (t_socks st s) = false -> o <> KErr ->
  s_valid (t_socks st' s) = true /\ s_closing (t_socks st' s) = false.
Proof.
  unfold read_more. intros H V C O. destruct (sock_read _ _ _) as [x sk] eqn:E. destruct (read_keeps _ _ _ _ _ E V C O) as (V' & C' & y & ->).
  destruct (b_store _ _ _); [|discriminate]. cbn [obind] in H. destruct (b_setSize _ _); [|discriminate]. cbn [obind] in H. injection H as <- <-.
  cbn. unfold fset. rewrite N.eqb_refl. auto.
Qed.
Lemma body_keeps o s b st st' : receive_body o s b st = Val st' -> s_valid (t_socks st s) = true -> s_closing (t_socks st s) = false -> o <> KErr ->
  s_valid (t_socks st' s) = true.
Proof.
  unfold receive_body. intros H V C O.
  destruct (if (b_size b =? 8)%nat then _ else _) as [b1|]; [|discriminate]. cbn [obind] in H.
  destruct (read_more o s b1 st) as [[r st1]|] eqn:E; [|discriminate]. cbn [obind] in H. destruct (more_keeps _ _ _ _ _ _ E V C O) as [V1 C1].
  destruct r as [b2|]; [|now injection H as <-]. destruct (_ <? _); [now injection H as <-|].
  destruct (h_fcgiId b2); [|discriminate]. cbn [obind] in H. now injection H as <-.
Qed.
Lemma receive_keeps o1 o2 s st st' : receive o1 o2 s st = Val st' -> s_valid (t_socks st s) = true -> s_closing (t_socks st s) = false ->
  o1 <> KErr -> o2 <> KErr -> s_valid (t_socks st' s) = true.
Proof.
  unfold receive. intros H V C O1 O2. rewrite V in H. cbn [negb] in H.
  destruct (_ <? _); [|eapply body_keeps; eauto]. destruct (b_setReserve _ _); [|discriminate]. cbn [obind] in H.
  destruct (read_more o1 s _ st) as [[r st1]|] eqn:E; [|discriminate]. cbn [obind] in H. destruct (more_keeps _ _ _ _ _ _ E V C O1) as [V1 C1].
  destruct r as [b2|]; [|now injection H as <-]. destruct (_ <? _); [now injection H as <-|]. eapply body_keeps; eauto.
Qed.

Lemma more_other o s b st r st' x : read_more o s b st = Val (r, st') -> x <> s -> t_socks st' x = t_socks st x.
Proof.
  unfold read_more. intros H N. destruct (sock_read _ _ _) as [[y|] sk].
  - destruct (b_store _ _ _); [|discriminate]. cbn [obind] in H. destruct (b_setSize _ _); [|discriminate]. cbn [obind] in H. injection H as _ <-.
    cbn. unfold fset. now apply N.eqb_neq in N as ->.
  - injection H as _ <-. cbn. unfold fset. now apply N.eqb_neq in N as ->.
Qed.
Lemma body_other o s b st st' x : receive_body o s b st = Val st' -> x <> s -> t_socks st' x = t_socks st x.
Proof.
  unfold receive_body. intros H N.
  destruct (if (b_size b =? 8)%nat then _ else _) as [b1|]; [|discriminate]. cbn [obind] in H.
  destruct (read_more o s b1 st) as [[r st1]|] eqn:E; [|discriminate]. cbn [obind] in H. apply (more_other _ _ _ _ _ _ x) in E; [|exact N]. rewrite <- E.
  destruct r as [b2|]; [|now injection H as <-]. destruct (_ <? _); [now injection H as <-|].
  destruct (h_fcgiId b2); [|discriminate]. cbn [obind] in H. now injection H as <-.
Qed.
Lemma receive_other o1 o2 s st st' x : receive o1 o2 s st = Val st' -> x <> s -> t_socks st' x = t_socks st x.
Proof.
  unfold receive. intros H N. destruct (negb _); [now injection H as <-|].
  destruct (_ <? _); [|eapply body_other; eauto]. destruct (b_setReserve _ _); [|discriminate]. cbn [obind] in H.
  destruct (read_more o1 s _ st) as [[r st1]|] eqn:E; [|discriminate]. cbn [obind] in H. apply (more_other _ _ _ _ _ _ x) in E; [|exact N]. rewrite <- E.
  destruct r as [b2|]; [|now injection H as <-]. destruct (_ <? _); [now injection H as <-|]. eapply body_other; eauto.
Qed.

(** The other side is taken to be closing only when poll said so. *)
Lemma more_closing o s b st r st' x : read_more o s b st = Val (r, st') -> s_closing (t_socks st' x) = s_closing (t_socks st x).
Proof.
  intros H. destruct (N.eq_dec x s) as [->|N]; [|now rewrite (more_other _ _ _ _ _ _ _ H N)].
  assert (K : forall o n sk, s_closing (snd (sock_read o n sk)) = s_closing sk).
  { intros o' n sk. unfold sock_read. destruct (negb (s_valid sk)); [reflexivity|]. destruct n; [now destruct (s_closing sk) eqn:E; cbn; rewrite ?E|].
    destruct o'; cbn; try reflexivity. now destruct (s_closing sk) eqn:E; cbn; rewrite ?E. }
  unfold read_more in H. destruct (sock_read _ _ _) as [[y|] sk] eqn:E; pose proof (f_equal (fun p => s_closing (snd p)) E) as X; cbn in X; rewrite K in X.
  - destruct (b_store _ _ _); [|discriminate]. cbn [obind] in H. destruct (b_setSize _ _); [|discriminate]. cbn [obind] in H. injection H as _ <-.
    cbn. unfold fset. now rewrite N.eqb_refl.
  - injection H as _ <-. cbn. unfold fset. rewrite !N.eqb_refl. cbn. auto.
Qed.
Lemma body_closing o s b st st' x : receive_body o s b st = Val st' -> s_closing (t_socks st' x) = s_closing (t_socks st x).
Proof.
  unfold receive_body. intros H.
  destruct (if (b_size b =? 8)%nat then _ else _) as [b1|]; [|discriminate]. cbn [obind] in H.
  destruct (read_more o s b1 st) as [[r st1]|] eqn:E; [|discriminate]. cbn [obind] in H. apply (more_closing _ _ _ _ _ _ x) in E. rewrite <- E.
  destruct r as [b2|]; [|now injection H as <-]. destruct (_ <? _); [now injection H as <-|].
  destruct (h_fcgiId b2); [|discriminate]. cbn [obind] in H. now injection H as <-.
Qed.
Lemma receive_closing o1 o2 s st st' x : receive o1 o2 s st = Val st' -> s_closing (t_socks st' x) = s_closing (t_socks st x).
Proof.
  unfold receive. intros H. destruct (negb _); [now injection H as <-|].
  destruct (_ <? _); [|eapply body_closing; eauto]. destruct (b_setReserve _ _); [|discriminate]. cbn [obind] in H.
  destruct (read_more o1 s _ st) as [[r st1]|] eqn:E; [|discriminate]. cbn [obind] in H. apply (more_closing _ _ _ _ _ _ x) in E. rewrite <- E.
  destruct r as [b2|]; [|now injection H as <-]. destruct (_ <? _); [now injection H as <-|]. eapply body_closing; eauto.
Qed.
Lemma write_closing o d sk : s_closing (snd (sock_write o d sk)) = s_closing sk.
Proof. unfold sock_write. destruct (_ || _); [reflexivity|]. now destruct o. Qed.

Lemma closing_seen : forall tr st, texec tr st -> forall s, s_closing (t_socks st s) = true -> left_by_peer s tr.
Proof.
  unfold left_by_peer. induction 1 as [|tr e st st' H IH HS]; [discriminate|]. intros s C. apply in_or_app.
  enough (s_closing (t_socks st s) = true \/ e = EPoll (Some (s, true))) as [X|X]; [left; auto|right; now left|].
  destruct e as [x|x bytes|x data kill|p|o1 o2| |o| |]; cbn in HS.
  - destruct (t_pc st); try discriminate. destruct (s_born (t_socks st x)); [discriminate|].
    injection HS as <-. cbn in C. unfold fset in C. destruct (N.eqb_spec s x); [discriminate|auto].
  - destruct (s_valid (t_socks st x)) eqn:VX; [|discriminate]. injection HS as <-. cbn in C. unfold fset in C. destruct (N.eqb_spec s x); [subst; auto|auto].
  - destruct (s_born _); [|discriminate]. injection HS as <-. auto.
  - destruct p as [[x hup]|]; destruct (t_pc st); try discriminate.
    + destruct (s_valid (t_socks st x)) eqn:VX; [|discriminate]. injection HS as <-. cbn in C. unfold fset in C.
      destruct (N.eqb_spec s x); [|auto]. subst x. cbn in C. apply orb_true_iff in C as [C|C]; [auto|]. subst hup. auto.
    + injection HS as <-. auto.
  - destruct (t_pc st) as [|[x|]| | |]; try discriminate; [|injection HS as <-; auto].
    destruct (receive o1 o2 x st) as [st1|] eqn:R; [|discriminate]. injection HS as <-. cbn in C. rewrite (receive_closing _ _ _ _ _ s R) in C. auto.
  - destruct (t_pc st); try discriminate. destruct (t_queue st); [discriminate|]. injection HS as <-. auto.
  - destruct (t_pc st) as [| | |r|]; try discriminate. pose proof (write_closing o (skipn (x_read r) (x_data r)) (t_socks st (x_sock r))) as W.
    destruct (sock_write _ _ _) as [w sk]. cbn in W. left.
    assert (K : forall f, (forall y, s_closing (f y) = s_closing y) -> s_closing (fset (t_socks st) (x_sock r) (f sk) s) = true -> s_closing (t_socks st s) = true).
    { intros f F X. unfold fset in X. destruct (N.eqb_spec s (x_sock r)); [subst; rewrite F in X; congruence|exact X]. }
    destruct w as [c|]; [destruct (negb _); [|destruct (x_kill r)]|]; injection HS as <-; cbn in C; first [solve [apply (K (fun y => y)); auto]|apply (K sock_close); auto].
  - destruct (t_pc st); try discriminate. injection HS as <-. auto.
  - destruct (t_pc st); try discriminate. destruct (t_queue st); [|discriminate]. injection HS as <-. auto.
Qed.

(** A connection that is closed gets nothing more, and stays closed. *)
Lemma closed_stays : forall e st st' s, tstep e st = Some (Val st') -> s_valid (t_socks st s) = false -> e <> EAccept s ->
  s_valid (t_socks st' s) = false /\ s_out (t_socks st' s) = s_out (t_socks st s).
Proof.
  intros e st st' s HS V B.
  destruct e as [x|x bytes|x data kill|p|o1 o2| |o| |]; cbn in HS.
  - destruct (t_pc st); try discriminate. destruct (s_born (t_socks st x)) eqn:BX; [discriminate|].
    injection HS as <-. cbn. unfold fset. destruct (N.eqb_spec s x); [subst; now contradiction B|auto].
  - destruct (s_valid (t_socks st x)) eqn:VX; [|discriminate]. injection HS as <-. cbn. unfold fset. destruct (N.eqb_spec s x); [congruence|auto].
  - destruct (s_born _); [|discriminate]. injection HS as <-. auto.
  - destruct p as [[x hup]|]; destruct (t_pc st); try discriminate.
    + destruct (s_valid (t_socks st x)) eqn:VX; [|discriminate]. injection HS as <-. cbn. unfold fset.
      destruct (N.eqb_spec s x); [congruence|auto].
    + injection HS as <-. auto.
  - destruct (t_pc st) as [|[x|]| | |]; try discriminate; [|injection HS as <-; auto].
    destruct (receive o1 o2 x st) as [st1|] eqn:R; [|discriminate]. injection HS as <-. cbn.
    destruct (N.eq_dec s x) as [<-|N]; [|rewrite (receive_other _ _ _ _ _ _ R N); auto].
    unfold receive in R. rewrite V in R. cbn in R. injection R as <-. auto.
  - destruct (t_pc st); try discriminate. destruct (t_queue st); [discriminate|]. injection HS as <-. auto.
  - destruct (t_pc st) as [| | |r|]; try discriminate.
    destruct (N.eq_dec s (x_sock r)) as [E|N].
    + unfold sock_write in HS. rewrite <- E, V in HS. cbn in HS. injection HS as <-. cbn. unfold fset. rewrite N.eqb_refl. auto.
    + destruct (sock_write _ _ _) as [w sk].
      destruct w as [c|]; [destruct (negb _); [|destruct (x_kill r)]|]; injection HS as <-; cbn; unfold fset; apply N.eqb_neq in N as ->; auto.
  - destruct (t_pc st); try discriminate. injection HS as <-. auto.
  - destruct (t_pc st); try discriminate. destruct (t_queue st); [|discriminate]. injection HS as <-. auto.
Qed.

Lemma born_only : forall e st st' s, tstep e st = Some (Val st') ->
  s_born (t_socks st' s) = s_born (t_socks st s) \/ e = EAccept s.
Proof.
  intros e st st' s HS.
  destruct e as [x|x bytes|x data kill|p|o1 o2| |o| |]; cbn in HS.
  - destruct (t_pc st); try discriminate. destruct (s_born (t_socks st x)) eqn:BX; [discriminate|].
    injection HS as <-. cbn. unfold fset. destruct (N.eqb_spec s x); [subst; auto|auto].
  - left. destruct (s_valid (t_socks st x)) eqn:VX; [|discriminate]. injection HS as <-. cbn. unfold fset. destruct (N.eqb_spec s x); [now subst|auto].
  - destruct (s_born _); [|discriminate]. injection HS as <-. auto.
  - left. destruct p as [[x hup]|]; destruct (t_pc st); try discriminate.
    + destruct (s_valid (t_socks st x)) eqn:VX; [|discriminate]. injection HS as <-. cbn. unfold fset.
      destruct (N.eqb_spec s x); [now subst|auto].
    + injection HS as <-. auto.
  - left. destruct (t_pc st) as [|[x|]| | |]; try discriminate; [|injection HS as <-; auto].
    destruct (receive o1 o2 x st) as [st1|] eqn:R; [|discriminate]. injection HS as <-. cbn.
    destruct (N.eq_dec s x) as [<-|N]; [|now rewrite (receive_other _ _ _ _ _ _ R N)].
    (* nothing in reading makes a connection *)
    assert (K : forall o n sk, s_born (snd (sock_read o n sk)) = s_born sk).
    { intros o' n sk. unfold sock_read. destruct (negb (s_valid sk)); [reflexivity|]. destruct n; [now destruct (s_closing sk)|].
      destruct o'; cbn; try reflexivity. now destruct (s_closing sk). }
    assert (KM : forall o b st r st', read_more o s b st = Val (r, st') -> s_born (t_socks st' s) = s_born (t_socks st s)).
    { intros o b st0 r st' H. unfold read_more in H. destruct (sock_read _ _ _) as [[y|] sk] eqn:E; pose proof (f_equal (fun p => s_born (snd p)) E) as X; cbn in X; rewrite K in X.
      - destruct (b_store _ _ _); [|discriminate]. cbn [obind] in H. destruct (b_setSize _ _); [|discriminate]. cbn [obind] in H. injection H as _ <-.
        cbn. unfold fset. now rewrite N.eqb_refl.
      - injection H as _ <-. cbn. unfold fset. rewrite !N.eqb_refl. cbn. auto. }
    assert (KB : forall o b st st', receive_body o s b st = Val st' -> s_born (t_socks st' s) = s_born (t_socks st s)).
    { unfold receive_body. intros o b st0 st' H. destruct (if (b_size b =? 8)%nat then _ else _) as [b1|]; [|discriminate]. cbn [obind] in H.
      destruct (read_more o s b1 st0) as [[r st2]|] eqn:E; [|discriminate]. cbn [obind] in H. apply KM in E. rewrite <- E.
      destruct r as [b2|]; [|now injection H as <-]. destruct (_ <? _); [now injection H as <-|].
      destruct (h_fcgiId b2); [|discriminate]. cbn [obind] in H. now injection H as <-. }
    unfold receive in R. destruct (negb _); [injection R as <-; congruence|].
    destruct (_ <? _); [|apply KB in R; congruence]. destruct (b_setReserve _ _); [|discriminate]. cbn [obind] in R.
    destruct (read_more o1 s _ st) as [[r st2]|] eqn:E; [|discriminate]. cbn [obind] in R. apply KM in E.
    destruct r as [b2|]; [|injection R as <-; congruence]. destruct (_ <? _); [injection R as <-; congruence|]. apply KB in R. congruence.
  - destruct (t_pc st); try discriminate. destruct (t_queue st); [discriminate|]. injection HS as <-. auto.
  - left. destruct (t_pc st) as [| | |r|]; try discriminate.
    assert (W : s_born (snd (sock_write o (skipn (x_read r) (x_data r)) (t_socks st (x_sock r)))) = s_born (t_socks st (x_sock r))).
    { unfold sock_write. destruct (_ || _); [reflexivity|]. now destruct o. }
    destruct (sock_write _ _ _) as [w sk]. cbn in W.
    assert (KF : forall f, (forall y, s_born (f y) = s_born y) -> s_born (fset (t_socks st) (x_sock r) (f sk) s) = s_born (t_socks st s)).
    { intros f F. unfold fset. destruct (N.eqb_spec s (x_sock r)); [subst; rewrite F; congruence|reflexivity]. }
    destruct w as [c|]; [destruct (negb _); [|destruct (x_kill r)]|]; injection HS as <-; cbn; first [solve [apply (KF (fun y => y)); auto]|apply (KF sock_close); auto].
  - destruct (t_pc st); try discriminate. injection HS as <-. auto.
  - destruct (t_pc st); try discriminate. destruct (t_queue st); [|discriminate]. injection HS as <-. auto.
Qed.

Lemma sends_app s a b : sends s (a ++ b) = sends s a ++ sends s b.
Proof. induction a as [|e a IH]; [reflexivity|]. destruct e; cbn; rewrite ?IH; auto. now rewrite app_assoc. Qed.

Definition why (s : N) (tr : list tev) (st : trx) : Prop :=
  left_by_peer s tr \/ read_failed s tr \/ write_failed s tr \/ finished s tr st.

Lemma closed_why : forall tr st, texec tr st -> Forall ev_ok tr -> forall s, s_born (t_socks st s) = true -> s_valid (t_socks st s) = false -> why s tr st.
Proof.
  induction 1 as [|tr e st st' H IH HS]; [discriminate|]. intros OK s B V. apply Forall_app in OK as [OK _].
  destruct (s_valid (t_socks st s)) eqn:V0.
  - destruct (TransmitProofs.close_events _ _ _ _ HS V0 V) as [(o1 & o2 & ->)|(o & ->)].
    + cbn in HS. destruct (t_pc st) as [|[x|]| | |] eqn:P; try discriminate; [|injection HS as <-; cbn in V; congruence].
      destruct (receive o1 o2 x st) as [st1|] eqn:R; [|discriminate]. injection HS as <-. cbn in V.
      destruct (N.eq_dec s x) as [<-|N]; [|rewrite (receive_other _ _ _ _ _ _ R N) in V; congruence].
      destruct (s_closing (t_socks st s)) eqn:C.
      * left. apply in_or_app. left. eapply closing_seen; eauto.
      * right. left. exists tr, o1, o2, [], st. split; [reflexivity|]. split; [exact H|]. split; [exact P|].
        assert (D : (o1 = KErr \/ o1 <> KErr) /\ (o2 = KErr \/ o2 <> KErr)) by (split; [destruct o1|destruct o2]; auto; right; discriminate).
        destruct D as [[D1|D1] [D2|D2]]; auto. rewrite (receive_keeps _ _ _ _ _ R V0 C D1 D2) in V. discriminate.
    + destruct (TransmitProofs.local_close _ _ _ _ _ H OK HS V0 V) as [ -> |(pre & d & post & S1 & NK & O & _)].
      * right. right. left. cbn in HS. destruct (t_pc st) as [| | |r|] eqn:P; try discriminate.
        exists tr, [], st, r. split; [reflexivity|]. split; [exact H|]. split; [exact P|].
        destruct (N.eq_dec (x_sock r) s) as [|N]; [assumption|exfalso].
        destruct (sock_write _ _ _) as [w sk].
        destruct w as [c|]; [destruct (negb _); [|destruct (x_kill r)]|]; injection HS as <-; cbn in V; unfold fset in V;
          (destruct (N.eqb_spec s (x_sock r)); [congruence|]); congruence.
      * right. right. right. exists pre, d, post. rewrite sends_app, S1. cbn. rewrite app_nil_r. auto.
  - destruct (s_born (t_socks st s)) eqn:B0.
    + assert (NA : e <> EAccept s) by (intros ->; cbn in HS; destruct (t_pc st); try discriminate; now rewrite B0 in HS).
      destruct (closed_stays _ _ _ _ HS V0 NA) as (_ & O). specialize (IH OK s B0 V0).
      destruct IH as [W|[(a & o1 & o2 & b & st0 & E & W)|[(a & b & st0 & r & E & W)|(pre & d & post & E & NK & W)]]].
      * left. apply in_or_app. now left.
      * right. left. exists a, o1, o2, (b ++ [e]), st0. split; [|exact W]. rewrite E, <- app_assoc. reflexivity.
      * right. right. left. exists a, (b ++ [e]), st0, r. split; [|exact W]. rewrite E, <- app_assoc. reflexivity.
      * right. right. right. exists pre, d, (post ++ sends s [e]). rewrite sends_app, E, <- app_assoc. cbn [app]. rewrite O. auto.
    + destruct (born_only _ _ _ s HS) as [X| ->]; [congruence|]. exfalso. cbn in HS. destruct (t_pc st); try discriminate. rewrite B0 in HS.
      injection HS as <-. cbn in V. unfold fset in V. rewrite N.eqb_refl in V. discriminate.
Qed.

(** * The flags *)
Lemma flags_exact {M} (beg : M -> bool) : forall (s : Manager.state M) t a s', Manager.step beg t a s = Some s' ->
  (s_stop s', s_terminate s') =
  match a, t_sig (s_threads s t) with
  | ARun _, Some true => (s_stop s, true)
  | ARun _, Some false => (true, s_terminate s)
  | _, _ => (s_stop s, s_terminate s)
  end.
Proof.
  intros s t a s' H.
  assert (NA : forall s1 : Manager.state M, s_terminate (notify_all M s1) = s_terminate s1 /\ s_stop (notify_all M s1) = s_stop s1)
    by (intro s1; repeat split; apply all_fields).
  cases H S0 P0 B0; cbn -[notify_all]; try reflexivity.
  - destruct (NA (set_flag M b s)) as (-> & ->). now destruct b.
  - destruct (NA s) as (-> & ->). reflexivity.
Qed.

Section Proofs.
Variable vts : list N -> list N -> list N.
Variable junk : nat -> list N.
Variable http_time : list N -> Z.
Variable k : chars.
Context {U : Type}.
Variable A : application U.
Variable maxPost : N.
Variable u : U.
Notation shut := (Shutdown.shut (U := U)).
Notation sstep := (System.sstep vts junk http_time k A maxPost u).
Notation sreach := (SystemSpec.sreach vts junk http_time k A maxPost u).
Notation hstep := (Shutdown.hstep vts junk http_time k A maxPost u).
Notation hexec := (Shutdown.hexec vts junk http_time k A maxPost u).
Notation hreach := (ShutdownSpec.hreach vts junk http_time k A maxPost u).
Notation sshape := (SystemProofs.sshape vts junk http_time k A maxPost u).
Notation parts := (SystemProofs.parts (U := U)).
Notation net x := (y_net (h_sys x)).
Notation man x := (y_man (h_sys x)).

Lemma hexec_app : forall l l' x x', hexec l x = Some (Done x') -> hexec (l ++ l') x = hexec l' x'.
Proof.
  induction l as [|v l IH]; intros l' x x' H; cbn [Shutdown.hexec app] in *; [now injection H as <-|].
  destruct (hstep v x) as [[x1| |]|]; try discriminate. now apply IH.
Qed.

Lemma hreach_ind : forall P : shut -> Prop, P (h_init u) ->
  (forall x v x', hreach x -> P x -> hstep v x = Some (Done x') -> P x') -> forall x, hreach x -> P x.
Proof.
  intros P P0 PS x (l & H). enough (G : forall l x0, hreach x0 -> P x0 -> hexec l x0 = Some (Done x) -> P x).
  { apply (G l (h_init u)); auto. exists []. reflexivity. }
  clear l H. induction l as [|v l IH]; intros x0 R H0 H; cbn [Shutdown.hexec] in H; [injection H as <-; exact H0|].
  destruct (hstep v x0) as [[x1| |]|] eqn:E; try discriminate. apply (IH x1); [|eapply PS; eauto|exact H].
  destruct R as (l0 & R). exists (l0 ++ [v]). rewrite (hexec_app _ _ _ _ R). cbn [Shutdown.hexec]. now rewrite E.
Qed.

Lemma hsys : forall v (x x' : shut), hstep (HSys v) x = Some (Done x') ->
  may v x = true /\ exists y, sstep v (h_sys x) = Some (Done y) /\ x' = with_sys y (mark v x).
Proof.
  intros v x x' H. cbn [Shutdown.hstep] in H. destruct (may v x); [|discriminate]. split; [reflexivity|].
  destruct (sstep v (h_sys x)) as [[y| |]|]; try discriminate. cbn in H. injection H as <-. eauto.
Qed.

Lemma hcheck : forall (x x' : shut), hstep HCheck x = Some (Done x') ->
  h_top x = true /\ h_ended x = false /\ io_free (h_sys x) = true /\
  x' = mkH (h_sys x) (h_conns x) (h_stop x) (h_term x) (h_accept x) false (h_term x || (h_stop x && none_open x)).
Proof.
  intros x x' H. cbn [Shutdown.hstep] in H. destruct (h_top x); [|discriminate]. destruct (h_ended x); [discriminate|].
  destruct (io_free (h_sys x)); [|discriminate]. cbn in H. injection H as <-. auto.
Qed.

Lemma h_of_s : forall x, hreach x -> sreach (h_sys x).
Proof.
  apply hreach_ind; [exists []; reflexivity|]. intros x [v|] x' R IH H.
  - apply hsys in H as (_ & y & E & ->). cbn. eapply sreach_step; eauto.
  - apply hcheck in H as (_ & _ & _ & ->). exact IH.
Qed.

Record hI (x : shut) : Prop := {
  j_stop : h_stop x = s_stop (man x);
  j_term : h_term x = s_terminate (man x);
  j_accept : h_stop x = true -> h_accept x = false;
  j_conns : forall s, s_born (t_socks (net x) s) = true -> In s (h_conns x);
  j_valid : forall s, s_valid (t_socks (net x) s) = true -> s_born (t_socks (net x) s) = true;
  j_ended : h_ended x = true -> h_term x = true \/ (h_stop x = true /\ forall s, s_valid (t_socks (net x) s) = false)
}.

Lemma none_open_spec : forall x, hI x -> none_open x = true -> forall s, s_valid (t_socks (net x) s) = false.
Proof.
  intros x I H s. destruct (s_valid (t_socks (net x) s)) eqn:V; [|reflexivity]. unfold none_open in H. rewrite forallb_forall in H.
  specialize (H s (j_conns x I s (j_valid x I s V))). cbn in H. now rewrite V in H.
Qed.

Lemma valid_keeps : forall e st st', tstep e st = Some (Val st') -> (forall s, s_valid (t_socks st s) = true -> s_born (t_socks st s) = true) ->
  forall s, s_valid (t_socks st' s) = true -> s_born (t_socks st' s) = true.
Proof.
  intros e st st' HS J s V. destruct (born_only _ _ _ s HS) as [E| ->].
  - rewrite E. apply J. destruct (s_valid (t_socks st s)) eqn:V0; [reflexivity|].
    enough (D : e <> EAccept s) by (destruct (closed_stays _ _ _ _ HS V0 D); congruence).
    intros ->. cbn in HS. destruct (t_pc st); try discriminate. destruct (s_born (t_socks st s)) eqn:B; [discriminate|].
    injection HS as <-. cbn in E. unfold fset in E. rewrite N.eqb_refl in E. discriminate.
  - cbn in HS. destruct (t_pc st); try discriminate. destruct (s_born (t_socks st s)) eqn:B; [discriminate|].
    injection HS as <-. cbn. unfold fset. rewrite N.eqb_refl. reflexivity.
Qed.

(** What a step of the server is to the flags and to the transceiver. *)
Lemma sstep_net : forall v x y, sstep v x = Some (Done y) ->
  (exists e, v = SNet e /\ tstep e (y_net x) = Some (Val (y_net y)) /\ y_tr y = y_tr x ++ [e]) \/
  (exists s d f t, v = SSend t /\ tstep (ESend s d f) (y_net x) = Some (Val (y_net y))) \/
  ((forall e, v <> SNet e) /\ (forall t, v <> SSend t) /\ y_net y = y_net x).
Proof.
  intros v x y H. destruct v; cbn [System.sstep] in H.
  - left. exists e. assert (N : net_step e x = Some (Done y)) by (destruct e; first [discriminate H|exact H|(destruct (io_free x); [exact H|discriminate])]).
    unfold net_step in N. destruct (tstep e (y_net x)) as [[n|]|]; try discriminate. injection N as <-. auto.
  - right. right. split; [discriminate|]. split; [discriminate|]. destruct (nth_error _ _); [|discriminate]. destruct (Manager.step _ _ _ _); [|discriminate]. now injection H as <-.
  - right. right. split; [discriminate|]. split; [discriminate|]. destruct (allowed t a x); [|discriminate]. destruct (Manager.step _ _ _ _); [|discriminate].
    destruct (System.work _ _ _ _ _ _ _ t a x) as [x1| |] eqn:W; try discriminate. cbn in H. injection H as <-.
    apply work_shape in W. apply wshape_net in W as (E & _). exact E.
  - right. left. destruct (sig_at x t); [discriminate|]. destruct (push_at x t); [discriminate|].
    destruct (base_of x t); try discriminate; destruct (y_out x t) as [|p r]; try discriminate; destruct (tstep _ _) as [[n|]|] eqn:E; try discriminate;
      injection H as <-; eauto 10.
Qed.
Lemma sstep_man : forall v x y, sstep v x = Some (Done y) ->
  (s_stop (y_man y), s_terminate (y_man y)) =
  match v with
  | SMan t (ARun _) => match sig_at x t with Some true => (s_stop (y_man x), true) | Some false => (true, s_terminate (y_man x)) | None => (s_stop (y_man x), s_terminate (y_man x)) end
  | _ => (s_stop (y_man x), s_terminate (y_man x))
  end.
Proof.
  intros v x y H. destruct v; cbn [System.sstep] in H.
  - assert (N : net_step e x = Some (Done y)) by (destruct e; first [discriminate H|exact H|(destruct (io_free x); [exact H|discriminate])]).
    unfold net_step in N. destruct (tstep e (y_net x)) as [[n|]|]; try discriminate. injection N as <-. reflexivity.
  - destruct (nth_error _ _); [|discriminate]. destruct (Manager.step _ _ _ _) eqn:E; [|discriminate]. injection H as <-. cbn [y_man]. now apply flags_exact in E.
  - destruct (allowed t a x); [|discriminate]. destruct (Manager.step _ _ _ _) eqn:E; [|discriminate].
    destruct (System.work _ _ _ _ _ _ _ t a x) as [x1| |] eqn:W; try discriminate. cbn in H. injection H as <-.
    cbn [y_man with_man]. apply flags_exact in E. rewrite E. unfold sig_at. destruct a; try reflexivity.
  - destruct (sig_at x t); [discriminate|]. destruct (push_at x t); [discriminate|].
    destruct (base_of x t); try discriminate; destruct (y_out x t) as [|p r]; try discriminate; destruct (tstep _ _) as [[n|]|] eqn:E; try discriminate;
      injection H as <-; reflexivity.
Qed.

Lemma mark_conns : forall v (x : shut), h_conns (mark v x) = match v with SNet (EAccept s) => s :: h_conns x | _ => h_conns x end.
Proof. intros [e| |t a|t] x; cbn; try reflexivity; [now destruct e|]. destruct a; try reflexivity. now destruct (sig_at _ _) as [[]|]. Qed.
Lemma mark_ended : forall v (x : shut), h_ended (mark v x) = h_ended x.
Proof. intros [e| |t a|t] x; cbn; try reflexivity; [now destruct e|]. destruct a; try reflexivity. now destruct (sig_at _ _) as [[]|]. Qed.
Lemma mark_flags : forall v (x : shut), (h_stop (mark v x), h_term (mark v x)) =
  match v with
  | SMan t (ARun _) => match sig_at (h_sys x) t with Some true => (h_stop x, true) | Some false => (true, h_term x) | None => (h_stop x, h_term x) end
  | _ => (h_stop x, h_term x)
  end.
Proof. intros [e| |t a|t] x; cbn; try reflexivity; [now destruct e|]. destruct a; try reflexivity. now destruct (sig_at _ _) as [[]|]. Qed.
Lemma mark_accept : forall v (x : shut), (h_stop x = true -> h_accept x = false) -> h_stop (mark v x) = true -> h_accept (mark v x) = false.
Proof. intros [e| |t a|t] x J; cbn; try exact J; [destruct e; exact J|]. destruct a; try exact J. destruct (sig_at _ _) as [[]|]; auto. Qed.

Lemma hI_reach : forall x, hreach x -> hI x.
Proof.
  apply hreach_ind; [constructor; cbn; try reflexivity; discriminate|].
  intros x [v|] x' R I H.
  2:{ apply hcheck in H as (T & E & F & ->). constructor; cbn; try apply I. intro D. apply orb_true_iff in D as [D|D]; [auto|].
      apply andb_true_iff in D as [D1 D2]. right. split; [exact D1|]. exact (none_open_spec x I D2). }
  apply hsys in H as (Y & y & E & ->).
  pose proof (sstep_man _ _ _ E) as MF. pose proof (mark_flags v x) as HF. rewrite (j_stop x I), (j_term x I) in HF. rewrite <- MF in HF. injection HF as HS HT.
  assert (NS : forall e, tstep e (y_net (h_sys x)) = Some (Val (y_net y)) -> (forall s, e = EAccept s -> v = SNet (EAccept s)) -> hI (with_sys y (mark v x))).
  { intros e ST EA. assert (KV := valid_keeps _ _ _ ST (j_valid x I)). constructor; cbn [with_sys h_stop h_term h_accept h_conns h_ended h_sys]; auto.
    - apply mark_accept. apply I.
    - intros s B. rewrite mark_conns. destruct (born_only _ _ _ s ST) as [X| ->].
      + rewrite X in B. apply (j_conns x I) in B. destruct v as [[]| | |]; auto. now right.
      + rewrite (EA s eq_refl). now left.
    - rewrite mark_ended. intro D. rewrite HT, HS.
      destruct (j_ended x I D) as [K|[K V]].
      + left. rewrite (j_term x I) in K. rewrite K in MF. destruct v; try (injection MF; congruence). destruct a; try (injection MF; congruence).
        destruct (sig_at _ _) as [[]|]; injection MF; congruence.
      + right. split.
        * rewrite (j_stop x I) in K. rewrite K in MF. destruct v; try (injection MF; congruence). destruct a; try (injection MF; congruence).
          destruct (sig_at _ _) as [[]|]; injection MF; congruence.
        * intro s. assert (NA : e <> EAccept s). { intros ->. rewrite (EA s eq_refl) in Y. cbn in Y. rewrite D in Y. discriminate. }
          exact (proj1 (closed_stays _ _ _ _ ST (V s) NA)). }
  destruct (sstep_net _ _ _ E) as [(e & -> & ST & _)|[(s & d & f & t & -> & ST)|(N1 & N2 & EN)]].
  - apply (NS e ST). intros s ->. reflexivity.
  - apply (NS _ ST). discriminate.
  - constructor; cbn [with_sys h_stop h_term h_accept h_conns h_ended h_sys]; auto; rewrite ?EN.
    + apply mark_accept. apply I.
    + rewrite mark_conns. intros s B. apply (j_conns x I) in B. destruct v as [[]| | |]; auto. now right.
    + apply I.
    + rewrite mark_ended. intro D. rewrite HT, HS.
      destruct (j_ended x I D) as [K|[K V]].
      * left. rewrite (j_term x I) in K. rewrite K in MF. destruct v; try (injection MF; congruence). destruct a; try (injection MF; congruence).
        destruct (sig_at _ _) as [[]|]; injection MF; congruence.
      * right. split; [|exact V]. rewrite (j_stop x I) in K. rewrite K in MF. destruct v; try (injection MF; congruence). destruct a; try (injection MF; congruence).
        destruct (sig_at _ _) as [[]|]; injection MF; congruence.
Qed.

Theorem leaves : forall x, hreach x -> h_ended x = true ->
  s_terminate (man x) = true \/ (s_stop (man x) = true /\ forall s, s_valid (t_socks (net x) s) = false).
Proof. intros x R E. pose proof (hI_reach x R) as I. rewrite <- (j_stop x I), <- (j_term x I). exact (j_ended x I E). Qed.

Theorem settled : forall x s, hreach x -> Forall ev_ok (y_tr (h_sys x)) -> h_ended x = true -> s_terminate (man x) = false ->
  s_born (t_socks (net x) s) = true ->
  left_by_peer s (y_tr (h_sys x)) \/ read_failed s (y_tr (h_sys x)) \/ write_failed s (y_tr (h_sys x)) \/ finished s (y_tr (h_sys x)) (net x).
Proof.
  intros x s R O E T B. destruct (leaves x R E) as [X|[_ V]]; [congruence|].
  destruct (parts_reach _ _ _ _ _ _ _ _ (h_of_s x R)) as (TX & _).
  exact (closed_why _ _ TX O s B (V s)).
Qed.

(** * The I/O thread ends *)
Definition closed (x : shut) : Prop := h_stop x = true /\ forall s, s_valid (t_socks (net x) s) = false.
Definition left (x : shut) : nat :=
  if h_top x then 1
  else match t_pc (net x) with
       | AtPoll => 4 + 2 * length (t_queue (net x))
       | AtRecv _ => 3 + 2 * length (t_queue (net x))
       | TxTop => 2 + 2 * length (t_queue (net x))
       | TxHave _ => 3 + 2 * length (t_queue (net x))
       | TxBack _ => 2
       end.

Lemma receive_shut : forall o1 o2 s st, s_valid (t_socks st s) = false -> receive o1 o2 s st = Val st.
Proof. intros o1 o2 s st V. unfold receive. now rewrite V. Qed.

Lemma ended_stays : forall v (x x' : shut), hstep v x = Some (Done x') -> h_ended x = true -> h_ended x' = true.
Proof.
  intros [v|] x x' H E; [apply hsys in H as (_ & y & _ & ->); cbn; now rewrite mark_ended|].
  apply hcheck in H as (_ & X & _). congruence.
Qed.
Lemma ended_runs : forall l (x x' : shut), hexec l x = Some (Done x') -> h_ended x = true -> h_ended x' = true.
Proof.
  induction l as [|v l IH]; intros x x' H E; cbn [Shutdown.hexec] in H; [now injection H as <-|].
  destruct (hstep v x) as [[x1| |]|] eqn:S1; try discriminate. eapply IH; [exact H|]. eapply ended_stays; eauto.
Qed.
Lemma mark_stop : forall v (x : shut), h_stop x = true -> h_stop (mark v x) = true.
Proof. intros [e| |t a|t] x H; cbn; auto; [now destruct e|]. destruct a; auto. now destruct (sig_at _ _) as [[]|]. Qed.
Lemma mark_top : forall v (x : shut), h_top (mark v x) = match v with SNet EBack | SNet EDone => true | _ => h_top x end.
Proof. intros [e| |t a|t] x; cbn; try reflexivity; [now destruct e|]. destruct a; try reflexivity. now destruct (sig_at _ _) as [[]|]. Qed.
Lemma none_closed : forall x, closed x -> none_open x = true.
Proof. intros x [_ V]. apply forallb_forall. intros s _. now rewrite V. Qed.

Definition sends_now (v : hev) : nat := match v with HSys (SSend _) => 1 | _ => 0 end.
Lemma left_step : forall v x x', hreach x -> closed x -> hstep v x = Some (Done x') -> h_ended x' = false ->
  closed x' /\ io_step v + left x' <= left x + 2 * sends_now v.
Proof.
  intros v x x' R [ST V] H E. pose proof (hI_reach x R) as I. destruct v as [v|].
  2:{ apply hcheck in H as (T & E0 & F & ->). cbn in E. rewrite ST, (none_closed x (conj ST V)) in E. cbn in E. rewrite orb_true_r in E. discriminate. }
  apply hsys in H as (Y & y & S1 & ->). cbn in E. rewrite mark_ended in E.
  assert (CL : forall e, tstep e (net x) = Some (Val (y_net y)) -> (forall s, e <> EAccept s) -> closed (with_sys y (mark v x))).
  { intros e TS NA. split; cbn; [now apply mark_stop|]. intro s. exact (proj1 (closed_stays _ _ _ _ TS (V s) (NA s))). }
  destruct (sstep_net _ _ _ S1) as [(e & -> & TS & _)|[(s & d & f & t & -> & TS)|(N1 & N2 & EN)]].
  - assert (NA : forall s, e <> EAccept s).
    { intros s ->. cbn in Y. rewrite (j_accept x I ST) in Y. rewrite andb_false_r in Y. discriminate. }
    split; [now apply (CL e)|]. unfold left. cbn [with_sys h_top h_sys]. rewrite mark_top. cbn [io_step sends_now].
    destruct e as [s|s b|s d kk|p|o1 o2| |o| |]; cbn [Shutdown.may] in Y; try (now contradiction (NA s));
      try (rewrite E in Y; cbn in Y; apply negb_true_iff in Y; rewrite Y); cbn in TS.
    + rewrite V in TS. discriminate.
    + destruct p as [[s hup]|]; destruct (t_pc (net x)); try discriminate; [rewrite V in TS; discriminate|]. injection TS as <-. cbn. lia.
    + destruct (t_pc (net x)) as [|[s|]| | |]; try discriminate; [rewrite (receive_shut _ _ _ _ (V s)) in TS|]; injection TS as <-; cbn; lia.
    + destruct (t_pc (net x)); try discriminate. destruct (t_queue (net x)); [discriminate|]. injection TS as <-. cbn. lia.
    + destruct (t_pc (net x)) as [| | |r|]; try discriminate. unfold sock_write in TS. rewrite V in TS. cbn in TS. injection TS as <-. cbn. lia.
    + destruct (t_pc (net x)); try discriminate. cbn. lia.
    + destruct (t_pc (net x)); try discriminate. cbn. lia.
  - split; [apply (CL _ TS); discriminate|]. unfold left. cbn [with_sys h_top h_sys]. rewrite mark_top. cbn [io_step sends_now].
    cbn in TS. destruct (s_born _); [|discriminate]. injection TS as <-. cbn [t_pc t_queue]. rewrite app_length. cbn [length].
    destruct (h_top x); [lia|]. destruct (t_pc (net x)); lia.
  - split; [split; cbn; [now apply mark_stop|now rewrite EN]|]. unfold left. cbn [with_sys h_top h_sys]. rewrite EN, mark_top.
    destruct v as [e| |t a|t]; [now contradiction (N1 e)| | |now contradiction (N2 t)]; cbn [io_step sends_now]; lia.
Qed.

Lemma left_run : forall l x x', hreach x -> closed x -> hexec l x = Some (Done x') -> h_ended x' = false ->
  io_count l + left x' <= left x + 2 * send_count l.
Proof.
  induction l as [|v l IH]; intros x x' R C H E; cbn [Shutdown.hexec] in H; [injection H as <-; cbn; lia|].
  destruct (hstep v x) as [[x1| |]|] eqn:S1; try discriminate.
  assert (E1 : h_ended x1 = false). { destruct (h_ended x1) eqn:D; [|reflexivity]. rewrite (ended_runs _ _ _ H D) in E. discriminate. }
  destruct (left_step _ _ _ R C S1 E1) as (C1 & B).
  assert (R1 : hreach x1). { destruct R as (l0 & R). exists (l0 ++ [v]). rewrite (hexec_app _ _ _ _ R). cbn [Shutdown.hexec]. now rewrite S1. }
  specialize (IH _ _ R1 C1 H E).
  assert (A1 : io_count (v :: l) = io_step v + io_count l) by reflexivity.
  assert (A2 : send_count (v :: l) = sends_now v + send_count l) by reflexivity. lia.
Qed.

Theorem ends : forall x l x', hreach x -> s_stop (man x) = true -> (forall s, s_valid (t_socks (net x) s) = false) ->
  hexec l x = Some (Done x') -> 4 + 2 * length (t_queue (net x)) + 2 * send_count l <= io_count l -> h_ended x' = true.
Proof.
  intros x l x' R ST V H B. destruct (h_ended x') eqn:E; [reflexivity|]. exfalso.
  rewrite <- (j_stop x (hI_reach x R)) in ST. pose proof (left_run l x x' R (conj ST V) H E) as L.
  assert (P : 1 <= left x') by (unfold left; destruct (h_top x'); [lia|destruct (t_pc (net x')); lia]).
  assert (Q : left x <= 4 + 2 * length (t_queue (net x))) by (unfold left; destruct (h_top x); [lia|destruct (t_pc (net x)); lia]). lia.
Qed.

(** In that state it can always go on, when it owes no message. *)
Theorem goes_on : forall x, hreach x -> s_stop (man x) = true -> (forall s, s_valid (t_socks (net x) s) = false) ->
  h_ended x = false -> io_free (h_sys x) = true -> exists v x', io_step v = 1 /\ hstep v x = Some (Done x').
Proof.
  intros x R ST V E F. destruct (h_top x) eqn:T.
  - exists HCheck. eexists. split; [reflexivity|]. cbn [Shutdown.hstep]. rewrite T, E, F. reflexivity.
  - assert (G : forall e n, tstep e (net x) = Some (Val n) -> io_step (HSys (SNet e)) = 1 -> (forall s, e <> EAccept s) -> (forall s d f, e <> ESend s d f) ->
      exists v x', io_step v = 1 /\ hstep v x = Some (Done x')).
    { intros e n TS I1 NA NE. exists (HSys (SNet e)). eexists. split; [exact I1|]. cbn [Shutdown.hstep].
      assert (MY : may (SNet e) x = true) by (destruct e; cbn; rewrite ?E, ?T; try reflexivity; now contradiction (NA s)). rewrite MY.
      assert (SS : sstep (SNet e) (h_sys x) = net_step e (h_sys x)) by (cbn [System.sstep]; rewrite F; destruct e; try reflexivity; now contradiction (NE s data kill)).
      rewrite SS. unfold net_step. rewrite TS. cbn. reflexivity. }
    destruct (t_pc (net x)) as [|[s|]| |r|r] eqn:P.
    + apply (G (EPoll None) (set_pc (AtRecv None) (net x))); [cbn; now rewrite P|reflexivity|discriminate|discriminate].
    + apply (G (ERecv KAgain KAgain) (set_pc TxTop (net x))); [cbn; rewrite P, (receive_shut _ _ _ _ (V s)); reflexivity|reflexivity|discriminate|discriminate].
    + apply (G (ERecv KAgain KAgain) (set_pc TxTop (net x))); [cbn; now rewrite P|reflexivity|discriminate|discriminate].
    + destruct (t_queue (net x)) as [|r q] eqn:Q.
      * apply (G EDone (set_pc AtPoll (net x))); [cbn; now rewrite P, Q|reflexivity|discriminate|discriminate].
      * eapply (G EPop); [cbn; rewrite P, Q; reflexivity|reflexivity|discriminate|discriminate].
    + eapply (G (EWrite WErr)); [cbn; rewrite P; unfold sock_write; rewrite V; cbn; reflexivity|reflexivity|discriminate|discriminate].
    + eapply (G EBack); [cbn; rewrite P; reflexivity|reflexivity|discriminate|discriminate].
Qed.

(** * A handler thread may not *)
Definition calm (b : bpc) : bool :=
  match b with BOther | HStart | HRead | HCond | HInner | HRead2 | HCond2 | HWait | HWaiting => true | _ => false end.
Record still (m : Manager.state message) : Prop := {
  l_tasks : s_tasks m = [];
  l_requests : s_requests m <> [];
  l_term : s_terminate m = false;
  l_threads : forall t, t_push (s_threads m t) = None /\ t_sig (s_threads m t) <> Some true /\ calm (t_base (s_threads m t)) = true
}.
Lemma woken_still : forall l m, still m -> still (fold_right (wakeup message) m l).
Proof.
  induction l as [|w l IH]; intros m H; cbn [fold_right]; [exact H|]. specialize (IH m H). set (m1 := fold_right _ m l) in *.
  constructor; cbn; try apply IH. intro t. unfold fupd. destruct (Nat.eqb_spec t w); [subst|apply IH]. cbn. destruct (l_threads m1 IH w) as (P & S1 & _). auto.
Qed.
Lemma still_step : forall m t a m', still m -> Manager.step begins t a m = Some m' -> a <> ASignal true -> (forall id g, a <> APush id g) -> still m'.
Proof.
  intros m t a m' I H NS NP. destruct (l_threads m I t) as (P & S1 & C).
  assert (RU : running m = true).
  { unfold running. rewrite (l_term m I). cbn. pose proof (l_requests m I). destruct (s_requests m); [congruence|]. now rewrite andb_false_r. }
  assert (G : forall m1 th, s_tasks m1 = [] -> s_requests m1 = s_requests m -> s_terminate m1 = false -> s_threads m1 = fupd (s_threads m) t th ->
    t_push th = None -> t_sig th <> Some true -> calm (t_base th) = true -> still m1).
  { intros m1 th T1 R1 F1 TH X1 X2 X3. constructor; [exact T1|rewrite R1; apply I|exact F1|]. intro t'. rewrite TH. unfold fupd.
    destruct (Nat.eqb_spec t' t); [auto|apply I]. }
  destruct a as [w|c|id g| |kk| |sk]; cbn [Manager.step] in H.
  - destruct (t_sig (s_threads m t)) as [kk|] eqn:SG.
    + unfold sig_step in H. destruct (s_tasksLock m); [discriminate|]. injection H as <-. destruct kk; [congruence|].
      assert (Z : still (set_flag message false m)) by (constructor; cbn; apply I).
      apply (woken_still (s_waiters (set_flag message false m))) in Z. fold (notify_all message (set_flag message false m)) in Z.
      set (m1 := notify_all message _) in *. constructor; cbn; try apply Z. intro t'. unfold fupd. destruct (Nat.eqb_spec t' t); [subst|apply Z].
      cbn. destruct (l_threads m1 Z t) as (Q1 & _ & Q2). split; [exact Q1|]. split; [discriminate|exact Q2].
    + rewrite P in H. pose proof (l_tasks m I) as TK. pose proof (l_term m I) as TM.
      destruct (t_base (s_threads m t)) eqn:B; cbn in C; try discriminate; cbn [base_step] in H; try discriminate;
        rewrite ?RU, ?TK in H; unfold lock_tasks, lock_read, bindo in H;
        try (destruct (s_tasksLock m); [discriminate|]); try (destruct (s_writer m); [discriminate|]);
        injection H as <-; (eapply G; [exact TK|reflexivity|exact TM|cbn; reflexivity|cbn; exact P|cbn; rewrite SG; discriminate|reflexivity]).
  - destruct (t_sig _); [discriminate|]. rewrite P in H. destruct (t_base (s_threads m t)); try discriminate.
  - now contradiction (NP id g).
  - destruct (t_base (s_threads m t)) eqn:B; try discriminate. injection H as <-. exact (woken_still [t] m I).
  - destruct (t_sig _) eqn:SG; [discriminate|]. injection H as <-. pose proof (l_tasks m I) as TK. pose proof (l_term m I) as TM.
    eapply G; [exact TK|reflexivity|exact TM|cbn; reflexivity|cbn; exact P|cbn; congruence|cbn; exact C].
  - rewrite P in H. destruct (t_base (s_threads m t)) eqn:B; try discriminate. injection H as <-. pose proof (l_tasks m I) as TK. pose proof (l_term m I) as TM.
    eapply G; [exact TK|reflexivity|exact TM|cbn; reflexivity|cbn; exact P|cbn; exact S1|reflexivity].
  - injection H as <-. constructor; cbn; apply I.
Qed.

Lemma still_runs : forall l x x', h_ended x = true -> still (man x) -> no_calls l -> hexec l x = Some (Done x') -> still (man x').
Proof.
  induction l as [|v l IH]; intros x x' E ST NC H; cbn [Shutdown.hexec] in H; [injection H as <-; exact ST|].
  destruct (hstep v x) as [[x1| |]|] eqn:S1; try discriminate. inversion NC as [|? ? N1 N2]; subst.
  apply (IH x1 x'); auto; [eapply ended_stays; eauto|]. destruct v as [v|]; [|apply hcheck in S1 as (_ & X & _); congruence].
  apply hsys in S1 as (Y & y & S1 & ->). cbn [with_sys h_sys]. destruct v as [e| |t a|t]; cbn [System.sstep] in S1.
  - assert (N : net_step e (h_sys x) = Some (Done y)) by (destruct e; first [discriminate S1|exact S1|(destruct (io_free (h_sys x)); [exact S1|discriminate])]).
    unfold net_step in N. destruct (tstep e _) as [[n|]|]; try discriminate. injection N as <-. exact ST.
  - cbn in Y. rewrite E in Y. discriminate.
  - destruct (allowed t a (h_sys x)); [|discriminate]. destruct (Manager.step _ _ _ _) eqn:ES; [|discriminate].
    destruct (System.work _ _ _ _ _ _ _ t a _) as [x2| |] eqn:W; try discriminate. cbn in S1. injection S1 as <-. cbn [y_man with_man].
    destruct (N1 t) as [NA NB]. eapply still_step; [exact ST|exact ES| |].
    + intros ->. now apply NA.
    + intros id g ->. now apply (NB id g).
  - destruct (l_threads _ ST t) as (_ & _ & C). unfold base_of in S1. destruct (sig_at _ _); [discriminate|]. destruct (push_at _ _); [discriminate|].
    destruct (t_base _); cbn in C; discriminate.
Qed.
End Proofs.
