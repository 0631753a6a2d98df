(** What the server keeps for a connection. *)
From Coq Require Import String List NArith ZArith Bool Arith Lia ZifyNat ZifyN Sorted.
From Verif Require Import Model.Base Model.Endian Model.Protocol Model.Block Model.Transceiver Model.RequestMap Model.Streams Model.Environment
  Model.Management Model.Manager Model.Request Model.System
  Spec.EndianSpec Spec.WireSpec Spec.AddressSpec Spec.EnvironmentSpec Spec.RequestSpec Spec.TransceiverSpec Spec.ManagerSpec Spec.SystemSpec
  Proofs.ProtocolProofs Proofs.BlockProofs Proofs.ReceiveProofs Proofs.TransceiverProofs
  Proofs.RequestMapProofs Proofs.ManagerProofs Proofs.ManagerStep Proofs.ManagerFacts Proofs.ManagerHist Proofs.RequestProofs
  Proofs.RequestBodyProofs Proofs.SystemProofs Proofs.SystemFlow.
Import ListNotations.

(** * Input *)
Lemma two_bytes : forall l, bytes_ok l -> (be_value (firstn 2 l) < 65536)%N.
Proof.
  intros l B. assert (F : bytes_ok (firstn 2 l)) by now apply bytes_firstn.
  destruct l as [|a [|b l]]; cbn [firstn] in *; unfold be_value; cbn [fold_left]; unfold bytes_ok in F;
    repeat match goal with H : Forall _ (_ :: _) |- _ => inversion H; clear H; subst end; unfold is_byte in *; lia.
Qed.

Lemma need_bound : forall l, bytes_ok l -> (N.of_nat (need l) <= 65798)%N.
Proof.
  intros l B. unfold need. pose proof (two_bytes (skipn 4 l) (bytes_skipn 4 l B)).
  assert (nth 6 l 0 < 256)%N.
  { destruct (nth_in_or_default 6 l 0%N) as [I| ->]; [|lia]. unfold bytes_ok in B. rewrite Forall_forall in B. exact (B _ I). }
  lia.
Qed.

Definition small (b : block) : Prop := (b_size b <= b_reserve b)%nat /\ (N.of_nat (b_reserve b) <= 65798)%N.

Lemma small_empty : small b_empty.
Proof. unfold small; cbn; lia. Qed.

Lemma small_received : forall s l st st', received s l st st' -> 8 <= length l -> small (t_bufs st' s).
Proof.
  intros s l st st' (_ & [C|(d & _ & [(R & _)|(_ & _ & E & _)])]) L.
  - destruct C as (_ & _ & _ & _ & _ & -> & _). apply small_empty.
  - destruct R as ((I & _) & _ & B & _ & N). split; [exact I|]. rewrite N by (rewrite app_length; lia). now apply need_bound.
  - rewrite E. apply small_empty.
Qed.

Lemma receive_small : forall o1 o2 s st l st', rest_inv (t_bufs st s) l -> s_valid (t_socks st s) = true ->
  bytes_ok (s_in (t_socks st s)) -> receive o1 o2 s st = Val st' -> small (t_bufs st' s).
Proof.
  intros o1 o2 s st l st' (HI & HV & HB & HC & HR) HS HIN H. unfold receive in H. rewrite HS in H. cbn [negb] in H.
  assert (SZ : b_size (t_bufs st s) = length l) by (apply view_size; auto). rewrite SZ in H.
  destruct (Nat.ltb_spec (length l) 8) as [L|L].
  - destruct (setReserve_ok 8 (t_bufs st s) HI) as (b1 & E1 & I1 & V1 & R1). rewrite E1 in H. cbn [obind] in H.
    assert (V1' : b_view b1 = known l) by (rewrite V1, HV; apply firstn_all2; rewrite known_length; lia).
    destruct (read_more_ok o1 s b1 st I1 HS HIN) as [(st1 & E & HF & HCl)|(d & b2 & st1 & E & HF & HT & HD & I2 & V2 & R2 & BU & MS & _)].
    + rewrite E in H. cbn [obind] in H. injection H as <-. destruct HCl as (_ & _ & _ & _ & _ & -> & _). apply small_empty.
    + rewrite E in H. cbn [obind] in H.
      assert (V2' : b_view b2 = known (l ++ d)) by (rewrite V2, V1', known_app; reflexivity).
      assert (SZ2 : b_size b2 = length (l ++ d)) by (apply view_size; auto).
      assert (HB2 : bytes_ok (l ++ d)) by (apply Forall_app; auto).
      destruct (Nat.ltb_spec (b_size b2) 8) as [C|C].
      * injection H as <-. rewrite BU. split; [apply I2|]. rewrite R2, R1. lia.
      * assert (SE : length (l ++ d) = 8) by (destruct I2 as [I21 _]; lia).
        pose proof (need_ge (l ++ d)) as NG.
        assert (T : s_in (t_socks st s) = d ++ s_in (t_socks st1 s)) by apply HT.
        destruct (receive_body_ok o2 s b2 (l ++ d) st1 I2 V2' HB2) as (st2 & E2 & H2); try lia.
        { destruct HT as (_ & _ & -> & _). exact HS. }
        { rewrite T in HIN. apply Forall_app in HIN. apply HIN. }
        rewrite E2 in H. injection H as <-. eapply small_received; [exact H2|lia].
  - destruct HC as [HC|[_ HC]]; [lia|].
    destruct (receive_body_ok o2 s (t_bufs st s) l st HI HV HB) as (st2 & E2 & H2); try lia; auto.
    rewrite E2 in H. injection H as <-. eapply small_received; [exact H2|lia].
Qed.

Lemma step_small : forall tr e st st', (forall s, Rinv tr st s) -> tstep e st = Some (Val st') ->
  (forall s, small (t_bufs st s)) -> forall s, small (t_bufs st' s).
Proof.
  intros tr e st st' RI H S x.
  destruct e as [s|s bytes|s data kill|p|o1 o2| |o| |]; cbn in H.
  - destruct (t_pc st); try discriminate. destruct (s_born (t_socks st s)); [discriminate|]. injection H as <-. apply S.
  - destruct (s_valid (t_socks st s)); [|discriminate]. injection H as <-. apply S.
  - destruct (s_born (t_socks st s)); [|discriminate]. injection H as <-. apply S.
  - destruct p as [[s hup]|]; destruct (t_pc st); try discriminate; [destruct (s_valid (t_socks st s)); [|discriminate]|];
      injection H as <-; apply S.
  - destruct (t_pc st) as [|[s|]| | |]; try discriminate; [|injection H as <-; apply S].
    destruct (s_valid (t_socks st s)) eqn:V.
    + destruct (RI s) as [HB _ (recs & rest & _ & _ & _ & M4)]. destruct (M4 V) as (_ & l & _ & R).
      destruct (receive_ok o1 o2 s st l R V HB) as (st2 & E & ((_ & F & _) & _)). rewrite E in H. cbn [obind] in H. injection H as <-.
      cbn [set_pc t_bufs]. destruct (N.eq_dec x s) as [->|NE]; [eapply receive_small; eauto|rewrite F by auto; apply S].
    + unfold receive in H. rewrite V in H. cbn [negb obind] in H. injection H as <-. apply S.
  - destruct (t_pc st); try discriminate. destruct (t_queue st); [discriminate|]. injection H as <-. apply S.
  - destruct (t_pc st) as [| | |r0|]; try discriminate. destruct (sock_write _ _ _) as [[c|] k1].
    + destruct (negb _); [injection H as <-; apply S|]. destruct (x_kill r0); injection H as <-; [|apply S].
      cbn [t_bufs]. unfold fset. destruct (N.eqb x (x_sock r0)); [apply small_empty|apply S].
    + injection H as <-. apply S.
  - destruct (t_pc st); try discriminate. injection H as <-. apply S.
  - destruct (t_pc st); try discriminate. destruct (t_queue st); [|discriminate]. injection H as <-. apply S.
Qed.

Lemma exec_small : forall tr st, texec tr st -> Forall ev_ok tr -> forall s, small (t_bufs st s).
Proof.
  induction 1 as [|tr e st st' H IH HS]; intros HO s; [apply small_empty|].
  apply Forall_app in HO as (HO & _). eapply step_small; [exact (exec_Rinv _ _ H HO)|exact HS|now apply IH].
Qed.

(** * Requests *)
Lemma firstn_sub : forall (T : Type) n (l : list T) x, In x (firstn n l) -> In x l.
Proof. intros T n l x I. rewrite <- (firstn_skipn n l). apply in_or_app. now left. Qed.

Lemma sorted_nodup : forall (m : @rmap nat) s, sorted m ->
  NoDup (map (fun p => r_id (fst p)) (filter (fun p => N.eqb (r_socket (fst p)) s) m)).
Proof.
  intros m s H. induction H as [|p m H IH F]; cbn; [constructor|].
  destruct (N.eqb_spec (r_socket (fst p)) s) as [E|E]; [|exact IH]. cbn. constructor; [|exact IH].
  intro I. apply in_map_iff in I as (q & EQ & I). apply filter_In in I as (I & Q). apply N.eqb_eq in Q.
  rewrite Forall_forall in F. specialize (F q I). unfold lt in F. apply less_spec in F. lia.
Qed.

Lemma nodup_count : forall (l : list N) n, NoDup l -> (forall x, In x l -> 0 < x <= n)%N -> (N.of_nat (length l) <= n)%N.
Proof.
  intros l n D B. assert (L : length l <= length (map N.of_nat (seq 1 (N.to_nat n)))).
  { apply NoDup_incl_length; [exact D|]. intros x I. apply B in I. apply in_map_iff. exists (N.to_nat x). split; [lia|].
    apply in_seq. lia. }
  rewrite map_length, seq_length in L. lia.
Qed.

Section Requests.
Variable vts : list N -> list N -> list N.
Variable junk : nat -> list N.
Variable http_time : list N -> Z.
Variable k : chars.
Context {U : Type}.
Variable A : application U.
Variable maxPost : N.
Variable u : U.
Notation sys := (System.sys (U := U)).
Notation sreach := (SystemSpec.sreach vts junk http_time k A maxPost u).

Lemma input_small : forall x : sys, sreach x -> Forall ev_ok (y_tr x) -> forall s,
  (b_size (t_bufs (y_net x) s) <= b_reserve (t_bufs (y_net x) s))%nat /\ (N.of_nat (b_reserve (t_bufs (y_net x) s)) <= 65798)%N.
Proof. intros x R E s. destruct (parts_reach _ _ _ _ _ _ _ x R) as (T & _). exact (exec_small _ _ T E s). Qed.

Lemma inbox_id : forall (x : sys) p, parts x -> Forall ev_ok (y_tr x) -> In p (inbox x) -> (r_id (fst p) < 65536)%N.
Proof.
  intros x p (T & _) E I. unfold inbox in I. apply in_map_iff in I as (m & <- & I).
  destruct m as [id s data|s]; cbn; [|lia].
  destruct (exec_Rinv _ _ T E s) as [_ _ (recs & rest & _ & F & M & _)].
  assert (J : In (MRecord id s data) (map (mkrec s) recs)).
  { assert (J : In (MRecord id s data) (msgs_of s (t_msgs (y_net x)))) by (apply filter_In; split; [exact I|cbn; apply N.eqb_refl]).
    destruct M as [<-|(_ & _ & M)]; [exact J|]. rewrite M in J. apply in_app_or in J as [J|[J|[]]]; [exact J|discriminate J]. }
  apply in_map_iff in J as (r & J & IR). unfold mkrec in J. injection J as <- _.
  rewrite Forall_forall in F. destruct (F r IR) as (_ & B). exact (two_bytes (skipn 2 r) (bytes_skipn 2 r B)).
Qed.

Lemma in_for_rid : forall id l m, In m (for_rid id l) -> exists p, In p l /\ fst p = id.
Proof.
  intros id l m I. unfold for_rid in I. apply in_map_iff in I as (p & _ & I). apply filter_In in I as (I & Q).
  exists p. split; [exact I|]. now apply rid_eqb_eq.
Qed.

Lemma request_count : forall x : sys, sreach x -> Forall ev_ok (y_tr x) -> forall s,
  (N.of_nat (length (filter (fun p => N.eqb (r_socket (fst p)) s) (s_requests (y_man x)))) <= 65534)%N.
Proof.
  intros x R E s. pose proof (parts_reach _ _ _ _ _ _ _ x R) as P. pose proof (flow_reach _ _ _ _ _ _ _ x R) as F.
  pose proof P as (_ & RM & _). pose proof (inv_reachable begins _ RM) as I.
  rewrite <- (map_length (fun p => r_id (fst p))). apply nodup_count; [apply sorted_nodup; apply (i_sorted _ I)|].
  intros i J. apply in_map_iff in J as ([id o] & <- & J). apply filter_In in J as (J & _). cbn [fst].
  assert (M : map_find id (s_requests (y_man x)) = Some o).
  { clear - J I. pose proof (i_sorted _ I) as S. revert J S. generalize (s_requests (y_man x)) as m.
    induction m as [|[id' o'] m IH]; cbn; [contradiction|]. intros [J|J] S; inversion S as [|? ? S1 S2]; subst.
    - injection J as -> ->. now rewrite less_irr.
    - rewrite Forall_forall in S2. specialize (S2 _ J). unfold lt in S2. cbn [fst] in S2. rewrite S2.
      rewrite andb_false_r. now apply IH. }
  apply (i_map _ I) in M as (AL & RI). destruct (i_rid _ I o AL) as (Z & B). rewrite RI in Z, B.
  assert (L : (r_id id < 65536)%N).
  { destruct (f_pre _ x F o (i_next _ I o AL)) as (pre & mb & Q & _).
    assert (IM : In mb (for_rid (o_rid (s_objs (y_man x) o)) (firstn (y_at x o) (settled x)))) by (rewrite Q; apply in_or_app; right; now left).
    apply in_for_rid in IM as (p & IP & EP). rewrite RI in EP. rewrite <- EP. apply (inbox_id x p P E).
    apply firstn_sub in IP. unfold settled in IP. now apply firstn_sub in IP. }
  lia.
Qed.
End Requests.
