(** Lemmas for C80. *)
From Coq Require Import List Bool Arith Lia Permutation.
From Verif Require Import Model.Connection Spec.ConnectionSpec Spec.ProgressSpec Proofs.ConnectionProofs.
Import ListNotations.

Definition pos (conc : nat) (s : qst) : nat :=
  match z_pc s with
  | QEnd | QExit | QUndef => 0
  | QClear2 true => 1
  | QClear1 true => 2
  | QPoll => 3
  | QSend l => 4 + length l
  | QConnect => 5 + conc + (conc - length (z_conns s))
  | QTop => 6 + 2 * conc
  | QClear2 false => 7 + 2 * conc
  | QClear1 false => 8 + 2 * conc
  end.
Definition work (s : qst) : nat := length (z_queue s) + length (flying (z_conns s)).
(** Not all connections are there though one has tried. *)
Definition short (conc : nat) (s : qst) : nat :=
  match z_pc s with QSend _ | QPoll => if length (z_conns s) =? conc then 0 else 1 | _ => 0 end.

Definition quiet (e : qenv) : bool := match e with ENone | ELogin _ | EDispatch _ _ => true | _ => false end.

Lemma map_len : forall (c : list (nat * conn)), length (map fst c) = length c.
Proof. intro. apply map_length. Qed.

Lemma quiet_step : forall conc s e s', qreach conc s -> hstep conc e s = Some s' -> quiet e = true ->
  pos conc s' < pos conc s /\ z_bytes s' = z_bytes s /\ work s' <= work s
  /\ (e <> ELogin None -> (e = EDispatch false true \/ e = EDispatch false false) \/ short conc s' <= short conc s).
Proof.
  intros conc s e s' R H Q. destruct (conns_ok _ _ R) as [L C]. destruct (busy_inv _ _ R) as (So & _).
  unfold hstep in H. destruct (z_pc s) as [last|last| | |[|k l]| | | |] eqn:PC; destruct e; try discriminate; unfold pos, work, short; rewrite PC.
  - injection H as <-. cbn -[Nat.eqb]. destruct last; repeat split; try lia; intros _; right; lia.
  - injection H as <-. cbn -[Nat.eqb]. destruct last; repeat split; try lia; intros _; right; lia.
  - destruct (z_term s || _); [injection H as <-; cbn -[Nat.eqb]; repeat split; try lia; intros _; right; lia|].
    unfold connected in H. destruct (Nat.eqb_spec (length (z_conns s)) conc) as [N|N]; injection H as <-; cbn -[Nat.eqb]; rewrite ?map_len.
    + repeat split; try lia; intros _; right; rewrite N, Nat.eqb_refl; lia.
    + repeat split; try lia; intros _; right; lia.
  - specialize (C eq_refl). destruct k as [k|].
    + destruct (lookup k (z_conns s)) eqn:K; [discriminate|]. injection H as <-.
      assert (X := insert_length k (mkN None false) _ So). rewrite K in X. unfold connected. cbn [set_conns z_conns]. rewrite X.
      destruct (Nat.eqb_spec (S (length (z_conns s))) conc) as [N|N]; cbn -[Nat.eqb]; rewrite ?map_len, ?X, ?PC, ?fly_new by assumption.
      * repeat split; try lia; intros _; right; rewrite N, Nat.eqb_refl; lia.
      * rewrite ?X. repeat split; try lia; intros _; right; lia.
    + injection H as <-. cbn -[Nat.eqb]. rewrite map_len. repeat split; try lia; congruence.
  - injection H as <-. cbn -[Nat.eqb]. repeat split; try lia; intros _; right; lia.
  - destruct (lookup k (z_conns s)) as [c|] eqn:K; [|discriminate]. destruct (n_query c) eqn:E.
    { injection H as <-. cbn -[Nat.eqb]. repeat split; try lia; intros _; right; lia. }
    destruct (z_queue s) as [|q r] eqn:Z.
    { injection H as <-. cbn -[Nat.eqb]. rewrite Z. cbn -[Nat.eqb]. repeat split; try lia; intros _; right; lia. }
    destruct ok; injection H as <-.
    + cbn -[Nat.eqb]. destruct (fly_set k c (mkN (Some q) rest) _ So K) as (a & b & E1 & E2 & _). rewrite E1, E2, E. cbn [n_query].
      rewrite !app_length. cbn [length]. rewrite insert_length, K by exact So. repeat split; try lia; intros _; right; lia.
    + unfold kill. rewrite E. cbn -[Nat.eqb]. destruct (fly_set k c (mkN None false) _ So K) as (a & b & E1 & _ & E3). rewrite E1, E3, E.
      cbn [app]. repeat split; try lia; intros _; left; destruct rest; auto.
Qed.

Lemma loud_step : forall conc s e s', hstep conc e s = Some s' -> quiet e = false ->
  z_pc s = QPoll /\ pos conc s' <= 6 + 2 * conc /\ short conc s' = 0 /\ match z_pc s' with QTop | QExit | QUndef => True | _ => False end.
Proof.
  intros conc s e s' H Q. unfold hstep in H. destruct (z_pc s) as [last|last| | |[|k l]| | | |] eqn:PC; destruct e; try discriminate; split; auto; unfold pos, short.
  - destruct (z_bytes s =? 0); [discriminate|]. injection H as <-. cbn. repeat split; lia.
  - destruct (connected conc s); [discriminate|]. injection H as <-. cbn. repeat split; lia.
  - destruct (lookup k (z_conns s)) as [c|]; [|discriminate]. destruct (_ || _); [|discriminate]. injection H as <-.
    assert (X := event_pc k c i rdhup hup err ok rest results complete s).
    destruct (z_pc (event _ _ _ _ _ _ _ _ _ _ _)); try contradiction; repeat split; lia.
Qed.

Lemma event_bytes : forall k c i a b d ok rest rs cp s, lookup k (z_conns s) = Some c -> z_bytes (event k c i a b d ok rest rs cp s) = z_bytes s.
Proof.
  intros. assert (HU : z_bytes (hung k c a b d s) = z_bytes s) by (unfold hung, kill; destruct (_ || _); destruct (n_query c); reflexivity).
  unfold event. destruct i; [|exact HU]. destruct (n_query c) as [q|]; [|exact HU]. destruct ok; [|exact HU].
  destruct (Connection.take _ _ _ _) as [s'|] eqn:T; [|reflexivity].
  apply take_micros with (x := mkN (Some q) rest) in T as (_ & _ & _ & B & _); [|cbn; now rewrite lookup_insert, Nat.eqb_refl|reflexivity].
  destruct cp; exact B.
Qed.

Lemma reach_step : forall conc s a s', qreach conc s -> qstep conc a s = Some s' -> qreach conc s'.
Proof.
  intros conc s a s' [l H] E. exists (l ++ [a]). revert H. generalize q_init. induction l as [|b l IH]; cbn; intros s0 H.
  - injection H as ->. now rewrite E.
  - destruct (qstep conc b s0); [auto|discriminate].
Qed.

(** ** A bounded amount for each thing that comes. *)
Definition K (conc : nat) : nat := 9 + 2 * conc.
Lemma pos_K : forall conc s, qreach conc s -> pos conc s < K conc.
Proof.
  intros conc. assert (G : forall s, qreach conc s -> match z_pc s with QSend l => length l <= conc | _ => True end).
  { apply (reach_ind conc); [exact I|]. intros a s s' R P H. destruct (conns_ok _ _ R) as [L C]. destruct a; cbn [qstep] in H.
    - destruct (quiet e) eqn:Q.
      + destruct (quiet_step conc s e s' R H Q) as (A & _). unfold pos in A. destruct (z_pc s') eqn:PC'; auto.
        unfold hstep in H. destruct (z_pc s) as [last|last| | |[|k l0]| | | |] eqn:PC; destruct e; try discriminate;
          try (injection H as <-; discriminate PC').
        * injection H as <-. cbn in PC'. destruct last; discriminate.
        * destruct (z_term s || _); [injection H as <-; discriminate PC'|]. destruct (connected conc s); injection H as <-; [|discriminate PC'].
          cbn in PC'. injection PC' as <-. rewrite map_len. exact L.
        * specialize (C eq_refl). destruct (busy_inv _ _ R) as (So & _). destruct k as [k|].
          -- destruct (lookup k (z_conns s)) eqn:Kk; [discriminate|]. injection H as <-.
             assert (X := insert_length k (mkN None false) _ So). rewrite Kk in X.
             destruct (connected conc _); [|cbn in PC'; congruence]. cbn in PC'. injection PC' as <-. rewrite map_len, X. lia.
          -- injection H as <-. cbn in PC'. injection PC' as <-. rewrite map_len. lia.
        * cbn in P. cbn in A. idtac.
          lia.
      + apply loud_step in H as (_ & _ & _ & A); [|exact Q]. now destruct (z_pc s').
    - destruct (_ || _); injection H as <-; exact P.
    - destruct (nth_error _ _); [|discriminate]; injection H as <-; exact P.
    - injection H as <-; exact P.
    - injection H as <-; exact P.
    - destruct (z_waking s); [discriminate|]; injection H as <-; exact P.
    - destruct (z_pc s); try discriminate; injection H as <-; exact I. }
  intros s R. specialize (G s R). unfold pos, K. destruct (z_pc s) as [[]|[]| | | | | | |]; lia.
Qed.

Lemma no_spinning : forall conc l s s', qreach conc s -> qexec conc l s = Some s' ->
  pos conc s' + K conc * z_bytes s' + thread_steps l <= pos conc s + K conc * (z_bytes s + stirs l).
Proof.
  intros conc l. induction l as [|a l IH]; intros s s' R H; [injection H as <-; cbn; lia|].
  cbn [qexec] in H. destruct (qstep conc a s) as [s1|] eqn:E; [|discriminate]. pose proof (reach_step _ _ _ _ R E) as R1.
  specialize (IH s1 s' R1 H). pose proof (pos_K conc s1 R1) as P1. cbn [stirs].
  assert (M : pos conc s1 + K conc * z_bytes s1 + thread_steps [a] <= pos conc s + K conc * (z_bytes s + stirs1 a)).
  { destruct a; cbn [qstep] in E; cbn [thread_steps stirs1].
    - destruct (quiet e) eqn:Q.
      + destruct (quiet_step conc s e s1 R E Q) as (A & B & _). rewrite B. destruct e; try discriminate; lia.
      + destruct (loud_step conc s e s1 E Q) as (PC & A & _). unfold hstep in E. rewrite PC in E. destruct e; try discriminate.
        * destruct (Nat.eqb_spec (z_bytes s) 0); [discriminate|]. injection E as <-. cbn [set_pc set_bytes z_bytes] in *.
          assert (z_bytes s - 256 + 1 <= z_bytes s) by lia. unfold K in *. cbn [pos z_pc set_pc] in *. nia.
        * destruct (connected conc s); [discriminate|]. injection E as <-. cbn [set_pc z_bytes] in *. unfold K in *. lia.
        * destruct (lookup k (z_conns s)) as [c|] eqn:L; [|discriminate]. destruct (_ || _); [|discriminate]. injection E as <-.
          rewrite (event_bytes k c i rdhup hup err ok rest results complete s L). unfold K in *. lia.
    - destruct (_ || _); injection E as <-; [lia|]; unfold pos; cbn [z_bytes z_pc z_conns]; lia.
    - destruct (nth_error _ _); [|discriminate]; injection E as <-; unfold pos; cbn [z_bytes z_pc z_conns]; lia.
    - injection E as <-; unfold pos; cbn [z_bytes z_pc z_conns]; lia.
    - injection E as <-; unfold pos; cbn [z_bytes z_pc z_conns]; lia.
    - destruct (z_waking s); [discriminate|]; injection E as <-; unfold pos; cbn [z_bytes z_pc z_conns]; lia.
    - destruct (z_pc s); try discriminate; injection E as <-. cbn [z_bytes] in *. lia. }
  destruct a; cbn [thread_steps] in *; lia.
Qed.
Lemma bounded : forall conc l s s', qreach conc s -> qexec conc l s = Some s' ->
  thread_steps l <= (9 + 2 * conc) * (1 + z_bytes s + stirs l).
Proof.
  intros conc l s s' R H. pose proof (no_spinning conc l s s' R H). pose proof (pos_K conc s R). unfold K in *. lia.
Qed.

(** ** A server that does its part. *)
Definition weight (conc : nat) (s : qst) : nat := pos conc s + K conc * (z_bytes s + work s + short conc s).

Lemma answer_work : forall k c q rest rs s s' a b d, sorted (z_conns s) -> lookup k (z_conns s) = Some c -> n_query c = Some q ->
  (y_obj q <> None \/ rs = []) -> event k c true a b d true rest rs true s = s' ->
  S (work s') = work s /\ z_bytes s' = z_bytes s /\ z_pc s' = QTop /\ z_stop s' = z_stop s /\ z_term s' = z_term s
  /\ given_up (z_log s') = given_up (z_log s).
Proof.
  intros k c q rest rs s s' a b d So L Q Y E. unfold event in E. rewrite Q in E.
  assert (T : exists s1, Connection.take k q rs (set_conns (insert k (mkN (Some q) rest) (z_conns s)) s) = Some s1).
  { clear E. destruct Y as [Y| ->]; [|eexists; reflexivity]. generalize (set_conns (insert k (mkN (Some q) rest) (z_conns s)) s).
    induction rs as [|r rs IH]; intro s0; cbn [Connection.take]; [eauto|]. unfold keep. destruct (y_obj q); [apply IH|congruence]. }
  destruct T as [s1 T]. rewrite T in E.
  assert (G : given_up (z_log s1) = given_up (z_log s)).
  { clear E. assert (X : forall rs s0 s2, Connection.take k q rs s0 = Some s2 -> given_up (z_log s2) = given_up (z_log s0)).
    { clear. induction rs as [|r rs IH]; cbn [Connection.take]; intros s0 s2 H; [injection H as <-; reflexivity|].
      destruct (keep q r (z_res s0)); [|discriminate]. apply IH in H. rewrite H. cbn [note set_res z_log]. unfold given_up.
      rewrite flat_map_app. cbn. now rewrite app_nil_r. }
    rewrite (X _ _ _ T). reflexivity. }
  apply take_micros with (x := mkN (Some q) rest) in T as (_ & Cs & Qs & Bs & _ & St & Te & _); [|cbn; now rewrite lookup_insert, Nat.eqb_refl|reflexivity].
  cbn [set_conns z_conns z_queue z_bytes z_stop z_term] in Cs, Qs, Bs, St, Te. subst s'. unfold work, done. cbn [set_pc note set_conns z_conns z_queue z_bytes z_pc z_stop z_term z_log].
  rewrite Cs, Qs. assert (S1 : sorted (insert k (mkN (Some q) rest) (z_conns s))) by (eapply sorted_insert; eauto).
  assert (L1 : lookup k (insert k (mkN (Some q) rest) (z_conns s)) = Some (mkN (Some q) rest)) by (now rewrite lookup_insert, Nat.eqb_refl).
  destruct (fly_set k _ (mkN None false) _ S1 L1) as (x & y & F1 & F2 & _). destruct (fly_set k _ (mkN (Some q) rest) _ So L) as (x' & y' & F3 & F4 & _).
  rewrite F2. assert (length (flying (z_conns s)) = length (flying (insert k (mkN (Some q) rest) (z_conns s)))) as ->.
  { rewrite F3, F4, Q. reflexivity. }
  rewrite F1. cbn [n_query]. rewrite !app_length. cbn [length]. repeat split; try lia; auto.
  rewrite <- G. unfold given_up. rewrite flat_map_app. destruct (y_cb q); cbn; now rewrite app_nil_r.
Qed.

Lemma served_step : forall conc s e s', qreach conc s -> helpful s e -> hstep conc e s = Some s' -> weight conc s' < weight conc s.
Proof.
  intros conc s e s' R Hf H. pose proof (reach_step conc s (AHand e) s' R H) as R'. destruct (busy_inv _ _ R) as (So & _). unfold weight.
  destruct (quiet e) eqn:Q.
  - destruct (quiet_step conc s e s' R H Q) as (A & B & C & D). rewrite B.
    assert (S' : short conc s' <= short conc s).
    { destruct D as [[D|D]|D]; auto; [intro X; rewrite X in Hf; now apply Hf|rewrite D in Hf; discriminate Hf|rewrite D in Hf; discriminate Hf]. }
    assert (z_bytes s + work s' + short conc s' <= z_bytes s + work s + short conc s) by lia.
    assert (K conc * (z_bytes s + work s' + short conc s') <= K conc * (z_bytes s + work s + short conc s)) by (apply Nat.mul_le_mono_l; lia). lia.
  - destruct (loud_step conc s e s' H Q) as (PC & A & B & _). rewrite B.
    assert (X : S (z_bytes s' + work s' + 0) <= z_bytes s + work s + short conc s).
    { unfold hstep in H. rewrite PC in H. destruct e; try discriminate.
      - destruct (Nat.eqb_spec (z_bytes s) 0); [discriminate|]. injection H as <-. cbn [set_pc set_bytes z_bytes work z_queue z_conns]. unfold work. cbn. lia.
      - unfold short. rewrite PC. unfold connected in H. destruct (Nat.eqb_spec (length (z_conns s)) conc); [discriminate|]. injection H as <-.
        unfold work. cbn. lia.
      - destruct Hf as (-> & -> & -> & c & q & L & N & Y). rewrite L in H. cbn in H. injection H as H.
        destruct (answer_work k c q rest results s s' rdhup hup err So L N Y H) as (W & By & _). lia. }
    assert (K conc * S (z_bytes s' + work s' + 0) <= K conc * (z_bytes s + work s + short conc s)) by (apply Nat.mul_le_mono_l; exact X).
    unfold K in *. lia.
Qed.
Lemma served_reach : forall conc s n s', qreach conc s -> served conc s n s' -> qreach conc s'.
Proof. intros conc s n s' R S. induction S as [|s e s1 n s2 Hf H S IH]; auto. apply IH. exact (reach_step conc s (AHand e) s1 R H). Qed.
Lemma served_bound : forall conc s n s', qreach conc s -> served conc s n s' -> n + weight conc s' <= weight conc s.
Proof.
  intros conc s n s' R S. induction S as [|s e s1 n s2 Hf H S IH]; [lia|].
  pose proof (served_step conc s e s1 R Hf H). specialize (IH (reach_step conc s (AHand e) s1 R H)). lia.
Qed.
Lemma short_one : forall conc s, short conc s <= 1.
Proof. intros. unfold short. destruct (z_pc s); try lia; destruct (_ =? _); lia. Qed.

(** Nothing is given up meanwhile. *)
Lemma kept_step : forall conc s e s', qreach conc s -> helpful s e -> hstep conc e s = Some s' ->
  at_work s -> z_stop s = false -> z_term s = false ->
  at_work s' /\ z_stop s' = false /\ z_term s' = false /\ given_up (z_log s') = given_up (z_log s).
Proof.
  intros conc s e s' R Hf H A St Te. destruct (busy_inv _ _ R) as (So & _). unfold at_work in *.
  unfold hstep in H. destruct (z_pc s) as [last|last| | |[|k l]| | | |] eqn:PC; try contradiction; destruct e; try discriminate.
  - rewrite St, Te in H. cbn [orb andb] in H. destruct (connected conc s); injection H as <-; cbn; auto.
  - destruct k as [k|]; [|cbn in Hf; congruence]. destruct (lookup k (z_conns s)); [discriminate|]. injection H as <-.
    destruct (connected conc _); cbn; rewrite ?PC; auto.
  - injection H as <-. cbn. auto.
  - cbn in Hf. subst ok. destruct (lookup k (z_conns s)) as [c|]; [|discriminate]. destruct (n_query c); [injection H as <-; cbn; auto|].
    destruct (z_queue s) as [|q r]; injection H as <-; cbn; auto. repeat split; auto. unfold given_up. rewrite flat_map_app. cbn. now rewrite app_nil_r.
  - destruct (z_bytes s =? 0); [discriminate|]. injection H as <-. cbn. auto.
  - destruct (connected conc s); [discriminate|]. injection H as <-. cbn. auto.
  - destruct Hf as (-> & -> & -> & c & q & L & N & Y). rewrite L in H. cbn in H. injection H as H.
    destruct (answer_work k c q rest results s s' rdhup hup err So L N Y H) as (_ & _ & P & S1 & T1 & G). rewrite P, S1, T1. auto.
Qed.
Lemma kept : forall conc s n s', qreach conc s -> served conc s n s' -> at_work s -> z_stop s = false -> z_term s = false ->
  at_work s' /\ z_stop s' = false /\ z_term s' = false /\ given_up (z_log s') = given_up (z_log s).
Proof.
  intros conc s n s' R S. induction S as [|s e s1 n s2 Hf H S IH]; intros A St Te; auto.
  destruct (kept_step conc s e s1 R Hf H A St Te) as (A1 & S1 & T1 & G1).
  destruct (IH (reach_step conc s (AHand e) s1 R H) A1 S1 T1) as (A2 & S2 & T2 & G2). rewrite <- G1. auto.
Qed.
Lemma log_grows : forall conc s e s', hstep conc e s = Some s' -> incl (queued (z_log s)) (queued (z_log s')).
Proof.
  intros conc s e s' H. pose proof (step_micros conc (AHand e) s s' H) as M.
  assert (X : forall d d', micros d d' -> incl (queued (d_log d)) (queued (d_log d'))).
  { intros d d' Y. induction Y as [|d d1 d2 Y1 Y2 IH]; [apply incl_refl|]. eapply incl_tran; [|exact IH]. clear - Y1.
    destruct Y1; cbn [d_log]; try apply incl_refl; unfold queued; rewrite ?flat_map_app; apply incl_appl; apply incl_refl. }
  exact (X _ _ M).
Qed.

Lemma served_log : forall conc s n s', served conc s n s' -> incl (queued (z_log s)) (queued (z_log s')).
Proof.
  intros conc s n s' S. induction S as [|s e s1 n s2 Hf H S IH]; [apply incl_refl|]. eapply incl_tran; [exact (log_grows conc s e s1 H)|exact IH].
Qed.

(** Where the thread sleeps for good. *)
Fixpoint top_key (c : list (nat * conn)) : nat := match c with [] => 0 | (k, _) :: c => S (k + top_key c) end.
Lemma top_fresh : forall c, lookup (top_key c) c = None.
Proof.
  intro c. apply lookup_none. assert (G : forall k, In k (map fst c) -> k < top_key c).
  { induction c as [|[k x] c IH]; cbn; [tauto|]. intros k' [<-|H]; [lia|]. apply IH in H. lia. }
  intro H. apply G in H. lia.
Qed.
Lemma send_keys : forall conc s, qreach conc s -> match z_pc s with QSend l => incl l (map fst (z_conns s)) | _ => True end.
Proof.
  intros conc. apply (reach_ind conc); [exact I|]. intros a s s' R P H. destruct (busy_inv _ _ R) as (So & _). destruct a; cbn [qstep] in H.
  - destruct (quiet e) eqn:Q.
    + unfold hstep in H. destruct (z_pc s) as [last|last| | |[|k l0]| | | |] eqn:PC; destruct e; try discriminate.
      * injection H as <-. exact I.
      * injection H as <-. cbn. destruct last; exact I.
      * destruct (z_term s || _); [injection H as <-; exact I|]. destruct (connected conc s); injection H as <-; [|exact I]. cbn. apply incl_refl.
      * destruct k as [k|]; [|injection H as <-; cbn; apply incl_refl]. destruct (lookup k (z_conns s)); [discriminate|]. injection H as <-.
        destruct (connected conc _); cbn; [apply incl_refl|]. rewrite PC. exact I.
      * injection H as <-. exact I.
      * destruct (lookup k (z_conns s)) as [c|] eqn:L; [|discriminate]. cbn in P.
        assert (P' : incl l0 (map fst (z_conns s))) by (intros x X; apply P; now right).
        destruct (n_query c); [injection H as <-; exact P'|]. destruct (z_queue s) as [|q r]; [injection H as <-; exact I|].
        destruct ok; injection H as <-; [|exact I]. cbn. intros x X. apply P' in X.
        destruct (lookup_split _ _ _ So L) as (a & b & E1 & _ & E3). rewrite E3. rewrite E1 in X. now rewrite map_app in *.
    + apply loud_step in H as (_ & _ & _ & A); [|exact Q]. now destruct (z_pc s').
  - destruct (_ || _); injection H as <-; exact P.
  - destruct (nth_error _ _); [|discriminate]; injection H as <-; exact P.
  - injection H as <-; exact P.
  - injection H as <-; exact P.
  - destruct (z_waking s); [discriminate|]; injection H as <-; exact P.
  - destruct (z_pc s); try discriminate; injection H as <-; exact I.
Qed.

Lemma some_not_none : forall {A} (x : A), Some x <> None.
Proof. discriminate. Qed.
Lemma rest_means : forall conc s, 0 < conc -> qreach conc s -> at_work s -> at_rest conc s -> pending s = [].
Proof.
  intros conc s Pc R A F. unfold at_work in A. destruct (conns_ok _ _ R) as [Lc Cc]. pose proof (send_keys _ _ R) as SK. unfold pending, at_rest in *.
  destruct (z_pc s) as [last|last| | |[|k l]| | | |] eqn:PC; try contradiction.
  - specialize (F ENone I). unfold hstep in F. rewrite PC in F. destruct (z_term s || _); [discriminate|]. destruct (connected conc s); discriminate.
  - specialize (F (ELogin (Some (top_key (z_conns s)))) (some_not_none _)). unfold hstep in F. rewrite PC, top_fresh in F. destruct (connected conc _); discriminate.
  - specialize (F ENone I). unfold hstep in F. rewrite PC in F. discriminate.
  - specialize (F (EDispatch true false) eq_refl). unfold hstep in F. rewrite PC in F.
    destruct (lookup k (z_conns s)) as [c|] eqn:L.
    + destruct (n_query c); [discriminate|]. destruct (z_queue s); discriminate.
    + apply lookup_none in L. exfalso. apply L. apply SK. now left.
  - assert (B : z_bytes s = 0).
    { specialize (F EWake I). unfold hstep in F. rewrite PC in F. destruct (Nat.eqb_spec (z_bytes s) 0); [auto|discriminate]. }
    assert (Cn : length (z_conns s) = conc).
    { specialize (F ETimeout I). unfold hstep, connected in F. rewrite PC in F. destruct (Nat.eqb_spec (length (z_conns s)) conc); [auto|discriminate]. }
    assert (Nb : forall k c q, lookup k (z_conns s) = Some c -> n_query c = Some q -> False).
    { intros k c q L N. specialize (F (EEvent k true false false false true false [] true)). unfold hstep in F. rewrite PC, L in F. cbn [orb] in F.
      assert (X : helpful s (EEvent k true false false false true false [] true)) by (cbn; repeat split; exists c, q; auto). apply F in X. discriminate. }
    destruct (sleep_ok conc s R PC B) as [Z _].
    assert (Fl : flying (z_conns s) = []).
    { destruct (busy_inv _ _ R) as (So & _). clear - Nb So. induction (z_conns s) as [|[k x] c IH]; [reflexivity|]. cbn.
      destruct (n_query x) as [q|] eqn:N.
      - exfalso. apply (Nb k x q); [cbn; now rewrite Nat.eqb_refl|exact N].
      - unfold sorted in So. cbn in So. inversion So as [|? ? S1 S2]; subst. apply IH; [|exact S1]. intros k' c' q L N'. apply (Nb k' c' q); [|exact N'].
        cbn. destruct (Nat.eqb_spec k' k) as [->|]; [|exact L]. apply lookup_in in L. rewrite Forall_forall in S2. apply S2 in L. lia. }
    rewrite Fl. destruct Z as [-> | Z]; [reflexivity|]. exfalso. destruct (z_conns s) as [|[k x] c] eqn:Ec; [cbn in Cn; lia|].
    destruct (n_query x) as [q|] eqn:N; [apply (Nb k x q); [cbn; now rewrite Nat.eqb_refl|exact N]|].
    apply (Z k x); [rewrite Ec; cbn; now rewrite Nat.eqb_refl|exact N].
Qed.

Lemma served_all : forall conc s n s', qreach conc s -> served conc s n s' ->
  n <= (9 + 2 * conc) * (2 + z_bytes s + length (pending s))
  /\ (0 < conc -> at_work s -> z_stop s = false -> z_term s = false -> at_rest conc s' ->
      forall q, In q (pending s) -> In q (completed (z_log s')) /\ (y_cb q = true -> In q (called_back (z_log s')))).
Proof.
  intros conc s n s' R S. split.
  - pose proof (served_bound conc s n s' R S). pose proof (pos_K conc s R). pose proof (short_one conc s).
    assert (work s = length (pending s)) by (unfold work, pending; now rewrite app_length, map_length).
    unfold weight, K in *. nia.
  - intros Pc A St Te F q I. destruct (kept conc s n s' R S A St Te) as (A' & _ & _ & G). pose proof (served_reach conc s n s' R S) as R'.
    pose proof (rest_means conc s' Pc R' A' F) as P'. destruct (where_ok _ _ R) as [W N]. destruct (where_ok _ _ R') as [W' N'].
    assert (Q : In q (queued (z_log s))).
    { eapply Permutation_in; [symmetry; exact W|]. rewrite app_assoc. apply in_or_app. left. exact I. }
    assert (Ng : ~ In q (given_up (z_log s))).
    { intro X. apply (Permutation_map y_id) in W. eapply Permutation_NoDup in N; [|exact W]. rewrite app_assoc, app_assoc, map_app in N.
      assert (D : forall (a b : list nat) x, NoDup (a ++ b) -> In x a -> In x b -> False).
      { clear. induction a as [|y a IH]; cbn; intros b x H H1 H2; [exact H1|]. inversion H as [|? ? X Y]; subst. destruct H1 as [->|H1]; [apply X, in_or_app; now right|eauto]. }
      apply (D _ _ (y_id q) N); [|now apply in_map]. apply in_map. apply in_or_app. left. exact I. }
    assert (C : In q (completed (z_log s'))).
    { apply (served_log conc s n s' S) in Q. eapply Permutation_in in Q; [|exact W']. rewrite app_assoc in Q. change (z_queue s' ++ map snd (flying (z_conns s'))) with (pending s') in Q.
      rewrite P' in Q. cbn in Q. apply in_app_or in Q as [Q|Q]; [exact Q|]. rewrite G in Q. contradiction. }
    split; [exact C|]. intro Y. destruct (once_ok _ _ R') as (_ & O & _). apply O. auto.
Qed.

(** There is always a way to go on until there is nothing left. *)
Fixpoint a_busy (c : list (nat * conn)) : option nat :=
  match c with [] => None | (k, x) :: c => match n_query x with Some _ => Some k | None => a_busy c end end.
Lemma a_busy_some : forall c k, sorted c -> a_busy c = Some k -> exists x q, lookup k c = Some x /\ n_query x = Some q.
Proof.
  induction c as [|[k x] c IH]; cbn; intros k' So H; [discriminate|]. destruct (n_query x) as [q|] eqn:N.
  - injection H as <-. rewrite Nat.eqb_refl. eauto.
  - unfold sorted in So. cbn in So. inversion So as [|? ? S1 S2]; subst. destruct (IH k' S1 H) as (y & q & L & Y). exists y, q. split; [|exact Y].
    destruct (Nat.eqb_spec k' k) as [->|]; [|exact L]. apply lookup_in in L. rewrite Forall_forall in S2. apply S2 in L. lia.
Qed.
Lemma a_busy_none : forall c k x, a_busy c = None -> lookup k c = Some x -> n_query x = None.
Proof.
  induction c as [|[k x] c IH]; cbn; intros k' y H L; [discriminate|]. destruct (n_query x) eqn:N; [discriminate|].
  destruct (k' =? k); [injection L as <-; exact N|eauto].
Qed.
Lemma rest_or_go : forall conc s, qreach conc s -> at_rest conc s \/ exists e s', helpful s e /\ hstep conc e s = Some s'.
Proof.
  intros conc s R. destruct (busy_inv _ _ R) as (So & _). pose proof (send_keys _ _ R) as SK. unfold at_rest, hstep.
  destruct (z_pc s) as [last|last| | |[|k l]| | | |] eqn:PC; try (left; intros []; reflexivity).
  - right. exists ENone. eexists. split; [exact I|reflexivity].
  - right. exists ENone. eexists. split; [exact I|reflexivity].
  - right. exists ENone. destruct (z_term s || _); [eexists; split; [exact I|reflexivity]|]. destruct (connected conc s); eexists; (split; [exact I|reflexivity]).
  - right. exists (ELogin (Some (top_key (z_conns s)))). rewrite top_fresh. eexists. split; [apply some_not_none|reflexivity].
  - right. exists ENone. eexists. split; [exact I|reflexivity].
  - right. exists (EDispatch true false). destruct (lookup k (z_conns s)) as [c|] eqn:L; [|apply lookup_none in L; exfalso; apply L; apply SK; now left].
    destruct (n_query c); [eexists; split; reflexivity|]. destruct (z_queue s); eexists; split; reflexivity.
  - destruct (Nat.eqb_spec (z_bytes s) 0) as [B|B].
    2:{ right. exists EWake. destruct (Nat.eqb_spec (z_bytes s) 0); [contradiction|]. eexists. split; [exact I|reflexivity]. }
    destruct (connected conc s) eqn:Cn.
    2:{ right. exists ETimeout. eexists. split; [exact I|reflexivity]. }
    destruct (a_busy (z_conns s)) as [k|] eqn:A.
    + right. destruct (a_busy_some _ _ So A) as (c & q & L & N). exists (EEvent k true false false false true false [] true). rewrite L. eexists.
      split; [|reflexivity]. cbn. repeat split. exists c, q. auto.
    + left. intros e Hf. destruct e; try reflexivity.
      destruct Hf as (_ & _ & _ & c & q & L & N & _). apply (a_busy_none _ _ _ A) in L. congruence.
Qed.
Lemma served_rest : forall conc s, qreach conc s -> exists n s', served conc s n s' /\ at_rest conc s'.
Proof.
  intros conc s R. remember (weight conc s) as w eqn:E. revert s R E. induction w as [w IH] using lt_wf_ind. intros s R E.
  destruct (rest_or_go conc s R) as [Z|(e & s1 & Hf & H)]; [exists 0, s; split; [apply served_no|exact Z]|].
  pose proof (served_step conc s e s1 R Hf H) as W. destruct (IH (weight conc s1) ltac:(lia) s1 (reach_step conc s (AHand e) s1 R H) eq_refl) as (n & s2 & S2 & Z).
  exists (S n), s2. split; [exact (served_more conc s e s1 n s2 Hf H S2)|exact Z].
Qed.

(** Being told to stop. *)
Lemma sane_step : forall conc s e s', qreach conc s -> helpful s e -> hstep conc e s = Some s' -> sane s ->
  sane s' /\ z_stop s' = z_stop s /\ z_term s' = z_term s /\ z_waking s' = z_waking s.
Proof.
  intros conc s e s' R Hf H A. destruct (busy_inv _ _ R) as (So & _). unfold sane in *.
  unfold hstep in H. destruct (z_pc s) as [last|last| | |[|k l]| | | |] eqn:PC; try contradiction; destruct e; try discriminate.
  - injection H as <-. cbn. auto.
  - injection H as <-. cbn. destruct last; auto.
  - destruct (z_term s || _); [injection H as <-; cbn; auto|]. destruct (connected conc s); injection H as <-; cbn; auto.
  - destruct k as [k|]; [|cbn in Hf; congruence]. destruct (lookup k (z_conns s)); [discriminate|]. injection H as <-.
    destruct (connected conc _); cbn; rewrite ?PC; auto.
  - injection H as <-. cbn. auto.
  - cbn in Hf. subst ok. destruct (lookup k (z_conns s)) as [c|]; [|discriminate]. destruct (n_query c); [injection H as <-; cbn; auto|].
    destruct (z_queue s) as [|q r]; injection H as <-; cbn; auto.
  - destruct (z_bytes s =? 0); [discriminate|]. injection H as <-. cbn. auto.
  - destruct (connected conc s); [discriminate|]. injection H as <-. cbn. auto.
  - destruct Hf as (-> & -> & -> & c & q & L & N & Y). rewrite L in H. cbn in H. injection H as H.
    destruct (answer_work k c q rest results s s' rdhup hup err So L N Y H) as (_ & _ & P & S1 & T1 & G). rewrite P, S1, T1. repeat split.
    clear - H N. unfold event in H. rewrite N in H.
    assert (X : forall rs s0 s2, Connection.take k q rs s0 = Some s2 -> z_waking s2 = z_waking s0).
    { clear. induction rs as [|r rs IH]; cbn [Connection.take]; intros s0 s2 H; [injection H as <-; reflexivity|].
      destruct (keep q r (z_res s0)); [|discriminate]. apply IH in H. exact H. }
    destruct (Connection.take _ _ _ _) eqn:T; [|subst s'; reflexivity]. apply X in T. subst s'. cbn. exact T.
Qed.
Lemma served_ends : forall conc s n s', 0 < conc -> qreach conc s -> served conc s n s' -> at_rest conc s' -> sane s -> z_waking s = 0 ->
  z_stop s = true \/ z_term s = true -> z_pc s' = QEnd.
Proof.
  intros conc s n s' Pc R S F A W Z.
  assert (G : sane s' /\ z_stop s' = z_stop s /\ z_term s' = z_term s /\ z_waking s' = z_waking s).
  { clear - R S A. induction S as [|s e s1 n s2 Hf H S IH]; auto. destruct (sane_step conc s e s1 R Hf H A) as (A1 & S1 & T1 & W1).
    destruct (IH (reach_step conc s (AHand e) s1 R H) A1) as (A2 & S2 & T2 & W2). rewrite <- S1, <- T1, <- W1. auto. }
  destruct G as (A' & S' & T' & W'). pose proof (served_reach conc s n s' R S) as R'.
  assert (Ne : at_work s' -> z_pc s' = QEnd).
  { intro Aw. exfalso. pose proof (rest_means conc s' Pc R' Aw F) as P'. destruct (z_pc s') as [last|last| | |l| | | |] eqn:PC; unfold at_work in Aw; rewrite PC in Aw; try contradiction.
    - specialize (F ENone I). unfold hstep in F. rewrite PC in F. destruct (z_term s' || _); [discriminate|]. destruct (connected conc s'); discriminate.
    - specialize (F (ELogin (Some (top_key (z_conns s')))) (some_not_none _)). unfold hstep in F. rewrite PC, top_fresh in F. destruct (connected conc _); discriminate.
    - destruct l as [|k l]; [specialize (F ENone I); unfold hstep in F; rewrite PC in F; discriminate|].
      specialize (F (EDispatch true false) eq_refl). unfold hstep in F. rewrite PC in F. pose proof (send_keys _ _ R') as SK. rewrite PC in SK.
      destruct (lookup k (z_conns s')) as [c|] eqn:L.
      + destruct (n_query c); [discriminate|]. destruct (z_queue s'); discriminate.
      + apply lookup_none in L. apply L. apply SK. now left.
    - assert (B : z_bytes s' = 0).
      { specialize (F EWake I). unfold hstep in F. rewrite PC in F. destruct (Nat.eqb_spec (z_bytes s') 0); [auto|discriminate]. }
      destruct (sleep_ok conc s' R' PC B) as (_ & Tm & Sm). unfold pending in P'. apply app_eq_nil in P' as [P1 P2]. apply map_eq_nil in P2.
      rewrite T', W', W in Tm. rewrite S', W', W in Sm. destruct Z as [Z|Z]; [destruct (Sm Z) as [X|[X|X]]; [lia|contradiction|contradiction]|specialize (Tm Z); lia]. }
  unfold sane in A'. unfold at_work in Ne. destruct (z_pc s') as [last|last| | |l| | | |] eqn:PC; auto; try contradiction;
    specialize (F ENone I); unfold hstep in F; rewrite PC in F; discriminate.
Qed.
