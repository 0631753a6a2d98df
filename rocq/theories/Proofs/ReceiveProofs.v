From Coq Require Import String List NArith ZArith Arith Lia ZifyBool ZifyNat ZifyN Bool.
From Verif Require Import Model.Base Model.Endian Model.Protocol Model.Block Model.Transceiver
  Spec.EndianSpec Spec.WireSpec Spec.TransceiverSpec
  Proofs.EndianProofs Proofs.ProtocolProofs Proofs.BlockProofs.
Import ListNotations.
Local Open Scope nat_scope.

Lemma fset_same : forall A (f : N -> A) k a, fset f k a k = a.
Proof. intros. unfold fset. now rewrite N.eqb_refl. Qed.
Lemma fset_other : forall A (f : N -> A) k a x, x <> k -> fset f k a x = f x.
Proof. intros. unfold fset. destruct (N.eqb_spec x k); congruence. Qed.

(** ** Blocks *)
Lemma append_ok : forall bytes b, b_inv b -> length bytes <= b_reserve b - b_size b ->
  exists b1 b2, b_store (b_size b) bytes b = Val b1 /\ b_setSize (b_size b + length bytes) b1 = Val b2 /\
    b_inv b2 /\ b_view b2 = b_view b ++ bytes /\ b_reserve b2 = b_reserve b /\
    b_size b2 = b_size b + length bytes.
Proof.
  intros bytes b [H1 H2] HL. unfold b_store.
  destruct (Nat.leb_spec (b_size b + length bytes) (length (b_data b))); [|lia].
  eexists. eexists. split; [reflexivity|]. unfold b_setSize. cbn [b_reserve].
  destruct (Nat.ltb_spec (b_reserve b) (b_size b + length bytes)); [lia|]. cbn [obind b_reserve b_data].
  split; [reflexivity|].
  assert (LF : length (firstn (b_size b) (b_data b)) = b_size b) by (rewrite firstn_length; lia).
  split; [split; cbn; [lia|]; rewrite !app_length, LF, skipn_length; lia|].
  split; [|split; reflexivity].
  unfold b_view. cbn [b_size b_data].
  rewrite app_assoc. apply firstn_at. rewrite app_length. lia.
Qed.

Lemma loads_known : forall l n m, n <= length l -> loads (known l ++ m) n = Some (firstn n l).
Proof.
  induction l as [|a l IH]; intros n m H; destruct n as [|n]; try reflexivity.
  - cbn in H. lia.
  - cbn. rewrite IH by (cbn in H; lia). reflexivity.
Qed.

Lemma known_app : forall a b, known (a ++ b) = known a ++ known b.
Proof. intros. apply map_app. Qed.

Lemma known_length : forall a, length (known a) = length a.
Proof. intros. apply map_length. Qed.

Lemma skipn_known : forall n l, skipn n (known l) = known (skipn n l).
Proof. induction n; destruct l; cbn; auto. Qed.

Lemma known_inj : forall a b, known a = known b -> a = b.
Proof. induction a; destruct b; cbn; intros H; try discriminate; auto. injection H as -> H. f_equal. auto. Qed.

(** ** Record length from the header *)
Definition need (l : list N) : nat :=
  8 + N.to_nat (be_value (firstn 2 (skipn 4 l))) + N.to_nat (nth 6 l 0%N).

Lemma need_app : forall l d, 8 <= length l -> need (l ++ d) = need l.
Proof.
  intros l d H. unfold need. rewrite skipn_app, firstn_app.
  replace (2 - length (skipn 4 l)) with 0 by (rewrite skipn_length; lia).
  cbn [firstn]. rewrite app_nil_r, app_nth1 by lia. reflexivity.
Qed.

Lemma need_ge : forall l, 8 <= need l.
Proof. intros. unfold need. lia. Qed.

Definition incomplete (l : list N) : Prop := length l < 8 \/ (8 <= length l /\ length l < need l).
Definition complete (l : list N) : Prop := 8 <= length l /\ length l = need l.

Lemma complete_whole : forall l, bytes_ok l -> complete l ->
  whole_record (be_value (firstn 2 (skipn 2 l))) l.
Proof.
  intros l HB [H8 HN].
  destruct l as [|v [|t [|i1 [|i0 [|c1 [|c0 [|p [|r body]]]]]]]]; cbn [length] in H8; try lia.
  unfold need in HN. cbn [firstn skipn nth length] in HN |- *.
  set (cl := N.to_nat (be_value [c1; c0])) in *.
  assert (LC : length (firstn cl body) = cl) by (rewrite firstn_length; lia).
  assert (LP : length (skipn cl body) = N.to_nat p) by (rewrite skipn_length; lia).
  assert (B : forall x, In x [v; t; i1; i0; c1; c0; p; r] -> (x < 256)%N).
  { intros x Hx. unfold bytes_ok in HB. rewrite Forall_forall in HB. apply HB.
    change (v :: t :: i1 :: i0 :: c1 :: c0 :: p :: r :: body) with ([v; t; i1; i0; c1; c0; p; r] ++ body).
    apply in_or_app. now left. }
  assert (V1 : (be_value [i1; i0] < 65536)%N).
  { change 65536%N with (256 ^ N.of_nat 2)%N. apply (be_value_lt [i1; i0]). repeat constructor; apply B; cbn; tauto. }
  assert (V2 : (be_value [c1; c0] < 65536)%N).
  { change 65536%N with (256 ^ N.of_nat 2)%N. apply (be_value_lt [c1; c0]). repeat constructor; apply B; cbn; tauto. }
  exists v, t, (firstn cl body), (skipn cl body), r.
  unfold len. rewrite LC, LP, N2Nat.id. unfold cl. rewrite N2Nat.id.
  split; [exact V1|]. split; [exact V2|]. split; [apply B; cbn; tauto|].
  assert (D1 : be_digits 2 (be_value [i1; i0]) = [i1; i0])
    by (apply (be_digits_value [i1; i0]); repeat constructor; apply B; cbn; tauto).
  assert (D2 : be_digits 2 (be_value [c1; c0]) = [c1; c0])
    by (apply (be_digits_value [c1; c0]); repeat constructor; apply B; cbn; tauto).
  rewrite D1, D2.
  cbn [app]. now rewrite firstn_skipn.
Qed.

Lemma whole_complete : forall id l, whole_record id l -> complete l.
Proof.
  intros id l (v & t & c & p & r & Hi & Hc & Hp & ->).
  pose proof (be_digits_length 2 id) as L1. pose proof (be_digits_length 2 (len c)) as L2.
  pose proof (be_value_digits 2 (len c)) as V.
  destruct (list2 _ _ L1) as (a1 & a0 & E1). destruct (list2 _ _ L2) as (b1 & b0 & E2).
  rewrite E1, E2. rewrite E2 in V. cbn [app].
  assert (L : length (v :: t :: a1 :: a0 :: b1 :: b0 :: len p :: r :: c ++ p) = 8 + length c + length p)
    by (cbn [length]; rewrite app_length; lia).
  split; [lia|]. rewrite L. unfold need. cbn [skipn firstn nth].
  rewrite V by (change (256 ^ N.of_nat 2)%N with 65536%N; lia). unfold len. lia.
Qed.

(** A partial buffer has no whole record as a prefix. *)
Lemma incomplete_no_record : forall l, incomplete l -> forall id w t, whole_record id w -> l <> w ++ t.
Proof.
  intros l HI id w t HW E. subst l. apply whole_complete in HW as [H8 HN].
  unfold incomplete in HI. rewrite need_app, app_length in HI by lia. lia.
Qed.

(** ** State of one receive buffer at rest *)
Definition rest_inv (b : block) (l : list N) : Prop :=
  b_inv b /\ b_view b = known l /\ bytes_ok l /\ incomplete l /\ (8 <= length l -> b_reserve b = need l).

Lemma rest_empty : rest_inv b_empty [].
Proof.
  split; [split; cbn; lia|]. split; [reflexivity|]. split; [constructor|].
  split; [left; cbn; lia|cbn; lia].
Qed.

Lemma view_size : forall b l, b_inv b -> b_view b = known l -> b_size b = length l.
Proof. intros b l HI HV. rewrite <- (view_length b HI), HV. apply known_length. Qed.

Lemma data_split : forall b l, b_view b = known l -> b_data b = known l ++ skipn (b_size b) (b_data b).
Proof. intros b l HV. rewrite <- HV. unfold b_view. now rewrite firstn_skipn. Qed.

Lemma loads_at : forall b l i n, b_view b = known l -> i + n <= length l ->
  loads (skipn i (b_data b)) n = Some (firstn n (skipn i l)).
Proof.
  intros b l i n HV HL. rewrite (data_split b l HV), skipn_app, skipn_known.
  rewrite loads_known; auto. rewrite skipn_length. lia.
Qed.

Lemma from16_at : forall l i, bytes_ok l -> i + 2 <= length l ->
  from16 (firstn 2 (skipn i l)) = Some (be_value (firstn 2 (skipn i l))).
Proof.
  intros l i HB HL.
  pose proof (from16_value_l (firstn 2 (skipn i l)) []) as H. rewrite app_nil_r in H. apply H.
  - rewrite firstn_length, skipn_length. lia.
  - now apply bytes_firstn, bytes_skipn.
Qed.

Lemma h_fields : forall b l, b_view b = known l -> bytes_ok l -> 8 <= length l ->
  h_fcgiId b = Val (be_value (firstn 2 (skipn 2 l))) /\
  h_contentLength b = Val (be_value (firstn 2 (skipn 4 l))) /\
  h_paddingLength b = Val (nth 6 l 0%N).
Proof.
  intros b l HV HB HL. unfold h_fcgiId, h_contentLength, h_paddingLength.
  rewrite (loads_at b l 2 2), (loads_at b l 4 2), (loads_at b l 6 1) by (auto; lia).
  rewrite (from16_at l 2), (from16_at l 4) by (auto; lia). repeat split.
  destruct l as [|? [|? [|? [|? [|? [|? [|? [|? ?]]]]]]]]; cbn [length] in HL; try lia. reflexivity.
Qed.

(** Nothing about other connections changed, and nothing but the socket, its
    buffer and the messages. *)
Definition frame (s : N) (st st' : trx) : Prop :=
  (forall x, x <> s -> t_socks st' x = t_socks st x) /\
  (forall x, x <> s -> t_bufs st' x = t_bufs st x) /\
  t_queue st' = t_queue st.

(** The socket lost the bytes [d] from its input and nothing else. *)
Definition took (d : list N) (k k' : sock) : Prop :=
  s_in k = d ++ s_in k' /\ s_born k' = s_born k /\ s_valid k' = s_valid k /\
  s_closing k' = s_closing k /\ s_out k' = s_out k.

Definition closed_now (s : N) (st st' : trx) : Prop :=
  s_valid (t_socks st' s) = false /\ s_born (t_socks st' s) = s_born (t_socks st s) /\
  s_out (t_socks st' s) = s_out (t_socks st s) /\
  s_closing (t_socks st' s) = s_closing (t_socks st s) /\
  (exists d, s_in (t_socks st s) = d ++ s_in (t_socks st' s)) /\
  t_bufs st' s = b_empty /\ t_msgs st' = t_msgs st ++ [MClosed s].

(** The kernel has something to give and does. *)
Definition gives (o : kread) (n : nat) (k : sock) : Prop :=
  (exists c, o = KGive (S c)) /\ 0 < n /\ s_in k <> [].

Lemma read_more_gives : forall o s b st, b_inv b -> s_valid (t_socks st s) = true ->
  gives o (b_reserve b - b_size b) (t_socks st s) ->
  exists r st', read_more o s b st = Val (Some r, st') /\
    length (s_in (t_socks st' s)) < length (s_in (t_socks st s)).
Proof.
  intros o s b st HI HV ((c & ->) & HN & HS). unfold read_more, sock_read. rewrite HV. cbn [negb].
  set (k := t_socks st s) in *.
  destruct (b_reserve b - b_size b) as [|n] eqn:EN; [lia|].
  set (d := firstn (Nat.min (S c) (S n)) (s_in k)).
  destruct (append_ok (known d) b HI) as (b1 & b2 & E1 & E2 & _).
  { rewrite known_length. unfold d. rewrite firstn_length. lia. }
  rewrite known_length in E2. rewrite E1. cbn [obind]. rewrite E2. cbn [obind].
  eexists. eexists. split; [reflexivity|]. cbn [t_socks]. rewrite fset_same. cbn [s_in].
  rewrite skipn_length. destruct (s_in k); [congruence|]. cbn [length]. lia.
Qed.

Lemma read_more_ok : forall o s b st, b_inv b -> s_valid (t_socks st s) = true ->
  bytes_ok (s_in (t_socks st s)) ->
  (exists st', read_more o s b st = Val (None, st') /\ frame s st st' /\ closed_now s st st') \/
  (exists d b2 st', read_more o s b st = Val (Some b2, st') /\ frame s st st' /\
     took d (t_socks st s) (t_socks st' s) /\ bytes_ok d /\
     b_inv b2 /\ b_view b2 = b_view b ++ known d /\ b_reserve b2 = b_reserve b /\
     t_bufs st' s = b2 /\ t_msgs st' = t_msgs st /\
     (b_reserve b = b_size b -> d = [])).
Proof.
  intros o s b st HI HV HB. unfold read_more.
  set (n := b_reserve b - b_size b).
  assert (CL : forall k, s_valid k = true -> k = t_socks st s ->
    exists st', Val (None, cleanupSocket s (mkT (fset (t_socks st) s (sock_close k)) (t_bufs st) (t_queue st) (t_msgs st) (t_pc st)))
      = Val (@None block, st') /\ frame s st st' /\ closed_now s st st').
  { intros k HK ->. eexists. split; [reflexivity|]. split.
    - unfold frame, cleanupSocket. cbn. repeat split; intros x Hx; rewrite ?fset_other by auto; reflexivity.
    - unfold closed_now, cleanupSocket. cbn. rewrite !fset_same. cbn. repeat split.
      exists []. reflexivity. }
  assert (OKC : forall d k, took d (t_socks st s) k -> bytes_ok d -> length d <= n ->
    exists b2 st',
      obind (b_store (b_size b) (known d) b) (fun b1 =>
      obind (b_setSize (b_size b + length d) b1) (fun b2 =>
      Val (Some b2, mkT (fset (t_socks st) s k) (fset (t_bufs st) s b2) (t_queue st) (t_msgs st) (t_pc st))))
      = Val (Some b2, st') /\ frame s st st' /\ took d (t_socks st s) (t_socks st' s) /\ bytes_ok d /\
      b_inv b2 /\ b_view b2 = b_view b ++ known d /\ b_reserve b2 = b_reserve b /\
      t_bufs st' s = b2 /\ t_msgs st' = t_msgs st /\ (b_reserve b = b_size b -> d = [])).
  { intros d k HT HD HL.
    destruct (append_ok (known d) b HI) as (b1 & b2 & E1 & E2 & I2 & V2 & R2 & S2).
    { rewrite known_length. exact HL. }
    rewrite known_length in E2. rewrite E1. cbn [obind]. rewrite E2. cbn [obind].
    exists b2. eexists. split; [reflexivity|]. split.
    - unfold frame. cbn. repeat split; intros x Hx; rewrite ?fset_other by auto; reflexivity.
    - cbn. rewrite !fset_same. repeat split; try apply HT; auto; try apply I2.
      intros Z. destruct d; auto. cbn in HL. unfold n in HL. lia. }
  unfold sock_read. rewrite HV. cbn [negb].
  set (k := t_socks st s) in *.
  assert (T0 : took [] k k) by (repeat split).
  assert (ZERO : forall st1, st1 = (if s_closing k then (None, sock_close k) else (Some [], k)) ->
    (exists st', (let '(r, sk) := st1 in
       match r with
       | None => Val (None, cleanupSocket s (mkT (fset (t_socks st) s sk) (t_bufs st) (t_queue st) (t_msgs st) (t_pc st)))
       | Some bytes => obind (b_store (b_size b) (known bytes) b) (fun b1 =>
          obind (b_setSize (b_size b + length bytes) b1) (fun b2 =>
          Val (Some b2, mkT (fset (t_socks st) s sk) (fset (t_bufs st) s b2) (t_queue st) (t_msgs st) (t_pc st))))
       end) = Val (None, st') /\ frame s st st' /\ closed_now s st st') \/
    (exists d b2 st', (let '(r, sk) := st1 in
       match r with
       | None => Val (None, cleanupSocket s (mkT (fset (t_socks st) s sk) (t_bufs st) (t_queue st) (t_msgs st) (t_pc st)))
       | Some bytes => obind (b_store (b_size b) (known bytes) b) (fun b1 =>
          obind (b_setSize (b_size b + length bytes) b1) (fun b2 =>
          Val (Some b2, mkT (fset (t_socks st) s sk) (fset (t_bufs st) s b2) (t_queue st) (t_msgs st) (t_pc st))))
       end) = Val (Some b2, st') /\ frame s st st' /\
       took d k (t_socks st' s) /\ bytes_ok d /\
       b_inv b2 /\ b_view b2 = b_view b ++ known d /\ b_reserve b2 = b_reserve b /\
       t_bufs st' s = b2 /\ t_msgs st' = t_msgs st /\ (b_reserve b = b_size b -> d = []))).
  { intros st1 ->. destruct (s_closing k).
    - left. apply CL; auto.
    - right. exists []. apply OKC; auto; [constructor|cbn; lia]. }
  destruct n as [|n'] eqn:EN.
  - cbn [t_socks t_bufs t_queue t_msgs t_pc]. apply ZERO. reflexivity.
  - rewrite <- EN in *. destruct o as [c| | |].
    + right. cbn [t_socks t_bufs t_queue t_msgs t_pc].
      exists (firstn (Nat.min c n) (s_in k)). apply OKC.
      * repeat split; cbn; auto. now rewrite firstn_skipn.
      * now apply bytes_firstn.
      * rewrite firstn_length. lia.
    + right. exists []. apply OKC; auto; [constructor|cbn; lia].
    + apply ZERO. reflexivity.
    + left. apply CL; auto.
Qed.

Lemma took_app : forall a b k1 k2 k3, took a k1 k2 -> took b k2 k3 -> took (a ++ b) k1 k3.
Proof.
  intros a b k1 k2 k3 (A1 & A2 & A3 & A4 & A5) (B1 & B2 & B3 & B4 & B5).
  repeat split; try congruence. rewrite <- app_assoc. congruence.
Qed.

Lemma frame_trans : forall s a b c, frame s a b -> frame s b c -> frame s a c.
Proof.
  intros s a b c (A1 & A2 & A3) (B1 & B2 & B3). repeat split; try congruence.
  - intros x Hx. rewrite B1, A1; auto.
  - intros x Hx. rewrite B2, A2; auto.
Qed.

Lemma closed_after_took : forall d s a b c, took d (t_socks a s) (t_socks b s) ->
  t_msgs b = t_msgs a -> closed_now s b c -> closed_now s a c.
Proof.
  intros d s a b c (A1 & A2 & A3 & A4 & A5) HM (B1 & B2 & B3 & B4 & (d' & B5) & B6 & B7).
  repeat split; try congruence. exists (d ++ d'). rewrite A1, B5. now rewrite app_assoc.
Qed.

(** What one call of [receive] does to its connection. *)
Definition received (s : N) (l : list N) (st st' : trx) : Prop :=
  frame s st st' /\
  (closed_now s st st' \/
   exists d, took d (t_socks st s) (t_socks st' s) /\
     ((rest_inv (t_bufs st' s) (l ++ d) /\ t_msgs st' = t_msgs st) \/
      (complete (l ++ d) /\ bytes_ok (l ++ d) /\ t_bufs st' s = b_empty /\
       t_msgs st' = t_msgs st ++ [MRecord (be_value (firstn 2 (skipn 2 (l ++ d)))) s (known (l ++ d))]))).

Lemma receive_body_ok : forall o s b l st, b_inv b -> b_view b = known l -> bytes_ok l ->
  8 <= length l -> (length l <> 8 -> b_reserve b = need l) -> length l <= need l ->
  s_valid (t_socks st s) = true -> bytes_ok (s_in (t_socks st s)) ->
  exists st', receive_body o s b st = Val st' /\ received s l st st'.
Proof.
  intros o s b l st HI HV HB H8 HR HN HS HIN. unfold receive_body.
  destruct (h_fields b l HV HB H8) as (F1 & F2 & F3).
  assert (SZ : b_size b = length l) by (apply view_size; auto).
  assert (B1 : exists b1, (if b_size b =? 8
      then obind (h_contentLength b) (fun cl => obind (h_paddingLength b) (fun pl =>
           b_setReserve (8 + N.to_nat cl + N.to_nat pl) b))
      else Val b) = Val b1 /\ b_inv b1 /\ b_view b1 = known l /\ b_reserve b1 = need l).
  { rewrite SZ. destruct (Nat.eqb_spec (length l) 8) as [E|E].
    - rewrite F2, F3. cbn [obind].
      destruct (setReserve_ok (need l) b HI) as (b1 & E1 & I1 & V1 & R1).
      change (8 + _ + _) with (need l). rewrite E1. exists b1. split; [reflexivity|]. split; auto. split; auto.
      rewrite V1, HV. apply firstn_all2. rewrite known_length. lia.
    - exists b. auto. }
  destruct B1 as (b1 & -> & I1 & V1 & R1). cbn [obind].
  assert (SZ1 : b_size b1 = length l) by (apply view_size; auto).
  destruct (read_more_ok o s b1 st I1 HS HIN) as [(st' & E & HF & HC)|(d & b2 & st' & E & HF & HT & HD & I2 & V2 & R2 & BU & MS & _)].
  - rewrite E. cbn [obind]. exists st'. split; auto. split; auto.
  - rewrite E. cbn [obind].
    assert (V2' : b_view b2 = known (l ++ d)) by (rewrite V2, V1, known_app; reflexivity).
    assert (SZ2 : b_size b2 = length (l ++ d)) by (apply view_size; auto).
    assert (HB2 : bytes_ok (l ++ d)) by (apply Forall_app; auto).
    assert (LL : 8 <= length (l ++ d)) by (rewrite app_length; lia).
    destruct (Nat.ltb_spec (b_size b2) (b_reserve b2)) as [C|C].
    + exists st'. split; auto. split; auto. right. exists d. split; auto. left. split; auto.
      rewrite BU. split; auto. split; auto. split; auto.
      rewrite R2, R1 in *. split; [right; split; auto; rewrite need_app; lia|].
      intros _. now rewrite need_app.
    + destruct (h_fields b2 (l ++ d) V2' HB2 LL) as (G1 & _ & _). rewrite G1. cbn [obind].
      eexists. split; [reflexivity|]. split.
      { eapply frame_trans; [exact HF|]. unfold frame. cbn. repeat split.
        intros x Hx. now rewrite fset_other. }
      right. exists d. split; [exact HT|]. right. cbn. rewrite fset_same, MS, V2'.
      split; [|split; [exact HB2|split; reflexivity]].
      split; auto. destruct I2 as [I21 _]. rewrite need_app by auto. lia.
Qed.

Lemma receive_ok : forall o1 o2 s st l, rest_inv (t_bufs st s) l ->
  s_valid (t_socks st s) = true -> bytes_ok (s_in (t_socks st s)) ->
  exists st', receive o1 o2 s st = Val st' /\ received s l st st'.
Proof.
  intros o1 o2 s st l (HI & HV & HB & HC & HR) HS HIN. unfold receive. rewrite HS. cbn [negb].
  assert (SZ : b_size (t_bufs st s) = length l) by (apply view_size; auto). rewrite SZ.
  destruct (Nat.ltb_spec (length l) 8) as [L|L].
  - destruct (setReserve_ok 8 (t_bufs st s) HI) as (b1 & E1 & I1 & V1 & R1). rewrite E1. cbn [obind].
    assert (V1' : b_view b1 = known l).
    { rewrite V1, HV. apply firstn_all2. rewrite known_length. lia. }
    destruct (read_more_ok o1 s b1 st I1 HS HIN) as [(st' & E & HF & HCl)|(d & b2 & st' & E & HF & HT & HD & I2 & V2 & R2 & BU & MS & _)].
    + rewrite E. cbn [obind]. exists st'. split; auto. split; auto.
    + rewrite E. cbn [obind].
      assert (V2' : b_view b2 = known (l ++ d)) by (rewrite V2, V1', known_app; reflexivity).
      assert (SZ2 : b_size b2 = length (l ++ d)) by (apply view_size; auto).
      assert (HB2 : bytes_ok (l ++ d)) by (apply Forall_app; auto).
      destruct (Nat.ltb_spec (b_size b2) 8) as [C|C].
      * exists st'. split; auto. split; auto. right. exists d. split; auto. left. split; auto.
        rewrite BU. split; auto. split; auto. split; auto. split; [left; lia|lia].
      * assert (SE : length (l ++ d) = 8) by (destruct I2 as [I21 _]; lia).
        pose proof (need_ge (l ++ d)) as NG.
        assert (T : s_in (t_socks st s) = d ++ s_in (t_socks st' s)) by apply HT.
        destruct (receive_body_ok o2 s b2 (l ++ d) st' I2 V2' HB2) as (st2 & E2 & HF2 & H2); try lia.
        { destruct HT as (_ & _ & -> & _). exact HS. }
        { rewrite T in HIN. apply Forall_app in HIN. apply HIN. }
        exists st2. split; auto. split; [eapply frame_trans; eauto|].
        destruct H2 as [H2|(d2 & T2 & H2)].
        { left. eapply closed_after_took; eauto. }
        right. exists (d ++ d2). split; [eapply took_app; eauto|].
        rewrite app_assoc. rewrite MS in H2. exact H2.
  - destruct HC as [HC|[_ HC]]; [lia|].
    apply receive_body_ok; auto; lia.
Qed.

(** A call that finds data takes some of it. *)
Lemma receive_progress : forall c1 c2 s st l, rest_inv (t_bufs st s) l ->
  s_valid (t_socks st s) = true -> bytes_ok (s_in (t_socks st s)) -> s_in (t_socks st s) <> [] ->
  exists st', receive (KGive (S c1)) (KGive (S c2)) s st = Val st' /\
    length (s_in (t_socks st' s)) < length (s_in (t_socks st s)).
Proof.
  intros c1 c2 s st l (HI & HV & HB & HC & HR) HS HIN HNE.
  unfold receive. rewrite HS. cbn [negb].
  assert (SZ : b_size (t_bufs st s) = length l) by (apply view_size; auto). rewrite SZ.
  destruct (Nat.ltb_spec (length l) 8) as [L|L].
  - destruct (setReserve_ok 8 (t_bufs st s) HI) as (b1 & E1 & I1 & V1 & R1). rewrite E1. cbn [obind].
    assert (V1' : b_view b1 = known l).
    { rewrite V1, HV. apply firstn_all2. rewrite known_length. lia. }
    assert (SZ1 : b_size b1 = length l) by (apply view_size; auto).
    destruct (read_more_gives (KGive (S c1)) s b1 st I1 HS) as (r & st1 & E & LT).
    { split; [eauto|]. split; [lia|auto]. }
    destruct (read_more_ok (KGive (S c1)) s b1 st I1 HS HIN) as [(st' & E' & _)|(d & b2 & st' & E' & HF & HT & HD & I2 & V2 & R2 & BU & MS & _)];
      rewrite E in E'; [discriminate|]. injection E' as -> ->. rewrite E. cbn [obind].
    destruct (Nat.ltb_spec (b_size b2) 8) as [C|C]; [eauto|].
    assert (V2' : b_view b2 = known (l ++ d)) by (rewrite V2, V1', known_app; reflexivity).
    assert (SZ2 : b_size b2 = length (l ++ d)) by (apply view_size; auto).
    assert (HB2 : bytes_ok (l ++ d)) by (apply Forall_app; auto).
    assert (SE : length (l ++ d) = 8) by (destruct I2 as [I21 _]; lia).
    pose proof (need_ge (l ++ d)) as NG.
    assert (T : s_in (t_socks st s) = d ++ s_in (t_socks st' s)) by apply HT.
    destruct (receive_body_ok (KGive (S c2)) s b2 (l ++ d) st' I2 V2' HB2) as (st2 & E2 & HF2 & H2); try lia.
    { destruct HT as (_ & _ & -> & _). exact HS. }
    { rewrite T in HIN. apply Forall_app in HIN. apply HIN. }
    exists st2. split; auto.
    assert (LE : length (s_in (t_socks st2 s)) <= length (s_in (t_socks st' s))).
    { destruct H2 as [(_ & _ & _ & _ & (d' & ->) & _)|(d2 & (-> & _) & _)]; rewrite app_length; lia. }
    lia.
  - destruct HC as [HC|[_ HC]]; [lia|]. unfold receive_body.
    destruct (h_fields (t_bufs st s) l HV HB L) as (F1 & F2 & F3).
    assert (B1 : exists b1, (if b_size (t_bufs st s) =? 8
      then obind (h_contentLength (t_bufs st s)) (fun cl => obind (h_paddingLength (t_bufs st s)) (fun pl =>
           b_setReserve (8 + N.to_nat cl + N.to_nat pl) (t_bufs st s)))
      else Val (t_bufs st s)) = Val b1 /\ b_inv b1 /\ b_view b1 = known l /\ b_reserve b1 = need l).
    { rewrite SZ. destruct (Nat.eqb_spec (length l) 8) as [E|E].
      - rewrite F2, F3. cbn [obind].
        destruct (setReserve_ok (need l) (t_bufs st s) HI) as (b1 & E1 & I1 & V1 & R1).
        change (8 + _ + _) with (need l). rewrite E1. exists b1. split; [reflexivity|]. split; auto. split; auto.
        rewrite V1, HV. apply firstn_all2. rewrite known_length. lia.
      - exists (t_bufs st s). auto. }
    destruct B1 as (b1 & -> & I1 & V1 & R1). cbn [obind].
    assert (SZ1 : b_size b1 = length l) by (apply view_size; auto).
    destruct (read_more_gives (KGive (S c2)) s b1 st I1 HS) as (r & st1 & E & LT).
    { split; [eauto|]. split; [lia|auto]. }
    destruct (read_more_ok (KGive (S c2)) s b1 st I1 HS HIN) as [(st' & E' & _)|(d & b2 & st' & E' & HF & HT & HD & I2 & V2 & R2 & BU & MS & _)];
      rewrite E in E'; [discriminate|]. injection E' as -> ->. rewrite E. cbn [obind].
    destruct (Nat.ltb_spec (b_size b2) (b_reserve b2)) as [C|C]; [eauto|].
    assert (V2' : b_view b2 = known (l ++ d)) by (rewrite V2, V1, known_app; reflexivity).
    assert (HB2 : bytes_ok (l ++ d)) by (apply Forall_app; auto).
    destruct (h_fields b2 (l ++ d) V2' HB2) as (G1 & _ & _); [rewrite app_length; lia|]. rewrite G1. cbn [obind].
    eexists. split; [reflexivity|]. exact LT.
Qed.
