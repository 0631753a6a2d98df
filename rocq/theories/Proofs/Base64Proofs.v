From Coq Require Import String List NArith ZArith Lia ZifyBool ZifyNat ZifyN Bool.
From Verif Require Import Model.Base Model.HttpCodec Spec.Base64Spec
  Proofs.Arith Proofs.ProtocolProofs Proofs.PercentProofs.
Import ListNotations.
Ltac Zify.zify_post_hook ::= Z.div_mod_to_equations.

Lemma zlor_add : forall a b k, (0 <= k)%Z -> (0 <= a)%Z -> (a mod 2 ^ k = 0)%Z ->
  (0 <= b < 2 ^ k)%Z -> (Z.lor a b = a + b)%Z.
Proof.
  intros a b k Hk Ha Hm Hb.
  rewrite <- Z.lxor_lor, <- Z.add_nocarry_lxor; auto;
  (apply Z.bits_inj_iff; intros n; rewrite Z.land_spec, Z.bits_0;
   destruct (Z.ltb_spec n 0); [rewrite Z.testbit_neg_r by lia; auto|];
   destruct (Z.ltb_spec n k);
   [ assert (E : Z.testbit a n = false)
       by (rewrite <- (Z.mod_pow2_bits_low a k n) by lia; rewrite Hm; apply Z.bits_0);
     rewrite E; auto
   | assert (E : Z.testbit b n = false)
       by (destruct (Z.eq_dec b 0); [subst; apply Z.bits_0|];
           apply Z.bits_above_log2; [lia|]; apply Z.log2_lt_pow2; try lia;
           apply Z.lt_le_trans with (2 ^ k)%Z; [lia|apply Z.pow_le_mono_r; lia]);
     rewrite E; apply andb_false_r ]).
Qed.

Lemma mask6 : forall v, (0 <= v)%Z -> Z.land v 0x3f = (v mod 64)%Z.
Proof. intros. change 0x3f%Z with (Z.ones 6). now rewrite Z.land_ones by lia. Qed.

Lemma mask8 : forall v, (0 <= v)%Z -> Z.land v 0xff = (v mod 256)%Z.
Proof. intros. change 0xff%Z with (Z.ones 8). now rewrite Z.land_ones by lia. Qed.

Local Open Scope N_scope.

Definition six := map N.of_nat (seq 0 64).
Lemma six_sweep : forall (f : N -> bool), forallb f six = true -> forall v, v < 64 -> f v = true.
Proof.
  intros f H v Hv. rewrite forallb_forall in H. apply H.
  unfold six. rewrite <- (N2Nat.id v). apply in_map. apply in_seq. lia.
Qed.

Lemma char_of : forall v, v < 64 ->
  nth_error base64Characters (N.to_nat v) = Some (b64char v).
Proof.
  intros v Hv.
  assert (H : match nth_error base64Characters (N.to_nat v) with
              | Some c => c =? b64char v | None => false end = true).
  { apply (six_sweep (fun v => match nth_error base64Characters (N.to_nat v) with
              | Some c => c =? b64char v | None => false end)); auto. }
  destruct (nth_error base64Characters (N.to_nat v)); [|discriminate].
  apply N.eqb_eq in H. now subst.
Qed.

Lemma value_of : forall v, v < 64 -> b64value (b64char v) = inl (Z.of_N v).
Proof.
  intros v Hv.
  assert (H : match b64value (b64char v) with
              | inl z => (z =? Z.of_N v)%Z | inr _ => false end = true).
  { apply (six_sweep (fun v => match b64value (b64char v) with
              | inl z => (z =? Z.of_N v)%Z | inr _ => false end)); auto. }
  destruct (b64value (b64char v)); [|discriminate]. apply Z.eqb_eq in H. now subst.
Qed.

Lemma value_alphabet : forall c z, b64value c = inl z -> exists v, v < 64 /\ z = Z.of_N v /\ c = b64char v.
Proof.
  intros c z H. exists (Z.to_N z). unfold b64value in H. unfold b64char.
  repeat match type of H with
  | context [if ?b then _ else _] => destruct b eqn:?
  end; try discriminate; injection H as <-.
  all: split; [lia|]; split; [lia|].
  all: repeat match goal with
  | |- context [if ?b then _ else _] => destruct b eqn:?
  end; lia.
Qed.

Lemma value_pad : b64value 61 = inr true. Proof. reflexivity. Qed.
Lemma value_pad_inv : forall c, b64value c = inr true -> c = 61.
Proof.
  intros c H. unfold b64value in H.
  repeat match type of H with
  | context [if ?b then _ else _] => destruct b eqn:?
  end; try discriminate. injection H as H. lia.
Qed.

(** ** Encoding *)

Ltac nthc v :=
  match goal with |- context [nth_error base64Characters (Z.to_nat ?x)] =>
    replace (Z.to_nat x) with (N.to_nat v); [rewrite (char_of v) by lia|]
  end.

Lemma shl : forall a k, (0 <= k)%Z -> Z.shiftl a k = (a * 2 ^ k)%Z.
Proof. intros. now apply Z.shiftl_mul_pow2. Qed.
Lemma shr : forall a k, (0 <= k)%Z -> Z.shiftr a k = (a / 2 ^ k)%Z.
Proof. intros. now apply Z.shiftr_div_pow2. Qed.

Lemma enc_buffer : forall a b c : N, a < 256 -> b < 256 -> c < 256 ->
  Z.lor (Z.lor (Z.lor 0 (Z.shiftl (Z.of_N a) 16)) (Z.shiftl (Z.of_N b) 8)) (Z.shiftl (Z.of_N c) 0)
  = (Z.of_N a * 65536 + Z.of_N b * 256 + Z.of_N c)%Z.
Proof.
  intros. rewrite !shl by lia. rewrite Z.lor_0_l.
  rewrite (zlor_add _ (Z.of_N b * _) 16) by lia.
  rewrite (zlor_add _ (Z.of_N c * _) 8) by lia. lia.
Qed.

Lemma enc_buffer2 : forall a b : N, a < 256 -> b < 256 ->
  Z.lor (Z.lor 0 (Z.shiftl (Z.of_N a) 16)) (Z.shiftl (Z.of_N b) 8)
  = (Z.of_N a * 65536 + Z.of_N b * 256)%Z.
Proof.
  intros. rewrite !shl by lia. rewrite Z.lor_0_l.
  rewrite (zlor_add _ (Z.of_N b * _) 16) by lia. lia.
Qed.

Lemma enc_buffer1 : forall a : N, a < 256 ->
  Z.lor 0 (Z.shiftl (Z.of_N a) 16) = (Z.of_N a * 65536)%Z.
Proof. intros. rewrite !shl by lia. now rewrite Z.lor_0_l. Qed.

Ltac idx := rewrite shr by lia; rewrite mask6 by (apply Z.div_pos; lia);
  change (2^18)%Z with 262144%Z; change (2^12)%Z with 4096%Z; change (2^6)%Z with 64%Z;
  change (2^0)%Z with 1%Z; lia.

Lemma enc_done : forall f buf padded out, enc_loop f [] buf (-6) padded out = Done out.
Proof. destruct f; reflexivity. Qed.

Lemma enc_group : forall f a b c r buf pad out,
  a < 256 -> b < 256 -> c < 256 ->
  exists buf',
  enc_loop (S (S (S (S f)))) (a :: b :: c :: r) buf (-6) pad out
  = enc_loop f r buf' (-6) (-6) (out ++ b64 [a; b; c]).
Proof.
  intros f a b c r buf pad out Ha Hb Hc.
  set (W := (Z.of_N a * 65536 + Z.of_N b * 256 + Z.of_N c)%Z).
  exists W.
  cbn -[b64char Z.lor Z.shiftl Z.shiftr Z.land nth_error base64Characters app].
  rewrite enc_buffer by assumption. fold W.
  nthc (a / 4); [|unfold W; idx].
  nthc (a mod 4 * 16 + b / 16); [|unfold W; idx].
  nthc (b mod 16 * 4 + c / 64); [|unfold W; idx].
  nthc (c mod 64); [|unfold W; idx].
  rewrite !orb_true_r, <- !app_assoc. reflexivity.
Qed.

Lemma enc_tail2 : forall f a b buf pad out, a < 256 -> b < 256 ->
  enc_loop (S (S (S (S f)))) [a; b] buf (-6) pad out = Done (out ++ b64 [a; b]).
Proof.
  intros f a b buf pad out Ha Hb.
  cbn -[b64char Z.lor Z.shiftl Z.shiftr Z.land nth_error base64Characters app enc_loop].
  set (W := (Z.of_N a * 65536 + Z.of_N b * 256)%Z).
  cbn -[b64char Z.lor Z.shiftl Z.shiftr Z.land nth_error base64Characters app].
  rewrite enc_buffer2 by assumption. fold W.
  nthc (a / 4); [|unfold W; idx].
  nthc (a mod 4 * 16 + b / 16); [|unfold W; idx].
  nthc (b mod 16 * 4); [|unfold W; idx].
  rewrite enc_done. rewrite <- !app_assoc. reflexivity.
Qed.

Lemma enc_tail1 : forall f a buf pad out, a < 256 ->
  enc_loop (S (S (S (S f)))) [a] buf (-6) pad out = Done (out ++ b64 [a]).
Proof.
  intros f a buf pad out Ha.
  set (W := (Z.of_N a * 65536)%Z).
  cbn -[b64char Z.lor Z.shiftl Z.shiftr Z.land nth_error base64Characters app].
  rewrite enc_buffer1 by assumption. fold W.
  nthc (a / 4); [|unfold W; idx].
  nthc (a mod 4 * 16); [|unfold W; idx].
  rewrite enc_done. rewrite <- !app_assoc. reflexivity.
Qed.

Lemma enc_all : forall n src f buf pad out, (length src <= n)%nat -> bytes_ok src ->
  (2 * length src + 4 <= f)%nat ->
  enc_loop f src buf (-6) pad out = Done (out ++ b64 src).
Proof.
  induction n as [|n IH]; intros src f buf pad out HL HB HF.
  - destruct src; [|cbn in HL; lia]. rewrite enc_done. cbn. now rewrite app_nil_r.
  - destruct src as [|a [|b [|c r]]].
    + rewrite enc_done. cbn. now rewrite app_nil_r.
    + inversion HB; subst. do 4 (destruct f as [|f]; [cbn in HF; lia|]).
      now apply enc_tail1.
    + inversion HB as [|? ? ? HB']; subst. inversion HB'; subst.
      do 4 (destruct f as [|f]; [cbn in HF; lia|]).
      now apply enc_tail2.
    + inversion HB as [|? ? ? HB']; subst. inversion HB' as [|? ? ? HB'']; subst.
      inversion HB''; subst.
      do 4 (destruct f as [|f]; [cbn in HF; lia|]).
      cbn [length] in *.
      destruct (enc_group f a b c r buf pad out) as [buf' E]; auto.
      rewrite E, IH by (auto; lia).
      rewrite <- app_assoc. reflexivity.
Qed.

Lemma base64_encode : forall fuel src, bytes_ok src -> (2 * length src + 4 <= fuel)%nat ->
  base64Encode fuel src = Done (b64 src).
Proof. intros. unfold base64Encode. now rewrite (enc_all (length src)) by auto. Qed.

Lemma b64_length : forall n s, (length s <= n)%nat -> length (b64 s) = (4 * ((length s + 2) / 3))%nat.
Proof.
  induction n as [|n IH]; intros s H.
  - destruct s; [reflexivity|cbn in H; lia].
  - destruct s as [|a [|b [|c r]]]; try reflexivity.
    cbn [b64 length app]. rewrite IH by (cbn in H; lia).
    cbn [length]. replace (S (S (S (length r))) + 2)%nat with (length r + 2 + 1 * 3)%nat by lia.
    rewrite Nat.div_add by lia. lia.
Qed.

(** ** Decoding *)

Lemma dec_done : forall f buf p dst d, dec_loop f [] buf (-8) p dst d = Done (dst, d).
Proof. destruct f; reflexivity. Qed.

Lemma dec_buffer : forall a b c d : N, a < 64 -> b < 64 -> c < 64 -> d < 64 ->
  Z.lor (Z.lor (Z.lor (Z.lor 0 (Z.shiftl (Z.of_N a) 18)) (Z.shiftl (Z.of_N b) 12))
     (Z.shiftl (Z.of_N c) 6)) (Z.shiftl (Z.of_N d) 0)
  = (Z.of_N a * 262144 + Z.of_N b * 4096 + Z.of_N c * 64 + Z.of_N d)%Z.
Proof.
  intros. rewrite !shl by lia. rewrite Z.lor_0_l.
  rewrite (zlor_add _ (Z.of_N b * _) 18) by lia.
  rewrite (zlor_add _ (Z.of_N c * _) 12) by lia.
  rewrite (zlor_add _ (Z.of_N d * _) 6) by lia. lia.
Qed.

Lemma dec_buffer3 : forall a b c : N, a < 64 -> b < 64 -> c < 64 ->
  Z.lor (Z.lor (Z.lor 0 (Z.shiftl (Z.of_N a) 18)) (Z.shiftl (Z.of_N b) 12))
     (Z.shiftl (Z.of_N c) 6)
  = (Z.of_N a * 262144 + Z.of_N b * 4096 + Z.of_N c * 64)%Z.
Proof.
  intros. rewrite !shl by lia. rewrite Z.lor_0_l.
  rewrite (zlor_add _ (Z.of_N b * _) 18) by lia.
  rewrite (zlor_add _ (Z.of_N c * _) 12) by lia. lia.
Qed.

Lemma dec_buffer2 : forall a b : N, a < 64 -> b < 64 ->
  Z.lor (Z.lor 0 (Z.shiftl (Z.of_N a) 18)) (Z.shiftl (Z.of_N b) 12)
  = (Z.of_N a * 262144 + Z.of_N b * 4096)%Z.
Proof.
  intros. rewrite !shl by lia. rewrite Z.lor_0_l.
  rewrite (zlor_add _ (Z.of_N b * _) 18) by lia. lia.
Qed.

Definition B0 (a b : N) : N := a * 4 + b / 16.
Definition B1 (b c : N) : N := b mod 16 * 16 + c / 4.
Definition B2 (c d : N) : N := c mod 4 * 64 + d.

Ltac wbyte v :=
  match goal with |- context [Z.to_N (Z.land ?x 255)] =>
    replace (Z.to_N (Z.land x 255)) with v;
    [|rewrite shr by lia; rewrite mask8 by (apply Z.div_pos; lia);
      change (2^16)%Z with 65536%Z; change (2^8)%Z with 256%Z; change (2^0)%Z with 1%Z;
      unfold B0, B1, B2; lia]
  end.

Lemma wr3 : forall A (out : list A) x y z rest u,
  wr (out ++ x :: y :: z :: rest) (length out) u = Some (out ++ u :: y :: z :: rest).
Proof. intros. apply wr_at. Qed.

Lemma wr3b : forall A (out : list A) x y z rest u,
  wr (out ++ x :: y :: z :: rest) (S (length out)) u = Some (out ++ x :: u :: z :: rest).
Proof.
  intros. replace (out ++ x :: y :: z :: rest) with ((out ++ [x]) ++ y :: z :: rest)
    by (rewrite <- app_assoc; reflexivity).
  replace (S (length out)) with (length (out ++ [x])) by (rewrite app_length; cbn; lia).
  rewrite wr_at. rewrite <- app_assoc. reflexivity.
Qed.

Lemma wr3c : forall A (out : list A) x y z rest u,
  wr (out ++ x :: y :: z :: rest) (S (S (length out))) u = Some (out ++ x :: y :: u :: rest).
Proof.
  intros. replace (out ++ x :: y :: z :: rest) with ((out ++ [x; y]) ++ z :: rest)
    by (rewrite <- app_assoc; reflexivity).
  replace (S (S (length out))) with (length (out ++ [x; y])) by (rewrite app_length; cbn; lia).
  rewrite wr_at. rewrite <- app_assoc. reflexivity.
Qed.

Lemma dec_group : forall f a b c d r buf p out x y z rest,
  a < 64 -> b < 64 -> c < 64 -> d < 64 ->
  exists buf',
  dec_loop (S (S (S f))) (b64char a :: b64char b :: b64char c :: b64char d :: r) buf (-8) p
    (out ++ x :: y :: z :: rest) (length out)
  = dec_loop f r buf' (-8) (-9)
      (out ++ Some (B0 a b) :: Some (B1 b c) :: Some (B2 c d) :: rest) (S (S (S (length out)))).
Proof.
  intros f a b c d r buf p out x y z rest Ha Hb Hc Hd.
  set (W := (Z.of_N a * 262144 + Z.of_N b * 4096 + Z.of_N c * 64 + Z.of_N d)%Z).
  exists W.
  cbn -[b64char Z.lor Z.shiftl Z.shiftr Z.land b64value wr app length Z.to_N].
  rewrite !value_of by assumption.
  rewrite dec_buffer by assumption. fold W.
  rewrite wr3, wr3b, wr3c. rewrite !orb_true_r.
  unfold W. wbyte (B0 a b). wbyte (B1 b c). wbyte (B2 c d). reflexivity.
Qed.

(** What happens with the last, incomplete or padded, group. *)
Lemma dec_pad2 : forall f a b r buf p out x y z rest, a < 64 -> b < 64 ->
  dec_loop (S (S (S f))) (b64char a :: b64char b :: 61 :: r) buf (-8) p
    (out ++ x :: y :: z :: rest) (length out)
  = Done (out ++ Some (B0 a b) :: Some (B1 b 0) :: z :: rest, S (length out)).
Proof.
  intros f a b r buf p out x y z rest Ha Hb.
  set (W := (Z.of_N a * 262144 + Z.of_N b * 4096)%Z).
  cbn -[b64char Z.lor Z.shiftl Z.shiftr Z.land b64value wr app length Z.to_N].
  rewrite !value_of, value_pad by assumption.
  rewrite dec_buffer2 by assumption. fold W.
  rewrite wr3, wr3b. rewrite ?orb_true_r.
  unfold W. wbyte (B0 a b). wbyte (B1 b 0). reflexivity.
Qed.

Lemma dec_pad3 : forall f a b c r buf p out x y z rest, a < 64 -> b < 64 -> c < 64 ->
  dec_loop (S (S (S f))) (b64char a :: b64char b :: b64char c :: 61 :: r) buf (-8) p
    (out ++ x :: y :: z :: rest) (length out)
  = Done (out ++ Some (B0 a b) :: Some (B1 b c) :: z :: rest, S (S (length out))).
Proof.
  intros f a b c r buf p out x y z rest Ha Hb Hc.
  set (W := (Z.of_N a * 262144 + Z.of_N b * 4096 + Z.of_N c * 64)%Z).
  cbn -[b64char Z.lor Z.shiftl Z.shiftr Z.land b64value wr app length Z.to_N].
  rewrite !value_of, value_pad by assumption.
  rewrite dec_buffer3 by assumption. fold W.
  rewrite wr3, wr3b. rewrite ?orb_true_r.
  unfold W. wbyte (B0 a b). wbyte (B1 b c). reflexivity.
Qed.

(** Any other beginning: at most the first byte of the group is written. *)
Lemma dec_other : forall f s buf p out x y z rest, s <> [] ->
  (forall a b c d r, a < 64 -> b < 64 -> c < 64 -> d < 64 ->
     s <> b64char a :: b64char b :: b64char c :: b64char d :: r) ->
  (forall a b r, a < 64 -> b < 64 -> s <> b64char a :: b64char b :: 61 :: r) ->
  (forall a b c r, a < 64 -> b < 64 -> c < 64 ->
     s <> b64char a :: b64char b :: b64char c :: 61 :: r) ->
  exists x' n,
  dec_loop (S (S (S f))) s buf (-8) p (out ++ x :: y :: z :: rest) (length out)
  = Done (out ++ x' :: y :: z :: rest, n) /\ (n <= S (length out))%nat.
Proof.
  intros f s buf p out x y z rest HN H4 H2 H3.
  assert (K : forall q B, (8 < q)%Z ->
    exists x' n,
    (match wr (out ++ x :: y :: z :: rest) (length out) (Some B) with
     | Some dst' => if (8 <=? q)%Z then if negb (Z.quot (q - 8) 6 =? 0)%Z then Done (dst', length out)
                                   else Done (dst', S (length out)) else Spin
     | None => Undef end) = Done (out ++ x' :: y :: z :: rest, n) /\ (n <= S (length out))%nat).
  { intros q B Hq. rewrite wr3. destruct (Z.leb_spec 8 q); [|lia].
    destruct (negb _); eexists; eexists; (split; [reflexivity|lia]). }
  assert (Fail : exists x' n, Done (out ++ x :: y :: z :: rest, O)
    = Done (out ++ x' :: y :: z :: rest, n) /\ (n <= S (length out))%nat)
    by (eexists; eexists; split; [reflexivity|lia]).
  destruct s as [|c0 s]; [congruence|].
  cbn -[b64char Z.lor Z.shiftl Z.shiftr Z.land b64value wr app length Z.to_N].
  destruct (b64value c0) as [z0|[|]] eqn:E0; [|rewrite wr3; cbn -[app length Z.lor Z.shiftl Z.shiftr Z.land Z.to_N]; eexists; eexists; (split; [reflexivity|lia])|exact Fail].
  apply value_alphabet in E0 as (v0 & L0 & -> & ->).
  destruct s as [|c1 s]; [exact Fail|].
  destruct (b64value c1) as [z1|[|]] eqn:E1; [|rewrite wr3; cbn -[app length Z.lor Z.shiftl Z.shiftr Z.land Z.to_N]; eexists; eexists; (split; [reflexivity|lia])|exact Fail].
  apply value_alphabet in E1 as (v1 & L1 & -> & ->).
  destruct s as [|c2 s]; [exact Fail|].
  destruct (b64value c2) as [z2|[|]] eqn:E2; [|apply value_pad_inv in E2; subst; exfalso; eapply H2; [exact L0|exact L1|reflexivity]|exact Fail].
  apply value_alphabet in E2 as (v2 & L2 & -> & ->).
  destruct s as [|c3 s]; [exact Fail|].
  destruct (b64value c3) as [z3|[|]] eqn:E3; [|apply value_pad_inv in E3; subst; exfalso; eapply H3; [exact L0|exact L1|exact L2|reflexivity]|exact Fail].
  apply value_alphabet in E3 as (v3 & L3 & -> & ->).
  exfalso. eapply H4; [exact L0|exact L1|exact L2|exact L3|reflexivity].
Qed.

(** Case split on the first group of a text. *)
Lemma group_cases : forall s, s = [] \/
  (exists a b c d r, a < 64 /\ b < 64 /\ c < 64 /\ d < 64 /\
     s = b64char a :: b64char b :: b64char c :: b64char d :: r) \/
  (exists a b r, a < 64 /\ b < 64 /\ s = b64char a :: b64char b :: 61 :: r) \/
  (exists a b c r, a < 64 /\ b < 64 /\ c < 64 /\ s = b64char a :: b64char b :: b64char c :: 61 :: r) \/
  (s <> [] /\
   (forall a b c d r, a < 64 -> b < 64 -> c < 64 -> d < 64 ->
     s <> b64char a :: b64char b :: b64char c :: b64char d :: r) /\
   (forall a b r, a < 64 -> b < 64 -> s <> b64char a :: b64char b :: 61 :: r) /\
   (forall a b c r, a < 64 -> b < 64 -> c < 64 ->
     s <> b64char a :: b64char b :: b64char c :: 61 :: r)).
Proof.
  intros s.
  assert (NP : forall v, v < 64 -> b64char v <> 61).
  { intros v Hv E. pose proof (value_of v Hv) as X. rewrite E in X. discriminate. }
  assert (NA : forall c, (exists b, b64value c = inr b) -> forall v, v < 64 -> c <> b64char v).
  { intros c [b Hb] v Hv ->. rewrite value_of in Hb by auto. discriminate. }
  destruct s as [|c0 s]; [now left|]. right.
  assert (bad : forall P : Prop, P -> P) by auto.
  destruct (b64value c0) as [z0|b0] eqn:E0.
  2:{ right. right. right. split; [discriminate|].
      repeat split; intros; intro HH; injection HH as -> _; match goal with E : b64value (b64char _) = inr _ |- _ => rewrite value_of in E by assumption; discriminate end. }
  apply value_alphabet in E0 as (v0 & L0 & -> & ->).
  destruct s as [|c1 s].
  { right. right. right. repeat split; intros; discriminate. }
  destruct (b64value c1) as [z1|b1] eqn:E1.
  2:{ right. right. right. split; [discriminate|].
      repeat split; intros; intro HH; injection HH as _ -> _; match goal with E : b64value (b64char _) = inr _ |- _ => rewrite value_of in E by assumption; discriminate end. }
  apply value_alphabet in E1 as (v1 & L1 & -> & ->).
  destruct s as [|c2 s].
  { right. right. right. repeat split; intros; discriminate. }
  destruct (b64value c2) as [z2|b2] eqn:E2.
  2:{ destruct b2.
      - apply value_pad_inv in E2. subst. right. left. repeat eexists; eauto.
      - right. right. right. split; [discriminate|].
        split; [|split]; intros; intro HH.
        + injection HH as _ _ -> _. match goal with E : b64value (b64char _) = inr _ |- _ => rewrite value_of in E by assumption; discriminate end.
        + injection HH as _ _ -> _. discriminate.
        + injection HH as _ _ -> _. match goal with E : b64value (b64char _) = inr _ |- _ => rewrite value_of in E by assumption; discriminate end. }
  apply value_alphabet in E2 as (v2 & L2 & -> & ->).
  destruct s as [|c3 s].
  { right. right. right. split; [discriminate|].
    split; [|split]; intros; intro HH; try discriminate.
    injection HH as _ _ HH _. apply NP in HH; auto. }
  destruct (b64value c3) as [z3|b3] eqn:E3.
  - apply value_alphabet in E3 as (v3 & L3 & -> & ->).
    left. repeat eexists; eauto.
  - destruct b3.
    + apply value_pad_inv in E3. subst. right. right. left. repeat eexists; eauto.
    + right. right. right. split; [discriminate|].
      split; [|split]; intros; intro HH.
      * injection HH as _ _ _ -> _. match goal with E : b64value (b64char _) = inr _ |- _ => rewrite value_of in E by assumption; discriminate end.
      * injection HH as _ _ HH _. apply NP in HH; auto.
      * injection HH as _ _ _ -> _. discriminate.
Qed.

(** Safety on every text. *)
Lemma dec_safe : forall n s f buf p out rest,
  (length s <= n)%nat -> (length s + 3 <= f)%nat ->
  (3 * ((length s + 3) / 4) <= length rest)%nat ->
  exists dst' m, dec_loop f s buf (-8) p (out ++ rest) (length out) = Done (dst', m)
   /\ length dst' = length (out ++ rest)
   /\ (m <= length out + 3 * ((length s + 3) / 4))%nat.
Proof.
  induction n as [|n IH]; intros s f buf p out rest HL HF HR.
  { destruct s; [|cbn in HL; lia]. rewrite dec_done. eexists; eexists; split; [reflexivity|]. split; auto. lia. }
  destruct (group_cases s) as [->|[(a&b&c&d&r&Ha&Hb&Hc&Hd&->)|[(a&b&r&Ha&Hb&->)|[(a&b&c&r&Ha&Hb&Hc&->)|(HN&H4&H2&H3)]]]].
  { rewrite dec_done. eexists; eexists; split; [reflexivity|]. split; auto. lia. }
  all: assert (R3 : (3 <= length rest)%nat) by
    (try (destruct s; [congruence|]); cbn [length] in HR; lia).
  all: destruct rest as [|x [|y [|z rest]]]; cbn [length] in R3; try lia.
  all: do 3 (destruct f as [|f]; [try (destruct s; [congruence|]); cbn [length] in HF; lia|]).
  - cbn [length] in *.
    destruct (dec_group f a b c d r buf p out x y z rest Ha Hb Hc Hd) as [buf' ->].
    replace (S (S (S (length out))))
      with (length (out ++ [Some (B0 a b); Some (B1 b c); Some (B2 c d)]))
      by (rewrite app_length; cbn; lia).
    replace (out ++ Some (B0 a b) :: Some (B1 b c) :: Some (B2 c d) :: rest)
      with ((out ++ [Some (B0 a b); Some (B1 b c); Some (B2 c d)]) ++ rest)
      by (rewrite <- app_assoc; reflexivity).
    assert (D : ((S (S (S (S (length r)))) + 3) / 4 = (length r + 3) / 4 + 1)%nat).
    { replace (S (S (S (S (length r)))) + 3)%nat with (length r + 3 + 1 * 4)%nat by lia.
      rewrite Nat.div_add by lia. reflexivity. }
    rewrite D in *.
    destruct (IH r f buf' (-9)%Z (out ++ [Some (B0 a b); Some (B1 b c); Some (B2 c d)]) rest)
      as (dst' & m & E & L1 & L2); try lia.
    exists dst', m. split; [exact E|]. rewrite L1, !app_length in *. cbn [length] in *.
    split; lia.
  - rewrite dec_pad2 by assumption. eexists; eexists. split; [reflexivity|].
    rewrite !app_length. cbn [length] in *. split; lia.
  - rewrite dec_pad3 by assumption. eexists; eexists. split; [reflexivity|].
    rewrite !app_length. cbn [length] in *. split; lia.
  - destruct (dec_other f s buf p out x y z rest HN H4 H2 H3) as (x' & m & -> & Lm).
    eexists; eexists. split; [reflexivity|].
    rewrite !app_length. destruct s; [congruence|]. cbn [length] in *. split; lia.
Qed.

(** Decoding of an encoded text. *)
Lemma dec_enc : forall n s f buf p out rest,
  (length s <= n)%nat -> bytes_ok s -> (2 * length s + 3 <= f)%nat ->
  (3 * ((length s + 2) / 3) <= length rest)%nat ->
  exists tail, dec_loop f (b64 s) buf (-8) p (out ++ rest) (length out)
     = Done (out ++ map Some s ++ tail, (length out + length s)%nat)
   /\ length (map Some s ++ tail) = length rest.
Proof.
  induction n as [|n IH]; intros s f buf p out rest HL HB HF HR.
  { destruct s; [|cbn in HL; lia]. cbn [b64]. rewrite dec_done. exists rest.
    cbn. rewrite Nat.add_0_r. auto. }
  destruct s as [|a [|b [|c r]]].
  { cbn [b64]. rewrite dec_done. exists rest. cbn. rewrite Nat.add_0_r. auto. }
  all: do 3 (destruct f as [|f]; [cbn [length] in HF; lia|]).
  all: assert (R3 : (3 <= length rest)%nat) by (cbn [length] in HR; lia).
  all: destruct rest as [|x [|y [|z rest]]]; cbn [length] in R3; try lia.
  - inversion HB; subst. unfold is_byte in *. cbn [b64].
    rewrite dec_pad2 by lia.
    eexists. split; [cbn [map app length]|].
    + replace (B0 (a / 4) (a mod 4 * 16)) with a by (unfold B0; lia).
      replace (S (length out)) with (length out + 1)%nat by lia. reflexivity.
    + reflexivity.
  - inversion HB as [|? ? ? HB']; subst. inversion HB'; subst. unfold is_byte in *. cbn [b64].
    rewrite dec_pad3 by lia.
    eexists. split; [cbn [map app length]|].
    + replace (B0 (a / 4) (a mod 4 * 16 + b / 16)) with a by (unfold B0; lia).
      replace (B1 (a mod 4 * 16 + b / 16) (b mod 16 * 4)) with b by (unfold B1; lia).
      replace (S (S (length out))) with (length out + 2)%nat by lia. reflexivity.
    + reflexivity.
  - inversion HB as [|? ? ? HB']; subst. inversion HB' as [|? ? ? HB'']; subst.
    inversion HB'' as [|? ? ? HB3]; subst. unfold is_byte in *. cbn [b64 app].
    destruct (dec_group f (a / 4) (a mod 4 * 16 + b / 16) (b mod 16 * 4 + c / 64) (c mod 64)
       (b64 r) buf p out x y z rest) as [buf' ->]; try lia.
    replace (B0 (a / 4) (a mod 4 * 16 + b / 16)) with a by (unfold B0; lia).
    replace (B1 (a mod 4 * 16 + b / 16) (b mod 16 * 4 + c / 64)) with b by (unfold B1; lia).
    replace (B2 (b mod 16 * 4 + c / 64) (c mod 64)) with c by (unfold B2; lia).
    cbn [length] in *.
    assert (D : ((S (S (S (length r))) + 2) / 3 = (length r + 2) / 3 + 1)%nat).
    { replace (S (S (S (length r))) + 2)%nat with (length r + 2 + 1 * 3)%nat by lia.
      rewrite Nat.div_add by lia. reflexivity. }
    rewrite D in *.
    destruct (IH r f buf' (-9)%Z (out ++ [Some a; Some b; Some c]) rest) as (tail & E & L); auto; try lia.
    rewrite app_length in E. cbn [length] in E.
    replace (S (S (S (length out)))) with (length out + 3)%nat by lia.
    replace (out ++ Some a :: Some b :: Some c :: rest)
      with ((out ++ [Some a; Some b; Some c]) ++ rest) by (rewrite <- app_assoc; reflexivity).
    exists tail. rewrite E. split.
    + rewrite <- app_assoc. cbn [app map]. do 2 f_equal. lia.
    + cbn [map app length]. lia.
Qed.

Lemma base64_round_trip : forall s fe fd dst,
  bytes_ok s -> (2 * length s + 4 <= fe)%nat -> (2 * length s + 3 <= fd)%nat ->
  (3 * ((length s + 2) / 3) <= length dst)%nat ->
  exists text tail,
    base64Encode fe s = Done text /\ text = b64 s /\
    length text = (4 * ((length s + 2) / 3))%nat /\
    base64Decode fd text dst = Done (map Some s ++ tail, length s) /\
    length (map Some s ++ tail) = length dst.
Proof.
  intros s fe fd dst HB HE HD HL.
  destruct (dec_enc (length s) s fd 0%Z 0%Z [] dst) as (tail & E & L); auto.
  exists (b64 s), tail. split; [now apply base64_encode|]. split; [reflexivity|].
  split; [now apply b64_length with (length s)|]. split; [exact E|exact L].
Qed.

Lemma base64_decode_safe : forall s f dst,
  (length s + 3 <= f)%nat -> (3 * ((length s + 3) / 4) <= length dst)%nat ->
  exists dst' m, base64Decode f s dst = Done (dst', m)
   /\ length dst' = length dst /\ (m <= 3 * ((length s + 3) / 4))%nat.
Proof.
  intros s f dst HF HL.
  destruct (dec_safe (length s) s f 0%Z 0%Z [] dst) as (dst' & m & E & L1 & L2); auto.
  exists dst', m. auto.
Qed.

(** ** Session ids *)

Lemma dec_full : forall n s f buf p out rest,
  length rest = (3 * n)%nat -> length s = (4 * n)%nat -> Forall b64_alphabet s ->
  (length s + 3 <= f)%nat ->
  exists v m, dec_loop f s buf (-8) p (out ++ rest) (length out) = Done (out ++ map Some v, m)
    /\ length v = (3 * n)%nat /\ bytes_ok v.
Proof.
  induction n as [|n IH]; intros s f buf p out rest HR HL HA HF.
  { destruct s; [|cbn in HL; lia]. destruct rest; [|cbn in HR; lia].
    rewrite dec_done. exists [], (length out). repeat split. constructor. }
  destruct s as [|c0 [|c1 [|c2 [|c3 s]]]]; try (cbn in HL; lia).
  destruct rest as [|x [|y [|z rest]]]; try (cbn in HR; lia).
  inversion HA as [|? ? (a & Ha & ->) HA1]; subst. inversion HA1 as [|? ? (b & Hb & ->) HA2]; subst.
  inversion HA2 as [|? ? (c & Hc & ->) HA3]; subst. inversion HA3 as [|? ? (d & Hd & ->) HA4]; subst.
  do 3 (destruct f as [|f]; [cbn [length] in HF; lia|]).
  destruct (dec_group f a b c d s buf p out x y z rest Ha Hb Hc Hd) as [buf' ->].
  cbn [length] in *.
  destruct (IH s f buf' (-9)%Z (out ++ [Some (B0 a b); Some (B1 b c); Some (B2 c d)]) rest)
    as (v & m & E & L & HV); auto; try lia.
  rewrite app_length in E. cbn [length] in E.
  replace (S (S (S (length out)))) with (length out + 3)%nat by lia.
  replace (out ++ Some (B0 a b) :: Some (B1 b c) :: Some (B2 c d) :: rest)
    with ((out ++ [Some (B0 a b); Some (B1 b c); Some (B2 c d)]) ++ rest)
    by (rewrite <- app_assoc; reflexivity).
  exists (B0 a b :: B1 b c :: B2 c d :: v), m. rewrite E. split.
  - rewrite <- app_assoc. reflexivity.
  - split; [cbn [length]; lia|].
    repeat (constructor; [unfold is_byte, B0, B1, B2; lia|]). exact HV.
Qed.

Lemma last_app : forall A (a b : list A) d, b <> [] -> last (a ++ b) d = last b d.
Proof.
  induction a as [|x a IH]; intros b d H; auto.
  cbn [app]. rewrite <- (IH b d H). destruct (a ++ b) eqn:E; [|reflexivity].
  apply app_eq_nil in E as [_ ->]. congruence.
Qed.

Lemma dec_short : forall n s f buf p out rest,
  length rest = (3 * n)%nat -> (0 < n)%nat -> (length s <= 4 * n)%nat ->
  ~ (length s = (4 * n)%nat /\ Forall b64_alphabet s) ->
  (length s + 3 <= f)%nat ->
  exists dst' m, dec_loop f s buf (-8) p (out ++ rest) (length out) = Done (dst', m)
    /\ length dst' = length (out ++ rest) /\ last dst' None = last rest None.
Proof.
  induction n as [|n IH]; intros s f buf p out rest HR HN HL HA HF; [lia|].
  destruct rest as [|x [|y [|z rest]]]; try (cbn in HR; lia).
  destruct (group_cases s) as [->|[(a&b&c&d&r&Ha&Hb&Hc&Hd&->)|[(a&b&r&Ha&Hb&->)|[(a&b&c&r&Ha&Hb&Hc&->)|(HN'&H4&H2&H3)]]]].
  { rewrite dec_done. eexists; eexists; split; [reflexivity|]. split; auto.
    apply last_app. discriminate. }
  all: do 3 (destruct f as [|f]; [cbn [length] in HF; lia|]).
  - cbn [length] in *.
    assert (HA' : ~ (length r = (4 * n)%nat /\ Forall b64_alphabet r)).
    { intros [E1 E2]. apply HA. split; [lia|].
      repeat (constructor; [eexists; split; [|reflexivity]; assumption|]). exact E2. }
    assert (Hn : (0 < n)%nat).
    { destruct n; [|lia]. exfalso. apply HA'. destruct r; [|cbn in HL; lia]. split; [reflexivity|constructor]. }
    destruct (dec_group f a b c d r buf p out x y z rest Ha Hb Hc Hd) as [buf' ->].
    destruct (IH r f buf' (-9)%Z (out ++ [Some (B0 a b); Some (B1 b c); Some (B2 c d)]) rest)
      as (dst' & m & E & L & HV); auto; try lia.
    rewrite app_length in E. cbn [length] in E.
    replace (S (S (S (length out)))) with (length out + 3)%nat by lia.
    replace (out ++ Some (B0 a b) :: Some (B1 b c) :: Some (B2 c d) :: rest)
      with ((out ++ [Some (B0 a b); Some (B1 b c); Some (B2 c d)]) ++ rest)
      by (rewrite <- app_assoc; reflexivity).
    exists dst', m. rewrite E. split; [reflexivity|]. split.
    + rewrite L, !app_length. cbn [length]. lia.
    + rewrite HV. destruct rest as [|w rest]; [cbn in HR; lia|reflexivity].
  - rewrite dec_pad2 by assumption. eexists; eexists. split; [reflexivity|].
    split; [now rewrite !app_length|]. rewrite last_app by discriminate. destruct rest; reflexivity.
  - rewrite dec_pad3 by assumption. eexists; eexists. split; [reflexivity|].
    split; [now rewrite !app_length|]. rewrite last_app by discriminate. destruct rest; reflexivity.
  - destruct (dec_other f s buf p out x y z rest HN' H4 H2 H3) as (x' & m & -> & Lm).
    eexists; eexists. split; [reflexivity|].
    split; [now rewrite !app_length|]. rewrite last_app by discriminate. destruct rest; reflexivity.
Qed.

Lemma session_round_trip : forall id fe fd,
  bytes_ok id -> length id = 15%nat -> (40 <= fe)%nat -> (40 <= fd)%nat ->
  exists text, sessionIdPrint fe id = Done text /\ length text = 20%nat /\
    forall suffix, sessionIdOfString fd (text ++ suffix) = Done (map Some id).
Proof.
  intros id fe fd HB HL HE HD.
  destruct (base64_round_trip id fe fd (repeat None sid_size)) as (text & tail & E1 & E2 & E3 & E4 & E5);
    [assumption|rewrite HL; lia|rewrite HL; lia
    |rewrite HL, repeat_length; change (3 * ((15 + 2) / 3))%nat with 15%nat; reflexivity|].
  exists text. split; [exact E1|]. rewrite HL in E3. split; [exact E3|].
  intros suffix. unfold sessionIdOfString.
  replace (firstn (Nat.min sid_stringLength (length (text ++ suffix))) (text ++ suffix)) with text.
  - rewrite E4. f_equal. rewrite app_length, map_length, repeat_length, HL in E5.
    unfold sid_size in E5. destruct tail; [|cbn [length] in E5; lia]. apply app_nil_r.
  - symmetry. apply firstn_at. rewrite app_length, E3. unfold sid_stringLength. lia.
Qed.

Lemma session_distinct : forall id1 id2 f,
  bytes_ok id1 -> bytes_ok id2 -> length id1 = 15%nat -> length id2 = 15%nat -> (40 <= f)%nat ->
  sessionIdPrint f id1 = sessionIdPrint f id2 -> id1 = id2.
Proof.
  intros id1 id2 f B1 B2 L1 L2 HF H.
  destruct (session_round_trip id1 f 40) as (t1 & E1 & _ & R1); auto.
  destruct (session_round_trip id2 f 40) as (t2 & E2 & _ & R2); auto.
  rewrite E1, E2 in H. injection H as <-.
  specialize (R1 []). specialize (R2 []). rewrite R1 in R2. injection R2 as R2.
  clear - R2. revert id2 R2. induction id1; destruct id2; cbn; intros; try discriminate; auto.
  injection R2 as -> R2. f_equal; auto.
Qed.

Lemma session_determined : forall s f, (40 <= f)%nat ->
  exists data, sessionIdOfString f s = Done data /\ length data = 15%nat /\
    ((20 <= length s)%nat /\ Forall b64_alphabet (firstn 20 s) <-> ~ In None data).
Proof.
  intros s f HF. unfold sessionIdOfString.
  set (t := firstn (Nat.min sid_stringLength (length s)) s).
  assert (Et : t = firstn 20 s).
  { unfold t, sid_stringLength. destruct (Nat.le_ge_cases (length s) 20).
    - rewrite Nat.min_r by assumption. now rewrite !firstn_all2 by lia.
    - now rewrite Nat.min_l by assumption. }
  rewrite Et. assert (Lt : (length (firstn 20 s) <= 20)%nat) by (rewrite firstn_length; lia).
  unfold base64Decode. change (repeat None sid_size) with ([] ++ repeat (@None N) 15).
  destruct (Nat.eq_dec (length (firstn 20 s)) 20) as [L|L].
  - assert (D : Forall b64_alphabet (firstn 20 s) \/ ~ Forall b64_alphabet (firstn 20 s)).
    { destruct (Forall_Exists_dec b64_alphabet) with (l := firstn 20 s) as [F|F]; auto.
      - intros c. destruct (b64value c) as [z|b] eqn:E.
        + left. apply value_alphabet in E as (v & ? & _ & ?). exists v. auto.
        + right. intros (v & Hv & ->). rewrite value_of in E by auto. discriminate.
      - right. intros G. apply Exists_exists in F as (c & I & Nc).
        rewrite Forall_forall in G. auto. }
    destruct D as [D|D].
    + destruct (dec_full 5 (firstn 20 s) f 0%Z 0%Z [] (repeat None 15)) as (v & m & E & Lv & Bv); auto; try lia.
      cbn [length] in E. rewrite E. exists (map Some v). split; [reflexivity|].
      split; [now rewrite map_length|]. split.
      * intros _ I. apply in_map_iff in I as (w & I & _). discriminate.
      * intros _. split; auto. rewrite firstn_length in L. lia.
    + destruct (dec_short 5 (firstn 20 s) f 0%Z 0%Z [] (repeat None 15)) as (d & m & E & Ld & Hd); auto; try lia.
      { intros [_ X]. auto. }
      cbn [length] in E. rewrite E. exists d. split; [reflexivity|]. split; [exact Ld|].
      split; [intros [_ X]; contradiction|].
      intros X. exfalso. apply X. cbn in Hd. rewrite <- Hd.
      destruct d as [|u d]; [discriminate|].
      destruct (exists_last (l := u :: d)) as (l' & w & ->); [discriminate|].
      rewrite last_last. apply in_or_app. right. now left.
  - destruct (dec_short 5 (firstn 20 s) f 0%Z 0%Z [] (repeat None 15)) as (d & m & E & Ld & Hd); auto; try lia.
    cbn [length] in E. rewrite E. exists d. split; [reflexivity|]. split; [exact Ld|].
    split; [intros [X _]; rewrite firstn_length in L; lia|].
    intros X. exfalso. apply X. cbn in Hd. rewrite <- Hd.
    destruct d as [|u d]; [discriminate|].
    destruct (exists_last (l := u :: d)) as (l' & w & ->); [discriminate|].
    rewrite last_last. apply in_or_app. right. now left.
Qed.
