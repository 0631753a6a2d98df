From Coq Require Import List NArith ZArith Lia ZifyBool ZifyNat ZifyN Bool.
From Verif Require Import Model.Base Model.Endian Model.Protocol
  Spec.EndianSpec Spec.WireSpec Proofs.Arith Proofs.EndianProofs.
Import ListNotations.
Local Open Scope N_scope.
Ltac Zify.zify_post_hook ::= Z.div_mod_to_equations.

Lemma land80_byte : forall b, b < 256 -> (N.land b 0x80 =? 0) = (b <? 128).
Proof.
  intros b Hb.
  assert (H : forallb (fun b => Bool.eqb (N.land b 0x80 =? 0) (b <? 128))
            (map N.of_nat (seq 0 256)) = true) by (vm_compute; reflexivity).
  rewrite forallb_forall in H. specialize (H b).
  apply eqb_prop, H. apply in_map_iff. exists (N.to_nat b). split; [lia|].
  apply in_seq. lia.
Qed.

Lemma land7f : forall v, N.land v 0x7fffffff = v mod 2 ^ 31.
Proof. intros. change 0x7fffffff with (N.ones 31). apply N.land_ones. Qed.

Lemma skipn_at : forall (A:Type) (a b : list A) n, n = length a -> skipn n (a ++ b) = b.
Proof. intros. subst. rewrite skipn_app, skipn_all, Nat.sub_diag. reflexivity. Qed.

Lemma firstn_at : forall (A:Type) (a b : list A) n, n = length a -> firstn n (a ++ b) = a.
Proof.
  intros. subst. rewrite firstn_app, firstn_all, Nat.sub_diag. cbn. apply app_nil_r.
Qed.

Lemma rd_at : forall a x b n, n = length a -> rd (a ++ x :: b) n = Some x.
Proof.
  intros. subst. unfold rd. rewrite nth_error_app2 by lia. rewrite Nat.sub_diag. reflexivity.
Qed.

Lemma be4_head : forall n, n < 2 ^ 31 ->
  exists h t, be_digits 4 (2 ^ 31 + n) = h :: t /\ 128 <= h < 256.
Proof.
  intros n Hn. change (2^31) with 2147483648 in *. cbn [be_digits app].
  eexists _, _. split; [reflexivity|].
  rewrite !N.div_div by lia. change (256*(256*256)) with 16777216. lia.
Qed.

Lemma paramLength_complete : forall pre n ln rest dataEnd,
  len_encoding n ln ->
  len pre + len ln <= dataEnd ->
  paramLength (pre ++ ln ++ rest) (len pre) dataEnd = Val (Some (n, len pre + len ln)).
Proof.
  intros pre n ln rest dataEnd HE HD. unfold paramLength, len in *.
  destruct HE as [Hs | Hl].
  - cbn [length] in *. destruct (N.leb_spec dataEnd (N.of_nat (length pre))); [lia|].
    cbn [app]. rewrite rd_at by lia. rewrite land80_byte by lia.
    destruct (N.ltb_spec n 128); [|lia]. reflexivity.
  - pose proof (be_digits_length 4 (2^31+n)) as HL.
    pose proof (be_digits_bytes 4 (2^31+n)) as HB.
    destruct (be4_head n Hl) as (h & t & E & Hh).
    destruct (N.leb_spec dataEnd (N.of_nat (length pre))); [lia|].
    rewrite Nnat.Nat2N.id. rewrite skipn_at by reflexivity.
    rewrite E at 1. cbn [app]. rewrite rd_at by reflexivity.
    rewrite land80_byte by lia.
    destruct (N.ltb_spec h 128); [lia|]. cbn [negb].
    rewrite HL. change (N.of_nat 4) with 4.
    destruct (N.ltb_spec dataEnd (N.of_nat (length pre) + 4)); [lia|].
    rewrite from32_value_l by assumption.
    rewrite be_value_digits by (change (256 ^ N.of_nat 4) with 4294967296; change (2^31) with 2147483648 in *; lia).
    rewrite land7f. change (2^31) with 2147483648 in *. repeat f_equal. lia.
Qed.

Lemma len_app : forall a b, len (a ++ b) = len a + len b.
Proof. intros. unfold len. rewrite app_length. lia. Qed.

Lemma slice_at : forall a b c n m, n = length a -> m = (length a + length b)%nat ->
  slice (a ++ b ++ c) n m = b.
Proof.
  intros. subst. unfold slice. rewrite skipn_at by reflexivity.
  apply firstn_at. lia.
Qed.

Lemma param_complete : forall pre name value enc rest dataEnd,
  pair_encoding name value enc ->
  len pre + len enc <= dataEnd ->
  exists a b c,
    processParamHeader (pre ++ enc ++ rest) (len pre) dataEnd = Val (Some (a, b, c)) /\
    slice (pre ++ enc ++ rest) (N.to_nat a) (N.to_nat b) = name /\
    slice (pre ++ enc ++ rest) (N.to_nat b) (N.to_nat c) = value /\
    c = len pre + len enc /\ a <= b <= c.
Proof.
  intros pre name value enc rest dataEnd (ln & lv & Hn & Hv & ->) HD.
  rewrite !len_app in HD.
  exists (len pre + len ln + len lv), (len pre + len ln + len lv + len name),
    (len pre + len ln + len lv + len name + len value).
  unfold processParamHeader.
  replace (pre ++ (ln ++ lv ++ name ++ value) ++ rest)
    with (pre ++ ln ++ (lv ++ name ++ value ++ rest)) by (rewrite <- !app_assoc; reflexivity).
  rewrite (paramLength_complete pre (len name) ln _ dataEnd Hn) by lia. cbn [obind].
  replace (len pre + len ln) with (len (pre ++ ln)) by apply len_app.
  rewrite (app_assoc pre ln).
  rewrite (paramLength_complete (pre ++ ln) (len value) lv _ dataEnd Hv) by (rewrite len_app; lia).
  cbn [obind].
  destruct (N.ltb_spec dataEnd (len (pre++ln) + len lv + len name + len value));
    [rewrite len_app in *; lia|].
  repeat split.
  - replace ((pre ++ ln) ++ lv ++ name ++ value ++ rest) with
      ((pre ++ ln ++ lv) ++ name ++ (value ++ rest)) by (rewrite <- !app_assoc; reflexivity).
    apply slice_at; unfold len; rewrite ?app_length; lia.
  - replace ((pre ++ ln) ++ lv ++ name ++ value ++ rest) with
      ((pre ++ ln ++ lv ++ name) ++ value ++ rest) by (rewrite <- !app_assoc; reflexivity).
    apply slice_at; unfold len; rewrite ?app_length; lia.
  - rewrite !len_app. lia.
  - lia.
  - lia.
Qed.

Lemma skipn_rd : forall mem i b, rd mem i = Some b -> exists t, skipn i mem = b :: t.
Proof.
  unfold rd. induction mem as [|x mem IH]; intros [|i] b H; cbn in *; try discriminate.
  - injection H as ->. eauto.
  - auto.
Qed.

Lemma bytes_skipn : forall n l, bytes_ok l -> bytes_ok (skipn n l).
Proof.
  unfold bytes_ok. intros. rewrite <- (firstn_skipn n l) in H. apply Forall_app in H. tauto.
Qed.
Lemma bytes_firstn : forall n l, bytes_ok l -> bytes_ok (firstn n l).
Proof.
  unfold bytes_ok. intros. rewrite <- (firstn_skipn n l) in H. apply Forall_app in H. tauto.
Qed.

(** Soundness of a length field: the bytes consumed encode the length. *)
Lemma paramLength_sound : forall mem data dataEnd n data',
  bytes_ok mem -> dataEnd <= len mem ->
  paramLength mem data dataEnd = Val (Some (n, data')) ->
  data < data' <= dataEnd /\
  len_encoding n (slice mem (N.to_nat data) (N.to_nat data')) /\
  n < 2 ^ 31.
Proof.
  intros mem data dataEnd n data' HB HL. unfold paramLength.
  destruct (N.leb_spec dataEnd data); [discriminate|].
  destruct (rd mem (N.to_nat data)) as [b|] eqn:ER; [|discriminate].
  destruct (skipn_rd _ _ _ ER) as [t Ht].
  pose proof (bytes_skipn (N.to_nat data) mem HB) as HS. rewrite Ht in HS.
  assert (HLs : length (b :: t) = (length mem - N.to_nat data)%nat)
    by (rewrite <- Ht; apply skipn_length).
  inversion HS as [|? ? Hb Hbt]; subst. unfold is_byte in Hb.
  rewrite land80_byte by assumption.
  unfold slice. rewrite Ht. unfold len in HL.
  destruct (N.ltb_spec b 128); cbn [negb].
  - intros E. injection E as <- <-. split; [lia|]. split.
    + replace (N.to_nat (data + 1) - N.to_nat data)%nat with 1%nat by lia.
      cbn [firstn]. apply short_len. lia.
    + change (2^31) with 2147483648. lia.
  - destruct (N.ltb_spec dataEnd (data+4)); [discriminate|].
    cbn [length] in HLs.
    destruct t as [|t1 [|t2 [|t3 t]]]; cbn [length] in HLs; try lia.
    inversion Hbt as [|? ? K1 Hbt1]; subst. inversion Hbt1 as [|? ? K2 Hbt2]; subst.
    inversion Hbt2 as [|? ? K3 Hbt3]; subst.
    assert (HB4 : bytes_ok [b;t1;t2;t3]) by (repeat constructor; assumption).
    rewrite from32_value by assumption.
    intros E. injection E as <- <-.
    rewrite land7f. replace (N.to_nat (data + 4) - N.to_nat data)%nat with 4%nat by lia.
    cbn [firstn].
    assert (HV : be_value [b;t1;t2;t3] = 2 ^ 31 + be_value [b;t1;t2;t3] mod 2 ^ 31).
    { unfold be_value. cbn [fold_left]. unfold is_byte in *. change (2^31) with 2147483648. lia. }
    split; [lia|]. split.
    + pose proof (be_digits_value [b;t1;t2;t3] HB4) as HD. cbn [length] in HD.
      remember (be_value [b;t1;t2;t3]) as x eqn:Ex. clear Ex. rewrite <- HD. clear HD.
      rewrite HV at 2. apply long_len. apply N.mod_lt. discriminate.
    + apply N.mod_lt. discriminate.
Qed.

Lemma paramLength_noUB : forall mem data dataEnd,
  bytes_ok mem -> dataEnd <= len mem -> paramLength mem data dataEnd <> UB.
Proof.
  intros mem data dataEnd HB HL. unfold paramLength, len in *.
  destruct (N.leb_spec dataEnd data); [discriminate|].
  destruct (rd mem (N.to_nat data)) as [b|] eqn:ER.
  2:{ unfold rd in ER. apply nth_error_None in ER. lia. }
  destruct (skipn_rd _ _ _ ER) as [t Ht].
  assert (HLs : length (b :: t) = (length mem - N.to_nat data)%nat)
    by (rewrite <- Ht; apply skipn_length).
  destruct (negb _); [|discriminate].
  destruct (N.ltb_spec dataEnd (data+4)); [discriminate|].
  rewrite Ht. cbn [length] in HLs.
  destruct t as [|t1 [|t2 [|t3 t]]]; cbn [length] in HLs; try lia.
  cbn [from32]. discriminate.
Qed.

Lemma param_noUB : forall mem data dataEnd,
  bytes_ok mem -> dataEnd <= len mem -> processParamHeader mem data dataEnd <> UB.
Proof.
  intros mem data dataEnd HB HL. unfold processParamHeader.
  pose proof (paramLength_noUB mem data dataEnd HB HL).
  destruct (paramLength mem data dataEnd) as [[[n d]|]|] eqn:E1; cbn [obind]; try congruence.
  pose proof (paramLength_noUB mem d dataEnd HB HL).
  destruct (paramLength mem d dataEnd) as [[[v e]|]|] eqn:E2; cbn [obind]; try congruence.
  destruct (dataEnd <? _); discriminate.
Qed.

Lemma skipn_add : forall (A:Type) a b (l : list A), skipn (a + b) l = skipn b (skipn a l).
Proof.
  induction a; intros; cbn; auto. destruct l; cbn; auto. now rewrite skipn_nil.
Qed.

Lemma firstn_add : forall (A:Type) a b (l : list A),
  firstn (a + b) l = firstn a l ++ firstn b (skipn a l).
Proof.
  induction a; intros; cbn; auto. destruct l; cbn; auto.
  - now rewrite firstn_nil.
  - now rewrite IHa.
Qed.

Lemma slice_app : forall mem a b c, (a <= b <= c)%nat ->
  slice mem a c = slice mem a b ++ slice mem b c.
Proof.
  intros. unfold slice.
  replace (c - a)%nat with ((b - a) + (c - b))%nat by lia.
  rewrite firstn_add, <- skipn_add. repeat f_equal. lia.
Qed.

Lemma slice_length : forall mem a b, (a <= b <= length mem)%nat -> length (slice mem a b) = (b - a)%nat.
Proof. intros. unfold slice. rewrite firstn_length, skipn_length. lia. Qed.

Lemma param_sound : forall mem data dataEnd a b c,
  bytes_ok mem -> dataEnd <= len mem ->
  processParamHeader mem data dataEnd = Val (Some (a, b, c)) ->
  data < a /\ a <= b /\ b <= c /\ c <= dataEnd /\
  pair_encoding (slice mem (N.to_nat a) (N.to_nat b)) (slice mem (N.to_nat b) (N.to_nat c))
    (slice mem (N.to_nat data) (N.to_nat c)).
Proof.
  intros mem data dataEnd a b c HB HL. unfold processParamHeader.
  destruct (paramLength mem data dataEnd) as [[[n d]|]|] eqn:E1; cbn [obind]; try discriminate.
  destruct (paramLength mem d dataEnd) as [[[v e]|]|] eqn:E2; cbn [obind]; try discriminate.
  destruct (N.ltb_spec dataEnd (e + n + v)); [discriminate|].
  intros E. injection E as <- <- <-.
  apply paramLength_sound in E1 as (R1 & L1 & B1); auto.
  apply paramLength_sound in E2 as (R2 & L2 & B2); auto.
  unfold len in HL.
  repeat split; try lia.
  exists (slice mem (N.to_nat data) (N.to_nat d)), (slice mem (N.to_nat d) (N.to_nat e)).
  unfold len. rewrite !slice_length by lia.
  replace (N.of_nat (N.to_nat (e + n) - N.to_nat e)) with n by lia.
  replace (N.of_nat (N.to_nat (e + n + v) - N.to_nat (e + n))) with v by lia.
  repeat split; auto.
  rewrite <- !slice_app by lia. reflexivity.
Qed.

Lemma prefix_firstn : forall (A:Type) (l e r : list A) n, firstn n l = e ++ r ->
  firstn (length e) l = e.
Proof.
  intros A l e r n H. rewrite <- (firstn_skipn n l), H, <- app_assoc. now apply firstn_at.
Qed.

(** The answer is "no" exactly when no pair is completely contained. *)
Lemma param_none_iff : forall mem data dataEnd,
  bytes_ok mem -> data <= dataEnd -> dataEnd <= len mem ->
  (processParamHeader mem data dataEnd = Val None <->
   forall name value enc rest, pair_encoding name value enc ->
     slice mem (N.to_nat data) (N.to_nat dataEnd) <> enc ++ rest).
Proof.
  intros mem data dataEnd HB HO HL. split.
  - intros HN name value enc rest HP HE.
    set (pre := firstn (N.to_nat data) mem).
    assert (Lp : len pre = data).
    { unfold pre, len in *. rewrite firstn_length. lia. }
    assert (LE : len enc <= dataEnd - data).
    { assert (length (enc ++ rest) = (N.to_nat dataEnd - N.to_nat data)%nat).
      { rewrite <- HE. apply slice_length. unfold len in *. lia. }
      rewrite app_length in H. unfold len. lia. }
    assert (Hm : mem = pre ++ enc ++ skipn (N.to_nat data + length enc) mem).
    { rewrite skipn_add. unfold slice in HE. apply prefix_firstn in HE.
      set (m := skipn (N.to_nat data) mem) in *.
      rewrite <- HE at 1. rewrite firstn_skipn. unfold m, pre. now rewrite firstn_skipn. }
    destruct (param_complete pre name value enc (skipn (N.to_nat data + length enc) mem) dataEnd HP)
      as (a & b & c & E & _); [lia|].
    rewrite <- Hm, Lp in E. congruence.
  - intros H.
    destruct (processParamHeader mem data dataEnd) as [[[[a b] c]|]|] eqn:E; auto.
    + exfalso. apply param_sound in E as (H1 & H2 & H3 & H4 & HP); auto.
      eapply H; [exact HP|].
      apply slice_app. lia.
    + exfalso. eapply param_noUB; eauto.
Qed.

Lemma pair_encoding_prefix_free : forall n1 v1 e1 n2 v2 e2 r,
  pair_encoding n1 v1 e1 -> pair_encoding n2 v2 e2 -> e2 = e1 ++ r -> r = [].
Proof.
  intros n1 v1 e1 n2 v2 e2 r H1 H2 ->.
  destruct (param_complete [] n1 v1 e1 r (len (e1 ++ r)) H1) as (a1 & b1 & c1 & E1 & _ & _ & C1 & _).
  { rewrite len_app. change (len []) with 0. lia. }
  destruct (param_complete [] n2 v2 (e1 ++ r) [] (len (e1 ++ r)) H2) as (a2 & b2 & c2 & E2 & _ & _ & C2 & _).
  { change (len []) with 0. lia. }
  cbn [app] in *. rewrite app_nil_r in E2. rewrite E1 in E2. injection E2 as <- <- <-.
  rewrite C1, len_app in C2. destruct r; auto. unfold len in C2. cbn [length] in C2. lia.
Qed.

Lemma bytes_app_l : forall a b, bytes_ok (a ++ b) -> bytes_ok a.
Proof. unfold bytes_ok. intros. apply Forall_app in H. tauto. Qed.

Lemma slice_all : forall l, slice l 0 (length l) = l.
Proof. intros. unfold slice. cbn [skipn]. rewrite Nat.sub_0_r. apply firstn_all. Qed.

Lemma param_truncated : forall name value p q,
  pair_encoding name value (p ++ q) -> bytes_ok (p ++ q) -> q <> [] ->
  processParamHeader p 0 (len p) = Val None.
Proof.
  intros name value p q HP HB HQ.
  apply param_none_iff; [eapply bytes_app_l; eauto | lia | lia |].
  intros n' v' e' r' HP' HE.
  replace (N.to_nat (len p)) with (length p) in HE by (unfold len; lia).
  change (N.to_nat 0) with O in HE.
  rewrite slice_all in HE. subst p.
  assert (r' ++ q = []).
  { eapply pair_encoding_prefix_free with (e2 := (e' ++ r') ++ q); eauto. now rewrite app_assoc. }
  apply app_eq_nil in H as [_ ?]. contradiction.
Qed.

(** Record size. *)
Lemma record_size : forall n,
  let body := N.min n 65535 in
  (8 | getRecordSize n) /\ 8 + body <= getRecordSize n /\
  (forall m, (8 | m) -> 8 + body <= m -> getRecordSize n <= m) /\
  getRecordSize n - (8 + body) < 8.
Proof.
  intros n body. unfold getRecordSize, headerSize, chunkSize, body.
  destruct (N.ltb_spec 0xffff n).
  - replace (N.min n 65535) with 65535 by lia.
    change ((65535 + 8 + 8 - 1) / 8 * 8) with 65544.
    split; [exists 8193; reflexivity|]. split; [lia|]. split; [|lia].
    intros m [k ->] Hm. lia.
  - replace (N.min n 65535) with n by lia.
    split; [eexists; reflexivity|]. split; [lia|]. split; [|lia].
    intros m [k ->] Hm. lia.
Qed.
