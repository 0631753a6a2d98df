(** Proofs about reading addresses from a stream. *)
From Coq Require Import String List NArith ZArith Bool Arith Lia.
From Verif Require Import Model.Base Model.WebMaps Model.HttpCodec Model.Address
  Spec.EndianSpec Spec.AddressSpec Proofs.Arith Proofs.AddressProofs Proofs.AddressPrintProofs.
Import ListNotations.
Local Open Scope N_scope.

Lemma hex_offset_digit : forall c o, hex_offset c = Some o -> exists d, digit 16 c d.
Proof.
  intros c o. unfold hex_offset.
  destruct (N.leb_spec 0x30 c), (N.leb_spec c 0x39); cbn [andb];
    destruct (N.leb_spec 0x41 c), (N.leb_spec c 0x46); cbn [andb];
    destruct (N.leb_spec 0x61 c), (N.leb_spec c 0x66); cbn [andb];
    intro E; try discriminate E; try lia;
    first
    [ exists (c - 48); replace c with (48 + (c - 48)) at 1 by lia; apply digit_num; lia
    | exists (c - 55); replace c with (65 + ((c - 55) - 10)) at 1 by lia; apply digit_upper; lia
    | exists (c - 87); replace c with (97 + ((c - 87) - 10)) at 1 by lia; apply digit_lower; lia ].
Qed.

Definition ends (after : list N) : Prop :=
  let cur := match after with c :: _ => c | [] => 0xff end in
  hex_offset cur = None /\ cur <> 46 /\ cur <> 58.

Lemma text_ends_ends : forall after, text_ends after -> ends after.
Proof.
  intros [|c l] H; [repeat split; discriminate|]. destruct H as (A & B & C). repeat split; auto. cbn.
  destruct (hex_offset c) eqn:E; auto. apply hex_offset_digit in E as (d & D). destruct (C d D).
Qed.

Lemma count_ok : forall k, k + 1 <= 40 -> trunc 8 (k + 1) = k + 1 /\ (40 <? trunc 8 (k + 1)) = false.
Proof.
  intros k H. assert (E : trunc 8 (k + 1) = k + 1).
  { unfold trunc. change (2 ^ 8) with 256. apply N.mod_small. lia. }
  rewrite E. split; auto. apply N.ltb_ge. exact H.
Qed.

Lemma xhex_run : forall t inp k f lc w pad chunk buf,
  Forall hexd t -> (chunk + 1) * 16 ^ N.of_nat (length t) <= 65536 ->
  k + N.of_nat (length t) <= 40 ->
  x_loop (length t + f) k (t ++ inp) lc w pad chunk buf
  = x_loop f (k + N.of_nat (length t)) inp (match t with [] => lc | _ => false end) w pad (hexval t chunk) buf.
Proof.
  induction t as [|c t IH]; intros inp k f lc w pad chunk buf F B K.
  - cbn. now rewrite N.add_0_r.
  - pose proof (Forall_inv F) as H1. pose proof (Forall_inv_tail F) as H2.
    cbn [length] in B, K. rewrite Nnat.Nat2N.inj_succ in *. rewrite N.pow_succ_r' in B.
    assert (P : 1 <= 16 ^ N.of_nat (length t)) by (apply (N.pow_le_mono_r 16 0); lia).
    pose proof (hv_lt c H1) as HV.
    change (length (c :: t) + f)%nat with (S (length t + f)).
    cbn [x_loop app tl]. destruct (count_ok k ltac:(lia)) as [C1 C2]. rewrite C2, C1.
    destruct H1 as ((o & E & D) & N1 & N2). rewrite E.
    assert (CH : chunk < 4096) by nia.
    rewrite chunk_push_ok by assumption.
    rewrite IH; auto; [| |lia].
    + cbn [length]. rewrite Nnat.Nat2N.inj_succ. replace (k + 1 + N.of_nat (length t)) with (k + N.succ (N.of_nat (length t))) by lia.
      replace (hexval (c :: t) chunk) with (hexval t (chunk * 16 + hv c)) by reflexivity.
      destruct t; reflexivity.
    + eapply N.le_trans; [|exact B]. rewrite N.mul_assoc. apply N.mul_le_mono_r. lia.
Qed.

(** A colon after a group. *)
Lemma xsep : forall f k inp pad chunk done x y junk,
  k + 1 <= 40 -> chunk < 65536 -> (length done + 2 < 16)%nat ->
  x_loop (S f) k (58 :: inp) false (length done) pad chunk (done ++ x :: y :: junk)
  = x_loop f (k + 1) inp true (length (done ++ be_digits 2 chunk)) pad 0 ((done ++ be_digits 2 chunk) ++ junk).
Proof.
  intros f k inp pad chunk done x y junk K C L. cbn [x_loop tl].
  destruct (count_ok k K) as [C1 C2]. rewrite C2, C1.
  change (hex_offset 58) with (@None N). change (58 =? 46) with false. change (58 =? 58) with true.
  cbv iota. cbn [andb negb].
  destruct (wr2 done x y junk (N.shiftr (N.land chunk 0xff00) 8) (N.land chunk 0x00ff)) as (d1 & W1 & W2).
  rewrite group_bytes in W2 by assumption. rewrite W1, W2.
  replace (Nat.leb asize (length done + 2)) with false by (symmetry; apply Nat.leb_gt; exact L).
  rewrite app_length, <- app_assoc. reflexivity.
Qed.

(** The end of the text after a group (or after a gap). *)
Lemma xend : forall f k after lc pad chunk done x y junk,
  k + 1 <= 40 -> chunk < 65536 -> ends after ->
  ((length done + 2 = 16)%nat \/ pad <> None) ->
  x_loop (S f) k after lc (length done) pad chunk (done ++ x :: y :: junk)
  = Done (false, after, length (done ++ be_digits 2 chunk), pad, (done ++ be_digits 2 chunk) ++ junk).
Proof.
  intros f k after lc pad chunk done x y junk K C (E1 & E2 & E3) P. cbn [x_loop].
  destruct (count_ok k K) as [C1 C2]. rewrite C2, C1. rewrite E1.
  apply N.eqb_neq in E2, E3. rewrite E2, E3. cbn [andb negb].
  destruct (wr2 done x y junk (N.shiftr (N.land chunk 0xff00) 8) (N.land chunk 0x00ff)) as (d1 & W1 & W2).
  rewrite group_bytes in W2 by assumption. rewrite W1, W2.
  rewrite app_length, <- app_assoc. change (length (be_digits 2 chunk)) with 2%nat.
  destruct (Nat.leb_spec asize (length done + 2)) as [H|H]; auto.
  destruct P as [P|P]; [unfold asize in H; lia|]. destruct pad; [reflexivity|congruence].
Qed.

Lemma xgap : forall f k inp w pad chunk buf,
  k + 1 <= 40 -> (pad = None \/ pad = Some w) ->
  x_loop (S f) k (58 :: inp) true w pad chunk buf = x_loop f (k + 1) inp true w (Some w) chunk buf.
Proof.
  intros f k inp w pad chunk buf K P. cbn [x_loop tl].
  destruct (count_ok k K) as [C1 C2]. rewrite C2, C1.
  change (hex_offset 58) with (@None N). change (58 =? 46) with false. change (58 =? 58) with true.
  cbv iota. cbn [andb].
  destruct P as [-> | ->]; [reflexivity|]. rewrite Nat.eqb_refl. reflexivity.
Qed.

(** Octets. *)
Lemma get_digits_run : forall t rest v any, Forall decd t ->
  match rest with c :: _ => ~ decd c | [] => True end ->
  get_digits (t ++ rest) v any = (rest, decval t v, match t with [] => any | _ => true end).
Proof.
  induction t as [|c t IH]; intros rest v any F R.
  - cbn. destruct rest as [|c rest]; auto. cbn.
    replace ((48 <=? c) && (c <=? 57)) with false; auto.
    symmetry. apply not_true_is_false. intro E. apply andb_prop in E as [A B].
    apply N.leb_le in A, B. apply R. split; auto.
  - cbn. pose proof (Forall_inv F) as [A B]. apply N.leb_le in A, B. rewrite A, B. cbn [andb].
    rewrite IH; auto; [|exact (Forall_inv_tail F)]. destruct t; reflexivity.
Qed.

Lemma get_uint_octet : forall t v rest, octet_text t v ->
  match rest with c :: _ => ~ decd c | [] => True end ->
  get_uint (t ++ rest) = (rest, v, false).
Proof.
  intros t v rest O R. destruct (octet_parts _ _ O) as (NE & F & L & V & B & ND).
  unfold get_uint. destruct t as [|c t]; [congruence|]. cbn [app].
  pose proof (Forall_inv F) as D. unfold decd in D.
  replace (c =? 0x2d) with false by (symmetry; apply N.eqb_neq; lia).
  replace (c =? 0x2b) with false by (symmetry; apply N.eqb_neq; lia).
  change (c :: t ++ rest) with ((c :: t) ++ rest).
  rewrite get_digits_run by assumption. rewrite V. cbn [negb].
  replace (2 ^ 32 <=? v) with false; [reflexivity|]. symmetry. apply N.leb_gt. change (2 ^ 32) with 4294967296. lia.
Qed.

Lemma xquad_octet : forall n t v rest done x junk pad, octet_text t v ->
  match rest with c :: _ => ~ decd c | [] => True end ->
  x_quad_rest (S n) (46 :: t ++ rest) false (length done) pad (done ++ x :: junk)
  = x_quad_rest n rest false (length (done ++ [v])) pad ((done ++ [v]) ++ junk).
Proof.
  intros n t v rest done x junk pad O R. cbn [x_quad_rest]. change (46 =? 46) with true. cbv iota.
  rewrite (get_uint_octet t v rest O R).
  destruct (octet_parts _ _ O) as (_ & _ & _ & _ & B & _).
  rewrite N.mod_small by lia. rewrite wr_at. cbn [orb].
  rewrite app_length, <- app_assoc. cbn [length app]. rewrite Nat.add_1_r. reflexivity.
Qed.

Lemma xquad_rest3 : forall t2 t3 t4 v1 v2 v3 v4 after done j1 j2 j3 junk pad,
  octet_text t2 v2 -> octet_text t3 v3 -> octet_text t4 v4 -> ends after ->
  x_quad_rest 3 (46 :: t2 ++ 46 :: t3 ++ 46 :: t4 ++ after) false (length (done ++ [v1])) pad
     ((done ++ [v1]) ++ j1 :: j2 :: j3 :: junk)
  = Done (false, after, length (done ++ [v1; v2; v3; v4]), pad, (done ++ [v1; v2; v3; v4]) ++ junk).
Proof.
  intros t2 t3 t4 v1 v2 v3 v4 after done j1 j2 j3 junk pad O2 O3 O4 (E1 & E2 & E3).
  assert (ND : ~ decd 46) by (unfold decd; lia).
  rewrite (xquad_octet 2 t2 v2) by assumption.
  rewrite (xquad_octet 1 t3 v3) by assumption.
  rewrite (xquad_octet 0 t4 v4); auto.
  - cbn [x_quad_rest]. rewrite <- !app_assoc. reflexivity.
  - destruct after as [|c after]; auto. intro D. destruct (decd_hexd c D) as [((o & X & _) & _) _]. congruence.
Qed.

Lemma xdot : forall f k inp lc w pad chunk buf, k + 1 <= 40 ->
  x_loop (S f) k (46 :: inp) lc w pad chunk buf = x_quad (46 :: inp) w pad chunk buf.
Proof.
  intros. cbn [x_loop]. destruct (count_ok k H) as [C1 C2]. rewrite C2.
  change (hex_offset 46) with (@None N). reflexivity.
Qed.

Lemma xquad_run : forall t bs k after lc done junk pad f,
  quad_text t bs -> k + 4 <= 40 -> ends after -> length (done ++ junk) = 16%nat ->
  (0 < length done)%nat -> (length done + 4 <= 16)%nat -> (4 <= f)%nat ->
  exists junk', length junk' = (length junk - 4)%nat /\
  x_loop f k (t ++ after) lc (length done) pad 0 (done ++ junk)
  = Done (false, after, length (done ++ bs), pad, (done ++ bs) ++ junk').
Proof.
  intros t bs k after lc done junk pad f H K E D W B HF.
  destruct H as (t1 & t2 & t3 & t4 & v1 & v2 & v3 & v4 & O1 & O2 & O3 & O4 & -> & ->).
  destruct (octet_parts _ _ O1) as (NE1 & F1 & L1 & V1 & B1 & D1).
  rewrite app_length in D.
  destruct junk as [|j1 [|j2 [|j3 [|j4 junk']]]]; cbn [length] in D; try lia.
  exists junk'. split; [cbn [length]; lia|].
  assert (F1' : Forall hexd t1).
  { eapply Forall_impl; [|exact F1]. intros a A. apply (decd_hexd a A). }
  replace f with (length t1 + S (f - length t1 - 1))%nat by lia.
  rewrite <- !app_assoc. rewrite xhex_run; auto; [|apply hex_pow; lia|lia].
  cbn [app]. rewrite xdot by lia. unfold x_quad.
  replace (Nat.eqb (length done) 0) with false by (symmetry; apply Nat.eqb_neq; lia).
  replace (Nat.ltb 12 (length done)) with false by (symmetry; apply Nat.ltb_ge; lia).
  rewrite wr_at. rewrite quad_first_ok by (auto; lia). rewrite V1.
  replace (done ++ v1 :: j2 :: j3 :: j4 :: junk') with ((done ++ [v1]) ++ j2 :: j3 :: j4 :: junk')
    by now rewrite <- app_assoc.
  replace (S (length done)) with (length (done ++ [v1])) by (rewrite app_length; cbn; lia).
  rewrite (xquad_rest3 t2 t3 t4 v1 v2 v3 v4) by assumption. now rewrite <- app_assoc.
Qed.

Lemma xquad_alone : forall t bs after lc junk pad f,
  quad_text t bs -> ends after -> length junk = 16%nat -> (4 <= f)%nat ->
  exists junk', x_loop f 0 (t ++ after) lc 0 pad 0 junk
  = Done (false, after, 6%nat, Some 0%nat, ([255; 255] ++ bs) ++ junk').
Proof.
  intros t bs after lc junk pad f H E D HF.
  destruct H as (t1 & t2 & t3 & t4 & v1 & v2 & v3 & v4 & O1 & O2 & O3 & O4 & -> & ->).
  destruct (octet_parts _ _ O1) as (NE1 & F1 & L1 & V1 & B1 & D1).
  destruct junk as [|i1 [|i2 [|j1 [|j2 [|j3 [|j4 junk']]]]]]; cbn [length] in D; try lia.
  exists junk'.
  assert (F1' : Forall hexd t1).
  { eapply Forall_impl; [|exact F1]. intros a A. apply (decd_hexd a A). }
  replace f with (length t1 + S (f - length t1 - 1))%nat by lia.
  rewrite <- !app_assoc. rewrite xhex_run; auto; [|apply hex_pow; lia|lia].
  cbn [app]. rewrite xdot by lia. unfold x_quad. change (Nat.eqb 0 0) with true. cbv iota. cbn [wr].
  rewrite quad_first_ok by (auto; lia). rewrite V1.
  exact (xquad_rest3 t2 t3 t4 v1 v2 v3 v4 after [255; 255] j2 j3 j4 junk' (Some 0%nat) O2 O3 O4 E).
Qed.

Lemma pieces_short : forall t bs, pieces_text t bs -> ~ In 46 t -> (2 * length t + 2 <= 5 * length bs)%nat.
Proof.
  intros t bs H. induction H as [t bs H|t bs H|t bs t' bs' H HP IH]; intro ND.
  - destruct (group_hex _ _ H) as (_ & _ & L & _ & ->). change (length (be_digits 2 (hexval t 0))) with 2%nat. lia.
  - exfalso. apply ND. destruct H as (t1 & t2 & t3 & t4 & v1 & v2 & v3 & v4 & _ & _ & _ & _ & -> & _).
    apply in_or_app. right. now left.
  - destruct (group_hex _ _ H) as (_ & _ & L & _ & ->). rewrite !app_length.
    change (length (be_digits 2 (hexval t 0))) with 2%nat. cbn [length].
    assert (~ In 46 t') by (intro X; apply ND; apply in_or_app; right; apply in_or_app; now right).
    specialize (IH H0). lia.
Qed.

(** Pieces up to the end. *)
Lemma xpieces_run : forall t bs, pieces_text t bs ->
  forall k after done junk pad f, ends after ->
  length (done ++ junk) = 16%nat -> (length done + length bs <= 16)%nat ->
  ((length done + length bs = 16)%nat \/ pad <> None) ->
  ((0 < length done)%nat \/ ~ quad_text t bs) ->
  2 * k + 5 * N.of_nat (length bs) <= 80 -> (length t + 4 <= f)%nat ->
  exists junk', length junk' = (length junk - length bs)%nat /\
  x_loop f k (t ++ after) true (length done) pad 0 (done ++ junk)
  = Done (false, after, length (done ++ bs), pad, (done ++ bs) ++ junk').
Proof.
  intros t bs H. induction H as [t bs H|t bs H|t bs t' bs' H HP IH]; intros k after done junk pad f E D B PD Q K HF.
  - destruct (group_hex _ _ H) as (NE & F & LT & V & EB).
    assert (LB : length bs = 2%nat) by now rewrite EB.
    rewrite app_length in D.
    destruct (split2 junk) as (x & y & junk' & ->); [lia|].
    exists junk'. split; [cbn [length]; lia|].
    replace f with (length t + S (f - length t - 1))%nat by lia.
    rewrite xhex_run; auto; [|now apply hex_pow|lia].
    destruct t as [|c0 t0]; [congruence|]. rewrite xend; auto; [|lia|rewrite <- LB at 1; exact PD].
    now rewrite <- EB.
  - destruct Q as [Q|Q]; [|now exfalso].
    assert (LB : length bs = 4%nat).
    { destruct H as (t1 & t2 & t3 & t4 & v1 & v2 & v3 & v4 & _ & _ & _ & _ & _ & ->). reflexivity. }
    destruct (xquad_run t bs k after true done junk pad f H) as (junk' & LJ & R); auto; try lia.
    exists junk'. split; [lia|exact R].
  - destruct (group_hex _ _ H) as (NE & F & LT & V & EB).
    assert (LB : length bs = 2%nat) by now rewrite EB.
    destruct (pieces_len _ _ HP) as [LB' NE'].
    rewrite app_length in B, PD, K. rewrite app_length in D. rewrite !app_length in HF. cbn [length] in HF.
    destruct (split2 junk) as (x & y & junk1 & ->); [lia|]. cbn [length] in *.
    destruct (IH (k + N.of_nat (length t) + 1) after (done ++ bs) junk1 pad (f - length t - 1)%nat)
      as (junk' & LJ' & EQ); auto.
    { rewrite !app_length. lia. }
    { rewrite app_length. lia. }
    { rewrite app_length. destruct PD; [left; lia|now right]. }
    { left. rewrite app_length. lia. }
    { lia. }
    { lia. }
    exists junk'. split; [rewrite app_length; lia|].
    replace f with (length t + S (f - length t - 1))%nat at 1 by lia.
    rewrite <- !app_assoc. cbn [app].
    rewrite xhex_run; auto; [|now apply hex_pow|lia].
    destruct t as [|c0 t0]; [congruence|]. rewrite xsep; auto; [|lia|lia].
    rewrite <- EB. rewrite EQ. rewrite <- !app_assoc. reflexivity.
Qed.

(** Groups that are followed by a colon. *)
Lemma xgroups_run : forall t bs, pieces_text t bs -> ~ In 46 t ->
  forall k inp done junk pad,
  length (done ++ junk) = 16%nat -> (length done + length bs < 16)%nat ->
  k + N.of_nat (length t) + 1 <= 40 ->
  exists junk', length junk' = (length junk - length bs)%nat /\
  forall f, x_loop (length t + S f) k (t ++ 58 :: inp) true (length done) pad 0 (done ++ junk)
  = x_loop f (k + N.of_nat (length t) + 1) inp true (length (done ++ bs)) pad 0 ((done ++ bs) ++ junk').
Proof.
  intros t bs H. induction H as [t bs H|t bs H|t bs t' bs' H HP IH]; intros ND k inp done junk pad D B K.
  - destruct (group_hex _ _ H) as (NE & F & LT & V & EB).
    assert (LB : length bs = 2%nat) by now rewrite EB.
    rewrite app_length in D.
    destruct (split2 junk) as (x & y & junk' & ->); [lia|].
    exists junk'. split; [cbn [length]; lia|]. intro f.
    rewrite xhex_run; auto; [|now apply hex_pow|lia].
    destruct t as [|c0 t0]; [congruence|]. rewrite xsep; auto; [|lia]. now rewrite <- EB.
  - exfalso. apply ND. destruct H as (t1 & t2 & t3 & t4 & v1 & v2 & v3 & v4 & _ & _ & _ & _ & -> & _).
    apply in_or_app. right. now left.
  - destruct (group_hex _ _ H) as (NE & F & LT & V & EB).
    assert (LB : length bs = 2%nat) by now rewrite EB.
    destruct (pieces_len _ _ HP) as [LB' NE'].
    rewrite app_length in B, D. rewrite !app_length in K. cbn [length] in K.
    destruct (split2 junk) as (x & y & junk1 & ->); [lia|]. cbn [length] in *.
    destruct (IH (fun X => ND (in_or_app _ _ _ (or_intror (in_or_app _ _ _ (or_intror X)))))
      (k + N.of_nat (length t) + 1) inp (done ++ bs) junk1 pad) as (junk' & LJ' & EQ).
    { rewrite !app_length. lia. }
    { rewrite app_length. lia. }
    { lia. }
    exists junk'. split; [rewrite app_length; lia|]. intro f.
    rewrite app_length. cbn [length app].
    replace (length t + S (length t') + S f)%nat with (length t + S (length t' + S f))%nat by lia.
    rewrite <- !app_assoc. cbn [app].
    rewrite xhex_run; auto; [|now apply hex_pow|lia].
    destruct t as [|c0 t0]; [congruence|]. rewrite xsep; auto; [|lia|lia].
    rewrite <- EB, EQ. f_equal.
    + rewrite !Nnat.Nat2N.inj_add, !Nnat.Nat2N.inj_succ. lia.
    + rewrite !app_length. lia.
    + now rewrite <- !app_assoc.
Qed.

Lemma skip_none : forall l, match l with c :: _ => is_space c = false | [] => True end -> skip_ws l = l.
Proof. intros [|c l] H; cbn; auto. now rewrite H. Qed.

Lemma hexd_not_space : forall c, hexd c -> is_space c = false.
Proof.
  intros c ((o & E & _) & _). unfold hex_offset in E. unfold is_space.
  destruct (N.leb_spec 9 c), (N.leb_spec c 13); cbn [andb orb];
    try (apply N.eqb_neq; intros ->; discriminate E).
  exfalso. revert E. 
  replace (0x30 <=? c) with false by (symmetry; apply N.leb_gt; lia).
  replace (0x41 <=? c) with false by (symmetry; apply N.leb_gt; lia).
  replace (0x61 <=? c) with false by (symmetry; apply N.leb_gt; lia). discriminate.
Qed.

Lemma pieces_head : forall t bs, pieces_text t bs -> exists c t', t = c :: t' /\ hexd c.
Proof.
  intros t bs H. destruct H as [t bs H|t bs H|t bs t' bs' H _].
  - destruct (group_hex _ _ H) as (NE & F & _). destruct t; [congruence|]. exists n, t. split; auto. exact (Forall_inv F).
  - destruct H as (t1 & t2 & t3 & t4 & v1 & v2 & v3 & v4 & O & _ & _ & _ & -> & _).
    destruct (octet_parts _ _ O) as (NE & F & _). destruct t1 as [|c t1]; [congruence|].
    eexists _, _. split; [reflexivity|]. exact (proj1 (decd_hexd c (Forall_inv F))).
  - destruct (group_hex _ _ H) as (NE & F & _). destruct t as [|c t]; [congruence|].
    eexists _, _. split; [reflexivity|]. exact (Forall_inv F).
Qed.

(** Reading any standard text from a stream. *)
Lemma extract_text : forall t a ws after junk fuel,
  address_text t a -> ~ compat_text t -> text_ends after -> length junk = 16%nat ->
  forallb is_space ws = true -> (length t + 4 <= fuel)%nat ->
  extract fuel (ws ++ t ++ after) junk = Done (Some a, after).
Proof.
  intros t a ws after junk fuel H NC TE D WS HF. apply text_ends_ends in TE. unfold extract.
  assert (SK : skip_ws (ws ++ t ++ after) = t ++ after).
  { assert (HD : match t ++ after with c :: _ => is_space c = false | [] => True end).
    { assert (X : exists c t', t = c :: t' /\ is_space c = false).
      { destruct H as [t bs H _|t1 b1 t2 b2 n H1 _ _ _|t bs H].
        - destruct (pieces_head _ _ H) as (c & t' & E & X). exists c, t'. split; auto. now apply hexd_not_space.
        - destruct H1 as [|t1 b1 H1 _].
          + eexists _, _. split; reflexivity.
          + destruct (pieces_head _ _ H1) as (c & t' & -> & X). eexists _, _. split; [reflexivity|]. now apply hexd_not_space.
        - destruct (pieces_head t bs (pt_quad _ _ H)) as (c & t' & E & X). exists c, t'. split; auto. now apply hexd_not_space. }
      destruct X as (c & t' & -> & X). exact X. }
    clear - WS HD. induction ws as [|c ws IH]; [now apply skip_none|].
    cbn in WS. apply andb_prop in WS as [A B]. cbn. rewrite A. auto. }
  rewrite SK. clear SK WS.
  destruct H as [t bs H LB|t1 b1 t2 b2 n H1 H2 L N2|t bs H].
  - destruct (xpieces_run t bs H 0 after [] junk None fuel TE) as (junk' & LJ & R); auto; try lia; try (cbn; lia).
    { right. intro Q. destruct Q as (q1 & q2 & q3 & q4 & v1 & v2 & v3 & v4 & _ & _ & _ & _ & _ & ->).
      discriminate LB. }
    cbn [app length] in R. rewrite R. unfold a_finish. cbn [negb Nat.eqb asize].
    destruct junk'; [now rewrite app_nil_r|]. cbn in LJ. lia.
  - rewrite !app_length in HF. cbn [length] in HF.
    assert (P1 : exists junk1, length (b1 ++ junk1) = 16%nat /\
      forall f, x_loop (length t1 + 2 + f) 0 ((t1 ++ [58; 58] ++ t2) ++ after) true 0 None 0 junk
        = x_loop f (N.of_nat (length t1) + 2) (t2 ++ after) true (length b1) (Some (length b1)) 0 (b1 ++ junk1)).
    { destruct H1 as [|t1 b1 H1 ND].
      - exists junk. split; [auto|]. intro f. cbn [length app Nat.add].
        rewrite xgap; [|lia|auto]. rewrite xgap; [|lia|auto]. reflexivity.
      - destruct (pieces_len _ _ H1) as [LB NE]. pose proof (pieces_short _ _ H1 ND) as SH.
        destruct (xgroups_run t1 b1 H1 ND 0 (58 :: t2 ++ after) [] junk None) as (j & LJ & R); [exact D|cbn [length]; lia|lia|].
        exists j. split; [rewrite app_length; lia|]. intro f.
        cbn [app length] in R.
        replace (length t1 + 2 + f)%nat with (length t1 + S (S f))%nat by lia.
        rewrite <- !app_assoc. cbn [app]. rewrite R.
        rewrite xgap; [|lia|auto]. f_equal. lia. }
    assert (K1 : (2 * length t1 <= 5 * length b1)%nat).
    { destruct H1 as [|t1 b1 H1 ND]; [cbn; lia|]. pose proof (pieces_short _ _ H1 ND). lia. }
    destruct P1 as (junk1 & D1 & R1).
    replace fuel with (length t1 + 2 + (fuel - length t1 - 2))%nat by lia. rewrite R1.
    destruct H2 as [[-> ->]|H2].
    + rewrite app_length in D1. cbn [length app] in *.
      destruct (split2 junk1) as (x & y & junk2 & ->); [lia|].
      destruct (fuel - length t1 - 2)%nat as [|f'] eqn:EF; [lia|].
      rewrite xend; auto; [|lia|lia|right; discriminate].
      change (be_digits 2 0) with [0; 0].
      rewrite (finish_gap b1 (n - 2)); [|cbn; lia|discriminate].
      rewrite app_nil_r. do 3 f_equal.
      replace n with (n - 2 + 2)%nat at 2 by lia. rewrite repeat_app. reflexivity.
    + destruct (pieces_len _ _ H2) as [LB NE].
      destruct (xpieces_run t2 b2 H2 (N.of_nat (length t1) + 2) after b1 junk1 (Some (length b1)) (fuel - length t1 - 2)%nat TE)
        as (junk' & LJ & R); auto.
      { lia. }
      { right. discriminate. }
      { destruct H1 as [|t1 b1 H1 ND].
        - right. intro Q. apply NC. exists t2, b2. auto.
        - left. apply pieces_len in H1. lia. }
      { lia. }
      { lia. }
      rewrite R. rewrite (finish_gap b1 n); auto. destruct b2; [cbn in LB; lia|discriminate].
  - destruct (xquad_alone t bs after true junk None fuel H) as (junk' & R); auto; [lia|].
    rewrite R.
    assert (LB : length bs = 4%nat).
    { destruct H as (t1 & t2 & t3 & t4 & v1 & v2 & v3 & v4 & _ & _ & _ & _ & _ & ->). reflexivity. }
    pose proof (finish_gap [] 10 ([255; 255] ++ bs) junk') as G. rewrite app_length, LB in G.
    cbn [length app Nat.add] in G |- *. rewrite LB in G. rewrite G; auto. discriminate.
Qed.

Lemma print_extract : forall a ws after junk fuel,
  is_address a -> text_ends after -> length junk = 16%nat -> forallb is_space ws = true ->
  (44 <= fuel)%nat ->
  extract fuel (ws ++ print a ++ after) junk = Done (Some a, after).
Proof.
  intros a ws after junk fuel A T J W F. destruct (print_text a A) as [PT NC]. pose proof (print_fits a A).
  apply extract_text; auto. lia.
Qed.

(** What counts as white space. *)
Lemma blank_space : forall c, blank c <-> is_space c = true.
Proof.
  intro c. unfold blank, is_space. split.
  - intros [<-|[<-|[<-|[<-|[<-|[<-|[]]]]]]]; reflexivity.
  - intro H. apply orb_true_iff in H. destruct H as [H|H].
    + apply andb_true_iff in H. destruct H as (H1 & H2). apply N.leb_le in H1, H2.
      assert (c = 9 \/ c = 10 \/ c = 11 \/ c = 12 \/ c = 13) as X by lia. cbn. intuition.
    + apply N.eqb_eq in H. subst. cbn. intuition.
Qed.
Lemma blanks : forall ws, Forall blank ws <-> forallb is_space ws = true.
Proof.
  intro ws. rewrite forallb_forall, Forall_forall. split; intros H c I; now apply blank_space, H.
Qed.

Lemma extract_text_blank : forall t a ws after junk fuel,
  address_text t a -> ~ compat_text t -> text_ends after -> length junk = 16%nat ->
  Forall blank ws -> (length t + 4 <= fuel)%nat ->
  extract fuel (ws ++ t ++ after) junk = Done (Some a, after).
Proof. intros t a ws after junk fuel H1 H2 H3 H4 W. apply extract_text; auto. now apply blanks. Qed.
Lemma print_extract_blank : forall a ws after junk fuel,
  is_address a -> text_ends after -> length junk = 16%nat -> Forall blank ws ->
  (44 <= fuel)%nat ->
  extract fuel (ws ++ print a ++ after) junk = Done (Some a, after).
Proof. intros a ws after junk fuel H1 H2 H3 W. apply print_extract; auto. now apply blanks. Qed.
