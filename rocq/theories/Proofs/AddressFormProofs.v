(** The form of printed addresses. *)
From Coq Require Import String List NArith ZArith Bool Arith Lia.
From Verif Require Import Model.Base Model.WebMaps Model.HttpCodec Model.Address
  Spec.EndianSpec Spec.AddressSpec Spec.AddressFormSpec Proofs.Arith Proofs.AddressProofs
  Proofs.AddressPrintProofs.
Import ListNotations.
Local Open Scope N_scope.

(* ------------------------------------------------------------------ *)
(** * Numerals *)

Lemma digit_char_plain : forall d, d < 16 -> plain_char (digit_char d).
Proof. intros d H. unfold digit_char, plain_char. destruct (N.ltb_spec d 10); lia. Qed.

Lemma numeral_plain : forall base n v, 2 <= base -> base <= 16 -> Forall plain_char (numeral base n v).
Proof.
  intros base n v B1 B2. revert v. induction n as [|n IH]; intros v; cbn [numeral]; [constructor|].
  destruct (N.ltb_spec v base).
  - constructor; [apply digit_char_plain; lia|constructor].
  - apply Forall_app. split; [apply IH|]. constructor; [|constructor]. apply digit_char_plain.
    assert (v mod base < base) by (apply N.mod_lt; lia). lia.
Qed.

Lemma numeral_nonempty : forall base n v, numeral base (S n) v <> [].
Proof.
  intros base n v. cbn [numeral]. destruct (v <? base); [discriminate|].
  intro E. apply app_eq_nil in E as [_ E]. discriminate.
Qed.

Lemma numeral_head : forall base n v, 2 <= base -> base <= 16 -> v < base ^ N.of_nat (S n) -> v <> 0 ->
  hd 0 (numeral base (S n) v) <> 48.
Proof.
  intros base n. induction n as [|n IH]; intros v B1 B2 V Z.
  - cbn [numeral]. change (N.of_nat 1) with 1 in V. rewrite N.pow_1_r in V.
    replace (v <? base) with true by (symmetry; now apply N.ltb_lt). cbn [hd].
    unfold digit_char. destruct (N.ltb_spec v 10); lia.
  - assert (Q : v / base < base ^ N.of_nat (S n)).
    { apply N.div_lt_upper_bound; [lia|]. rewrite Nnat.Nat2N.inj_succ, N.pow_succ_r' in V. exact V. }
    remember (S n) as m. cbn [numeral]. destruct (N.ltb_spec v base) as [L|L]; subst m.
    + cbn [hd]. unfold digit_char. destruct (N.ltb_spec v 10); lia.
    + assert (D : v / base <> 0).
      { intro E. assert (0 < v / base) by (apply N.div_str_pos; lia). lia. }
      specialize (IH (v / base) B1 B2 Q D). pose proof (numeral_nonempty base n (v / base)) as NE.
      destruct (numeral base (S n) (v / base)); [congruence|]. exact IH.
Qed.

Lemma numeral_canonical : forall base n v, 2 <= base -> base <= 16 -> v < base ^ N.of_nat (S n) ->
  canonical base (numeral base (S n) v) v.
Proof.
  intros base n v B1 B2 V. split; [now apply numeral_ok|]. split; [now apply numeral_plain|].
  intro H. destruct (N.eq_dec v 0) as [->|Z].
  - cbn [numeral]. replace (0 <? base) with true by (symmetry; apply N.ltb_lt; lia). reflexivity.
  - now apply numeral_head in H.
Qed.

Lemma digit_plain : forall base c d, base <= 16 -> digit base c d -> plain_char c -> c = digit_char d.
Proof.
  intros base c d B D P. unfold digit_char. destruct D; unfold plain_char in P.
  - now replace (d <? 10) with true by (symmetry; now apply N.ltb_lt).
  - lia.
  - destruct (N.ltb_spec d 10); [lia|reflexivity].
Qed.

Lemma numeral_of_ne : forall base t v, numeral_of base t v -> t <> [].
Proof. intros base t v H. destruct H; [discriminate|]. intro E. now apply app_eq_nil in E as [_ E]. Qed.

Lemma digit_lt : forall base c d, digit base c d -> d < base.
Proof. intros base c d H. now destruct H. Qed.

Lemma numeral_of_bound : forall base t v, 2 <= base -> numeral_of base t v -> v < base ^ N.of_nat (length t).
Proof.
  intros base t v B H. induction H as [c d D|t v c d _ IH D].
  - change (N.of_nat (length [c])) with 1. rewrite N.pow_1_r. now apply digit_lt in D.
  - rewrite app_length. cbn [length]. rewrite Nat.add_1_r, Nnat.Nat2N.inj_succ, N.pow_succ_r'.
    apply digit_lt in D. nia.
Qed.

Lemma canonical_numeral : forall base t v, 2 <= base -> base <= 16 -> canonical base t v ->
  forall n, v < base ^ N.of_nat (S n) -> t = numeral base (S n) v.
Proof.
  intros base t v B1 B2 (H & P & Z). revert P Z. induction H as [c d D|t v c d H IH D]; intros P Z n V.
  - cbn [numeral]. pose proof (digit_lt _ _ _ D) as L.
    replace (d <? base) with true by (symmetry; now apply N.ltb_lt). f_equal.
    eapply digit_plain; [exact B2|exact D|exact (Forall_inv P)].
  - apply Forall_app in P as [P1 P2]. pose proof (Forall_inv P2) as PC. apply (digit_plain _ _ _ B2 D) in PC.
    pose proof (numeral_of_ne _ _ _ H) as NE. pose proof (digit_lt _ _ _ D) as L.
    assert (HD : hd 0 t <> 48).
    { intro E. destruct t as [|x t]; [congruence|]. cbn [hd app] in *.
      assert (X := Z E). injection X as _ X. now apply app_eq_nil in X as [_ X]. }
    assert (VZ : v <> 0).
    { intros ->. specialize (IH P1 ltac:(intro E; congruence) 0%nat). change (N.of_nat 1) with 1 in IH.
      rewrite N.pow_1_r in IH. specialize (IH ltac:(lia)). cbn [numeral] in IH.
      replace (0 <? base) with true in IH by (symmetry; apply N.ltb_lt; lia). subst t. now apply HD. }
    destruct n as [|n].
    { change (N.of_nat 1) with 1 in V. rewrite N.pow_1_r in V. nia. }
    assert (Q : v < base ^ N.of_nat (S n)).
    { rewrite Nnat.Nat2N.inj_succ, N.pow_succ_r' in V. nia. }
    specialize (IH P1 ltac:(intro E; congruence) n Q).
    remember (S n) as m. cbn [numeral]. destruct (N.ltb_spec (v * base + d) base) as [X|X]; [nia|].
    replace ((v * base + d) / base) with v.
    2:{ rewrite N.div_add_l by lia. rewrite N.div_small by lia. lia. }
    replace ((v * base + d) mod base) with d.
    2:{ rewrite N.add_comm, N.mod_add by lia. symmetry. now apply N.mod_small. }
    now rewrite <- IH, <- PC.
Qed.

(* ------------------------------------------------------------------ *)
(** * Words *)

Lemma words_groups : forall n a, length a = (2 * n)%nat -> words a = groups a.
Proof.
  induction n as [|n IH]; intros a L.
  - destruct a; [reflexivity|discriminate].
  - destruct a as [|x [|y a]]; try (cbn in L; lia). cbn [words groups]. rewrite IH by (cbn in L; lia).
    f_equal. lia.
Qed.

Definition small (ws : list N) : Prop := Forall (fun g => g < 65536) ws.

Lemma groups_form_joined : forall ws, small ws -> groups_form (joined ws) ws.
Proof.
  intros ws F. exists (map (numeral 16 4) ws). split.
  - induction ws as [|w ws IH]; [constructor|]. constructor; [|apply IH; exact (Forall_inv_tail F)].
    apply numeral_canonical; try lia. exact (Forall_inv F).
  - clear F. induction ws as [|w ws IH]; [reflexivity|]. destruct ws as [|w' ws]; [reflexivity|].
    change (joined (w :: w' :: ws)) with (numeral 16 4 w ++ 58 :: joined (w' :: ws)). now rewrite IH.
Qed.

Lemma Forall2_numerals : forall base n, 2 <= base -> base <= 16 -> forall ts ws,
  Forall (fun w => w < base ^ N.of_nat (S n)) ws ->
  Forall2 (canonical base) ts ws -> ts = map (numeral base (S n)) ws.
Proof.
  intros base n B1 B2 ts ws F H. induction H as [|t w ts ws C H IH]; [reflexivity|]. cbn [map]. f_equal.
  - now apply canonical_numeral; [..|exact (Forall_inv F)].
  - apply IH. exact (Forall_inv_tail F).
Qed.

Lemma groups_form_only : forall t ws, small ws -> groups_form t ws -> t = joined ws.
Proof.
  intros t ws F (ts & H & ->). destruct (groups_form_joined ws F) as (ts' & H' & ->). f_equal.
  rewrite (Forall2_numerals 16 3 ltac:(lia) ltac:(lia) _ _ F H).
  symmetry. now rewrite (Forall2_numerals 16 3 ltac:(lia) ltac:(lia) _ _ F H').
Qed.

Lemma quad_form_print : forall b1 b2 b3 b4, b1 < 256 -> b2 < 256 -> b3 < 256 -> b4 < 256 ->
  quad_form (print_quad [b1; b2; b3; b4]) [b1; b2; b3; b4].
Proof.
  intros b1 b2 b3 b4 H1 H2 H3 H4. exists (map (numeral 10 3) [b1; b2; b3; b4]). split; [|reflexivity].
  repeat (constructor; [apply numeral_canonical; try lia; change (10 ^ N.of_nat 3) with 1000; lia|]).
  constructor.
Qed.

Lemma quad_form_only : forall t t' bs, Forall (fun b => b < 256) bs ->
  quad_form t bs -> quad_form t' bs -> t = t'.
Proof.
  intros t t' bs F (ts & H & ->) (ts' & H' & ->). f_equal.
  assert (F' : Forall (fun w => w < 10 ^ N.of_nat 3) bs).
  { eapply Forall_impl; [|exact F]. cbv beta. intros b L. change (10 ^ N.of_nat 3) with 1000. lia. }
  rewrite (Forall2_numerals 10 2 ltac:(lia) ltac:(lia) _ _ F' H).
  symmetry. now rewrite (Forall2_numerals 10 2 ltac:(lia) ltac:(lia) _ _ F' H').
Qed.

(* ------------------------------------------------------------------ *)
(** * Runs of zeros *)

Definition zb (zs : list bool) (i n : nat) : bool :=
  Nat.leb 1 n && Nat.leb (i + n) (length zs) && forallb (fun j => nth j zs false) (seq i n).

Lemma zeros_zb : forall ws i n, zeros ws i n <-> zb (map (fun g => g =? 0) ws) i n = true.
Proof.
  intros ws i n. unfold zb, zeros. rewrite map_length, !andb_true_iff, Nat.leb_le, Nat.leb_le, forallb_forall.
  assert (X : forall j, nth j (map (fun g => g =? 0) ws) false = (nth j ws 1 =? 0)).
  { intro j. change false with ((fun g : N => g =? 0) 1). apply map_nth. }
  split.
  - intros (A & B & C). split; [auto|]. intros j J. apply in_seq in J. rewrite X. apply N.eqb_eq. apply C; lia.
  - intros ((A & B) & C). split; [auto|]. split; [auto|]. intros j J1 J2. specialize (C j). rewrite in_seq, X in C.
    apply N.eqb_eq. apply C. lia.
Qed.

Lemma zero_run_best : forall zs x y, length zs = 8%nat -> zero_run 0 zs None None = Some (x, y) ->
  (x <= y)%nat /\ zb zs x (S y - x) = true /\
  forall j m, zb zs j m = true -> (m <= S y - x)%nat /\ (m = S y - x -> j <= x)%nat.
Proof.
  intros zs x y L H.
  assert (K : forallb (fun zs => match zero_run 0 zs None None with
     | Some (x, y) => Nat.leb x y && zb zs x (S y - x) &&
         forallb (fun j => forallb (fun m => implb (zb zs j m)
           (Nat.leb m (S y - x) && implb (Nat.eqb m (S y - x)) (Nat.leb j x))) (seq 0 9)) (seq 0 9)
     | None => true end) (bools 8) = true) by (vm_compute; reflexivity).
  rewrite forallb_forall in K. assert (I : In zs (bools 8)) by (rewrite <- L; apply bools_all).
  specialize (K zs I). cbv beta in K. rewrite H in K.
  apply andb_prop in K as [K K3]. apply andb_prop in K as [K1 K2].
  apply Nat.leb_le in K1. split; [auto|]. split; [auto|]. intros j m Z.
  assert (B : (j < 9)%nat /\ (m < 9)%nat).
  { unfold zb in Z. apply andb_prop in Z as [Z _]. apply andb_prop in Z as [_ Z]. apply Nat.leb_le in Z. lia. }
  rewrite forallb_forall in K3. specialize (K3 j ltac:(apply in_seq; lia)).
  rewrite forallb_forall in K3. specialize (K3 m ltac:(apply in_seq; lia)).
  cbv beta in K3. rewrite Z in K3. cbn [implb] in K3. apply andb_prop in K3 as [A B'].
  apply Nat.leb_le in A. split; [auto|]. intros ->. rewrite Nat.eqb_refl in B'. now apply Nat.leb_le in B'.
Qed.

Lemma zero_run_none : forall zs, length zs = 8%nat -> zero_run 0 zs None None = None ->
  forall j m, zb zs j m = false.
Proof.
  intros zs L H j m.
  assert (K : forallb (fun zs => match zero_run 0 zs None None with
     | Some _ => true
     | None => forallb (fun j => forallb (fun m => negb (zb zs j m)) (seq 0 9)) (seq 0 9)
     end) (bools 8) = true) by (vm_compute; reflexivity).
  rewrite forallb_forall in K. assert (I : In zs (bools 8)) by (rewrite <- L; apply bools_all).
  specialize (K zs I). cbv beta in K. rewrite H in K.
  destruct (zb zs j m) eqn:Z; [|reflexivity].
  assert (B : (j < 9)%nat /\ (m < 9)%nat).
  { unfold zb in Z. apply andb_prop in Z as [Z _]. apply andb_prop in Z as [_ Z]. apply Nat.leb_le in Z. lia. }
  rewrite forallb_forall in K. specialize (K j ltac:(apply in_seq; lia)).
  rewrite forallb_forall in K. specialize (K m ltac:(apply in_seq; lia)).
  cbv beta in K. rewrite Z in K. discriminate.
Qed.

Lemma zeros_slice : forall ws i n, zeros ws i n -> slice ws i (i + n) = repeat 0 n.
Proof.
  intros ws i n (A & B & C). unfold slice. replace (i + n - i)%nat with n by lia. clear A.
  revert i B C. induction n as [|n IH]; intros i B C; [reflexivity|].
  assert (E : skipn i ws = nth i ws 1 :: skipn (S i) ws).
  { assert (L : (i < length ws)%nat) by lia. clear - L. revert i L.
    induction ws as [|w ws IH]; intros i L; [cbn in L; lia|]. destruct i; [reflexivity|].
    cbn [skipn nth]. rewrite IH by (cbn in L; lia). reflexivity. }
  rewrite E. cbn [firstn repeat]. rewrite C by lia. f_equal. apply IH; [lia|]. intros j J1 J2. apply C; lia.
Qed.

(** Printing around a run of zeros. *)
Lemma print_gap : forall gs i n, length gs = 8%nat -> zeros gs i n ->
  print_groups 0 gs (Some (i, i + n - 1)%nat) = joined (firstn i gs) ++ [58; 58] ++ joined (skipn (i + n) gs).
Proof.
  intros gs i n L Z. pose proof (zeros_slice _ _ _ Z) as SL. destruct Z as (A & B & _).
  pose proof (slice_split gs i (i + n) ltac:(lia) ltac:(lia)) as SP. rewrite SL in SP.
  set (pre := firstn i gs) in *. set (post := skipn (i + n) gs) in *.
  assert (LP : length pre = i) by (unfold pre; rewrite firstn_length; lia).
  assert (LQ : length post = (8 - (i + n))%nat) by (unfold post; rewrite skipn_length; lia).
  rewrite SP. rewrite print_before by lia. rewrite print_inside by lia. rewrite print_outside by lia.
  assert (T : colons pre ++ (if Nat.eqb (0 + length pre) i && Nat.eqb (0 + length pre) 0 then [58] else [])
              = joined pre ++ [58]).
  { destruct pre as [|g pre'] eqn:EP.
    - cbn in LP. subst i. reflexivity.
    - rewrite colons_joined by discriminate. replace (Nat.eqb (0 + length (g :: pre')) 0) with false by reflexivity.
      rewrite andb_false_r. now rewrite app_nil_r. }
  rewrite app_assoc, T. rewrite <- app_assoc. reflexivity.
Qed.

(* ------------------------------------------------------------------ *)
(** * What is printed *)

Lemma mapped_dec : forall a, {mapped a} + {~ mapped a}.
Proof. intro a. apply list_eq_dec. apply N.eq_dec. Qed.

Lemma mapped_text : forall a, is_address a -> mapped a ->
  print a = [58; 58; 102; 102; 102; 102; 58] ++ print_quad (skipn 12 a) /\
  quad_form (print_quad (skipn 12 a)) (skipn 12 a).
Proof.
  intros a [L B] M. unfold mapped in M.
  do 16 (destruct a as [|? a]; [discriminate L|]). destruct a; [|discriminate L].
  cbn in M. injection M as -> -> -> -> -> -> -> -> -> -> -> ->.
  do 12 apply Forall_inv_tail in B. cbn [skipn].
  assert (X1 := Forall_inv B). apply Forall_inv_tail in B. assert (X2 := Forall_inv B). apply Forall_inv_tail in B.
  assert (X3 := Forall_inv B). apply Forall_inv_tail in B. assert (X4 := Forall_inv B).
  unfold is_byte in *. split; [|now apply quad_form_print].
  unfold print. cbn [groups].
  assert (ZR : forall b1 b2 : bool, zero_run 0 [true; true; true; true; true; false; b1; b2] None None = Some (0, 4)%nat)
    by (intros [] []; reflexivity).
  cbn [map]. change (0 * 256 + 0 =? 0) with true. change (255 * 256 + 255 =? 0) with false.
  rewrite ZR. cbn [nth skipn]. change (255 * 256 + 255 =? 65535) with true. cbv iota.
  change (numeral 16 4 65535) with [102; 102; 102; 102]. reflexivity.
Qed.

Lemma unmapped_print : forall a, is_address a -> ~ mapped a ->
  print a = print_groups 0 (groups a) (zero_run 0 (map (fun g => g =? 0) (groups a)) None None).
Proof.
  intros a [L B] M. unfold print.
  destruct (zero_run 0 (map (fun g => g =? 0) (groups a)) None None) as [[x y]|] eqn:ZR; [|reflexivity].
  destruct x as [|x]; [|reflexivity]. destruct y as [|[|[|[|[|y]]]]]; try reflexivity.
  destruct (N.eqb_spec (nth 5 (groups a) 0) 65535) as [F5|F5]; [|reflexivity]. exfalso. apply M.
  destruct (groups_bytes 8 a) as (G1 & G2 & G3); auto.
  destruct (zero_run_ok _ _ _ (eq_trans (zero_len _) G2) ZR) as (X & Y & Z).
  apply slice_zeros in Z; [|lia].
  do 16 (destruct a as [|? a]; [discriminate L|]). destruct a; [|discriminate L].
  unfold bytes_ok, is_byte in B.
  do 16 (pose proof (Forall_inv B); apply Forall_inv_tail in B; cbv beta in *).
  cbn [groups] in Z, F5. cbn [nth slice firstn skipn Nat.sub repeat] in Z, F5.
  unfold slice in Z. cbn [firstn skipn Nat.sub repeat] in Z.
  injection Z as Z1 Z2 Z3 Z4 Z5. unfold is_byte in *.
  assert (n9 = 255 /\ n10 = 255) as [-> ->] by lia.
  assert (n = 0 /\ n0 = 0 /\ n1 = 0 /\ n2 = 0 /\ n3 = 0 /\ n4 = 0 /\ n5 = 0 /\ n6 = 0 /\ n7 = 0 /\ n8 = 0)
    as (-> & -> & -> & -> & -> & -> & -> & -> & -> & ->) by lia.
  reflexivity.
Qed.

(** The cases of an unmapped address. *)
Lemma unmapped_cases : forall a, is_address a -> ~ mapped a ->
  ((forall i n, ~ zeros (words a) i n) /\ print a = joined (words a)) \/
  (exists i n, longest (words a) i n /\ (forall j, longest (words a) j n -> (j <= i)%nat) /\
     print a = joined (firstn i (words a)) ++ [58; 58] ++ joined (skipn (i + n) (words a))).
Proof.
  intros a A M. rewrite (unmapped_print a A M). destruct A as [L B].
  destruct (groups_bytes 8 a) as (G1 & G2 & G3); auto. rewrite (words_groups 8 a L).
  set (gs := groups a) in *. assert (ZL := eq_trans (zero_len gs) G2).
  destruct (zero_run 0 (map (fun g => g =? 0) gs) None None) as [[x y]|] eqn:ZR.
  - right. destruct (zero_run_best _ _ _ ZL ZR) as (X & Z & Best).
    exists x, (S y - x)%nat. assert (ZZ : zeros gs x (S y - x)) by now apply zeros_zb.
    split; [split; [exact ZZ|]|].
    + intros j m Hz. apply zeros_zb in Hz. now apply Best in Hz.
    + split.
      * intros j [Hz _]. apply zeros_zb in Hz. apply Best in Hz as [_ Hz]. now apply Hz.
      * rewrite <- (print_gap gs x (S y - x) G2 ZZ). f_equal. f_equal. f_equal. lia.
  - left. split.
    + intros i n Hz. apply zeros_zb in Hz. rewrite (zero_run_none _ ZL ZR) in Hz. discriminate.
    + now apply print_outside.
Qed.

Lemma words_small : forall a, is_address a -> small (words a) /\ length (words a) = 8%nat.
Proof.
  intros a [L B]. destruct (groups_bytes 8 a) as (G1 & G2 & G3); auto. now rewrite (words_groups 8 a L).
Qed.

Lemma gap_form_joined : forall ws i n, small ws ->
  gap_form (joined (firstn i ws) ++ [58; 58] ++ joined (skipn (i + n) ws)) ws i n.
Proof.
  intros ws i n F. exists (joined (firstn i ws)), (joined (skipn (i + n) ws)).
  split; [apply groups_form_joined; now apply Forall_firstn'|].
  split; [apply groups_form_joined; now apply Forall_skipn'|]. reflexivity.
Qed.

Lemma gap_form_only : forall t ws i n, small ws -> gap_form t ws i n ->
  t = joined (firstn i ws) ++ [58; 58] ++ joined (skipn (i + n) ws).
Proof.
  intros t ws i n F (t1 & t2 & H1 & H2 & ->).
  apply groups_form_only in H1; [|now apply Forall_firstn'].
  apply groups_form_only in H2; [|now apply Forall_skipn']. now subst.
Qed.

Lemma print_form : forall a, is_address a -> printed_form (print a) a.
Proof.
  intros a A. destruct (words_small a A) as [F L]. destruct (mapped_dec a) as [M|M].
  - destruct (mapped_text a A M) as [-> Q]. now constructor.
  - destruct (unmapped_cases a A M) as [(Z & ->)|(i & n & Lo & La & ->)].
    + apply pf_plain; auto. now apply groups_form_joined.
    + eapply pf_gap; eauto. now apply gap_form_joined.
Qed.

Lemma longest_same : forall ws i n j m, longest ws i n -> longest ws j m -> n = m.
Proof. intros ws i n j m [Z1 B1] [Z2 B2]. apply B1 in Z2. apply B2 in Z1. lia. Qed.

Lemma quad_bytes : forall a, is_address a -> Forall (fun b => b < 256) (skipn 12 a).
Proof. intros a [_ B]. now apply Forall_skipn'. Qed.

Lemma form_only : forall t t' a, is_address a -> printed_form t a -> printed_form t' a -> t = t'.
Proof.
  intros t t' a A H H'. destruct (words_small a A) as [F L].
  destruct H as [q a M Q|t a M Z G|t a i n M Lo La G];
    destruct H' as [q' a' M' Q'|t' a' M' Z' G'|t' a' i' n' M' Lo' La' G']; try contradiction.
  - f_equal. eapply quad_form_only; [apply quad_bytes; exact A|exact Q|exact Q'].
  - apply groups_form_only in G, G'; auto. congruence.
  - exfalso. destruct Lo' as [X _]. now apply Z in X.
  - exfalso. destruct Lo as [X _]. now apply Z' in X.
  - pose proof (longest_same _ _ _ _ _ Lo Lo') as <-.
    assert (i = i') as <- by (apply La in Lo'; apply La' in Lo; lia).
    apply gap_form_only in G, G'; auto. congruence.
Qed.

Lemma form_iff : forall a t, is_address a -> (print a = t <-> printed_form t a).
Proof.
  intros a t A. split.
  - intros <-. now apply print_form.
  - intro H. eapply form_only; [exact A|now apply print_form|exact H].
Qed.

(* ------------------------------------------------------------------ *)
(** * RFC 5952 *)

Lemma joined_cons : forall w l, l <> [] -> joined (w :: l) = numeral 16 4 w ++ [58] ++ joined l.
Proof. intros w l H. destruct l; [congruence|reflexivity]. Qed.

Lemma joined_zero : forall l r, exists s,
  joined (l ++ 0 :: r) = joined l ++ (match l with [] => [] | _ => [58] end) ++ 48 :: s.
Proof.
  induction l as [|w l IH]; intros r.
  - destruct r as [|w r]; cbn [app].
    + exists []. reflexivity.
    + exists (58 :: joined (w :: r)). rewrite joined_cons by discriminate. reflexivity.
  - destruct (IH r) as (s & E). change ((w :: l) ++ 0 :: r) with (w :: (l ++ 0 :: r)).
    rewrite joined_cons by (intro X; apply app_eq_nil in X as [_ X]; discriminate). rewrite E.
    destruct l as [|w' l].
    + exists s. reflexivity.
    + exists s. rewrite (joined_cons w (w' :: l)) by discriminate. now rewrite <- !app_assoc.
Qed.

Lemma clash : forall l r q q', joined (l ++ 0 :: r) ++ q <> joined l ++ [58; 58] ++ q'.
Proof.
  intros l r q q' E. destruct (joined_zero l r) as (s & J). rewrite J, <- !app_assoc in E.
  apply app_inv_head in E. destruct l; cbn in E; discriminate.
Qed.

Lemma zeros_at : forall ws i n, zeros ws i n -> ws = firstn i ws ++ 0 :: skipn (S i) ws.
Proof.
  intros ws i n (A & B & C). rewrite <- (firstn_skipn i ws) at 1. f_equal.
  assert (E := C i ltac:(lia) ltac:(lia)). assert (L : (i < length ws)%nat) by lia. clear - E L.
  revert i E L. induction ws as [|w ws IH]; intros i E L; [cbn in L; lia|].
  destruct i; [cbn in *; now subst|]. cbn [skipn nth length] in *. apply IH; [auto|lia].
Qed.

Lemma firstn_at : forall (ws : list N) i k, (i < k)%nat -> ws = firstn i ws ++ 0 :: skipn (S i) ws ->
  exists r, firstn k ws = firstn i ws ++ 0 :: r.
Proof.
  intros ws i k. revert ws k. induction i as [|i IH]; intros ws k L E.
  - destruct ws as [|w ws]; [discriminate|]. destruct k; [lia|]. cbn in E. injection E as ->. cbn. eexists. reflexivity.
  - destruct ws as [|w ws]; [discriminate|]. destruct k; [lia|]. cbn [firstn skipn app] in *. injection E as E.
    destruct (IH ws k ltac:(lia) E) as (r & R). exists r. now rewrite R.
Qed.

Lemma gap_place : forall ws i n j q q', zeros ws i n -> zeros ws j n ->
  joined (firstn i ws) ++ [58; 58] ++ q = joined (firstn j ws) ++ [58; 58] ++ q' -> i = j.
Proof.
  intros ws i n j q q' Z1 Z2 E.
  destruct (Nat.lt_trichotomy i j) as [L|[L|L]]; [exfalso|exact L|exfalso].
  - destruct (firstn_at ws i j L (zeros_at _ _ _ Z1)) as (r & R). rewrite R in E. symmetry in E. now apply clash in E.
  - destruct (firstn_at ws j i L (zeros_at _ _ _ Z2)) as (r & R). rewrite R in E. now apply clash in E.
Qed.

Lemma rfc_iff : forall a t, is_address a -> rfc5952 t a ->
  (print a = t <-> mapped a \/
     forall i j n, longest (words a) i n -> longest (words a) j n -> i = j /\ n <> 1%nat).
Proof.
  intros a t A R. destruct (words_small a A) as [F L]. rewrite (form_iff a t A). split.
  - intro P. destruct (mapped_dec a) as [M|M]; [now left|right].
    destruct P as [q a M' Q|t a M' Z G|t a i n M' Lo La G]; [contradiction| |].
    + intros i j n [X _]. now apply Z in X.
    + destruct R as [q a M'' Q|t a M'' Z' G'|t a i' n' M'' N2 Lo' Fi' G']; [contradiction| |].
      * exfalso. apply groups_form_only in G'; auto. apply gap_form_only in G; auto. rewrite G' in G.
        destruct Lo as [Zr _].
        apply (clash (firstn i (words a)) (skipn (S i) (words a)) [] (joined (skipn (i + n) (words a)))).
        rewrite app_nil_r, <- (zeros_at _ _ _ Zr). exact G.
      * pose proof (longest_same _ _ _ _ _ Lo Lo') as <-.
        apply gap_form_only in G, G'; auto. rewrite G in G'.
        pose proof (gap_place _ _ _ _ _ _ (proj1 Lo) (proj1 Lo') G') as <-.
        intros j k m X Y. pose proof (longest_same _ _ _ _ _ X Lo) as ->.
        pose proof (La _ X). pose proof (La _ Y). pose proof (Fi' _ X). pose proof (Fi' _ Y). lia.
  - intros P. destruct R as [q a M' Q|t a M' Z G|t a i n M' N2 Lo Fi G].
    + now constructor.
    + destruct P as [P|P]; [contradiction|]. apply pf_plain; auto. intros i n X.
      assert (Lo : longest (words a) i n).
      { split; [exact X|]. intros j m Y. apply Z in X, Y. lia. }
      destruct (P i i n Lo Lo) as [_ E]. apply E. eapply Z; eauto.
    + destruct P as [P|P]; [contradiction|]. eapply pf_gap; eauto. intros j X.
      destruct (P i j n Lo X) as [-> _]. auto.
Qed.

Lemma least : forall P : nat -> bool, forall i, P i = true ->
  exists j, P j = true /\ forall k, P k = true -> (j <= k)%nat.
Proof.
  intros P i. induction i as [i IH] using lt_wf_ind. intro H.
  destruct (existsb P (seq 0 i)) eqn:E.
  - apply existsb_exists in E as (k & K & PK). apply in_seq in K. apply (IH k); [lia|auto].
  - exists i. split; [auto|]. intros k PK. destruct (Nat.le_gt_cases i k) as [X|X]; [auto|].
    assert (Q : existsb P (seq 0 i) = true) by (apply existsb_exists; exists k; rewrite in_seq; split; [lia|auto]).
    congruence.
Qed.

Lemma rfc_exists : forall a, is_address a -> exists t, rfc5952 t a.
Proof.
  intros a A. destruct (words_small a A) as [F L]. destruct (mapped_dec a) as [M|M].
  - destruct (mapped_text a A M) as [_ Q]. eexists. apply rfc_mapped; eauto.
  - destruct (unmapped_cases a A M) as [(Z & _)|(i & n & Lo & _ & _)].
    + exists (joined (words a)). apply rfc_plain; auto.
      * intros i n X. now apply Z in X.
      * now apply groups_form_joined.
    + destruct (Nat.eq_dec n 1) as [->|N1].
      * exists (joined (words a)). apply rfc_plain; auto.
        -- intros j m X. pose proof (proj2 Lo _ _ X). destruct X as (? & _). lia.
        -- now apply groups_form_joined.
      * assert (N2 : (2 <= n)%nat) by (destruct Lo as [(? & _) _]; lia).
        destruct (least (fun j => zb (map (fun g => g =? 0) (words a)) j n) i) as (j & J & K).
        { apply zeros_zb. apply Lo. }
        apply zeros_zb in J. eexists. apply (rfc_gap _ a j n); auto.
        -- split; [exact J|apply Lo].
        -- intros k [X _]. apply K. now apply zeros_zb.
        -- now apply gap_form_joined.
Qed.

Lemma rfc_only : forall t t' a, is_address a -> rfc5952 t a -> rfc5952 t' a -> t = t'.
Proof.
  intros t t' a A H H'. destruct (words_small a A) as [F L].
  destruct H as [q a M Q|t a M Z G|t a i n M N2 Lo La G];
    destruct H' as [q' a' M' Q'|t' a' M' Z' G'|t' a' i' n' M' N2' Lo' La' G']; try contradiction.
  - f_equal. eapply quad_form_only; [apply quad_bytes; exact A|exact Q|exact Q'].
  - apply groups_form_only in G, G'; auto. congruence.
  - exfalso. destruct Lo' as [X _]. apply Z in X. lia.
  - exfalso. destruct Lo as [X _]. apply Z' in X. lia.
  - pose proof (longest_same _ _ _ _ _ Lo Lo') as <-.
    assert (i = i') as <- by (apply La in Lo'; apply La' in Lo; lia).
    apply gap_form_only in G, G'; auto. congruence.
Qed.

(* ------------------------------------------------------------------ *)
(** * Length *)

Definition sum (ws : list N) : nat := fold_right (fun w n => (length (numeral 16 4 w) + n)%nat) 0%nat ws.

Lemma sum_app : forall a b, sum (a ++ b) = (sum a + sum b)%nat.
Proof. induction a; intros; [reflexivity|]. cbn [app]. unfold sum in *. cbn [fold_right]. rewrite IHa. lia. Qed.

Lemma sum_zeros : forall n, sum (repeat 0 n) = n.
Proof. induction n; [reflexivity|]. cbn [repeat]. unfold sum in *. cbn [fold_right]. rewrite IHn. reflexivity. Qed.

Lemma joined_length : forall ws, (length (joined ws) + match ws with [] => 0 | _ => 1 end = sum ws + length ws)%nat.
Proof.
  induction ws as [|w ws IH]; [reflexivity|]. destruct ws as [|w' ws].
  - unfold sum. cbn [joined fold_right length]. lia.
  - rewrite joined_cons by discriminate. rewrite !app_length. cbn [length] in *.
    change (sum (w :: w' :: ws)) with (length (numeral 16 4 w) + sum (w' :: ws))%nat. lia.
Qed.

Lemma numeral_short : forall base n k v, 2 <= base -> v < base ^ N.of_nat (S k) ->
  (length (numeral base n v) <= S k)%nat.
Proof.
  intros base n. induction n as [|n IH]; intros k v B V; cbn [numeral]; [cbn; lia|].
  destruct (N.ltb_spec v base) as [L|L]; [cbn; lia|].
  destruct k as [|k].
  - change (N.of_nat 1) with 1 in V. rewrite N.pow_1_r in V. lia.
  - rewrite app_length. cbn [length]. specialize (IH k (v / base) B).
    assert (Q : v / base < base ^ N.of_nat (S k)).
    { apply N.div_lt_upper_bound; [lia|]. rewrite Nnat.Nat2N.inj_succ, N.pow_succ_r' in V. exact V. }
    specialize (IH Q). lia.
Qed.

Lemma group_shortest : forall t bs, group_text t bs -> exists w, w < 65536 /\ bs = be_digits 2 w /\
  (length (numeral 16 4 w) <= length t)%nat.
Proof.
  intros t bs (L & v & H & ->). pose proof (numeral_of_bound 16 t v ltac:(lia) H) as B.
  pose proof (numeral_of_ne _ _ _ H) as NE. exists v. split.
  - destruct (length t) as [|[|[|[|[|n]]]]]; try lia; cbn in B; lia.
  - split; [reflexivity|]. destruct (length t) as [|n] eqn:E; [destruct t; [congruence|discriminate]|].
    apply numeral_short; [lia|exact B].
Qed.

Lemma pair_shortest : forall t1 v1 t2 v2, octet_text t1 v1 -> octet_text t2 v2 ->
  (length (numeral 16 4 (256 * v1 + v2)) <= length t1 + length t2 + 1)%nat.
Proof.
  intros t1 v1 t2 v2 (L1 & H1 & B1) (L2 & H2 & B2).
  pose proof (numeral_of_bound 10 t1 v1 ltac:(lia) H1) as X1.
  pose proof (numeral_of_ne _ _ _ H1) as NE1. pose proof (numeral_of_ne _ _ _ H2) as NE2.
  assert (1 <= length t2)%nat by (destruct t2; [congruence|cbn; lia]).
  destruct (length t1) as [|[|n]] eqn:E; [destruct t1; [congruence|discriminate]| |].
  - change (10 ^ N.of_nat 1) with 10 in X1.
    assert (length (numeral 16 4 (256 * v1 + v2)) <= 3)%nat.
    { apply numeral_short; [lia|]. change (16 ^ N.of_nat 3) with 4096. lia. }
    lia.
  - pose proof (numeral_length 16 4 (256 * v1 + v2)). lia.
Qed.

Lemma pieces_shortest : forall t bs, pieces_text t bs -> exists ws, ws <> [] /\ small ws /\ bs = gbytes ws /\
  (length (joined ws) <= length t)%nat.
Proof.
  intros t bs H. induction H as [t bs H|t bs H|t bs t' bs' H _ IH].
  - destruct (group_shortest _ _ H) as (w & B & -> & L). exists [w]. split; [discriminate|].
    split; [repeat constructor; auto|]. split; [unfold gbytes; cbn [map concat]; now rewrite app_nil_r|]. exact L.
  - destruct H as (t1 & t2 & t3 & t4 & v1 & v2 & v3 & v4 & O1 & O2 & O3 & O4 & -> & ->).
    exists [256 * v1 + v2; 256 * v3 + v4]. split; [discriminate|].
    pose proof (pair_shortest _ _ _ _ O1 O2). pose proof (pair_shortest _ _ _ _ O3 O4).
    destruct O1 as (_ & _ & B1). destruct O2 as (_ & _ & B2). destruct O3 as (_ & _ & B3). destruct O4 as (_ & _ & B4).
    split; [repeat constructor; lia|]. split.
    + unfold gbytes. cbn [map concat]. rewrite !(N.mul_comm 256). rewrite !be2 by assumption. reflexivity.
    + rewrite joined_cons by discriminate. cbn [joined]. rewrite !app_length. cbn [length]. lia.
  - destruct (group_shortest _ _ H) as (w & B & -> & L). destruct IH as (ws & NE & S1 & -> & L').
    exists (w :: ws). split; [discriminate|]. split; [now constructor|]. split; [reflexivity|].
    rewrite joined_cons by auto. rewrite !app_length. cbn [length]. lia.
Qed.

Lemma words_gbytes : forall ws, small ws -> words (gbytes ws) = ws.
Proof.
  induction ws as [|w ws IH]; intros F; [reflexivity|].
  pose proof (Forall_inv F) as B. cbv beta in B.
  change (gbytes (w :: ws)) with (be_digits 2 w ++ gbytes ws).
  cbn [be_digits app words]. rewrite IH by exact (Forall_inv_tail F). f_equal.
  assert (w / 256 < 256) by (apply N.div_lt_upper_bound; lia).
  rewrite (N.mod_small (w / 256)) by auto. pose proof (N.div_mod w 256 ltac:(lia)). lia.
Qed.

Lemma groups_shortest : forall t bs, groups_text t bs -> exists ws, small ws /\ bs = gbytes ws /\
  (length (joined ws) <= length t)%nat.
Proof.
  intros t bs [|t' bs' H _].
  - exists []. split; [constructor|]. split; [reflexivity|cbn; lia].
  - destruct (pieces_shortest _ _ H) as (ws & _ & A & B & C). eauto.
Qed.

Lemma repeat_gbytes : forall k, repeat 0 (2 * k) = gbytes (repeat 0 k).
Proof. intro k. now rewrite gbytes_zeros. Qed.

(** The lengths of texts with a gap. *)
Lemma gap_length : forall (w1 w2 : list N) n, (length w1 + n + length w2 = 8)%nat -> (1 <= n)%nat ->
  let l := (length (joined w1) + 2 + length (joined w2))%nat in
  let s := (sum w1 + n + sum w2)%nat in
  (s + 8 <= l + 2 * n)%nat /\ (n < 8 -> l + 2 * n <= s + 9)%nat /\ (n = 8 -> l = 2 /\ s = 8)%nat.
Proof.
  intros w1 w2 n L N1. cbv zeta. pose proof (joined_length w1). pose proof (joined_length w2).
  split; [destruct w1, w2; cbn [length] in *; lia|]. split.
  - intro. destruct w1, w2; cbn [length] in *; lia.
  - intros ->. destruct w1, w2; cbn [length] in *; try lia. cbn. lia.
Qed.

Lemma zeros_mid : forall (w1 w2 : list N) n, (1 <= n)%nat -> zeros (w1 ++ repeat 0 n ++ w2) (length w1) n.
Proof.
  intros w1 w2 n N1. split; [auto|]. split; [rewrite !app_length, repeat_length; lia|].
  intros j J1 J2. rewrite app_nth2 by lia. rewrite app_nth1 by (rewrite repeat_length; lia).
  assert (X : forall m i, (i < m)%nat -> nth i (repeat 0 m) 1 = 0).
  { induction m; intros i Li; [lia|]. destruct i; [reflexivity|]. cbn. apply IHm. lia. }
  apply X. lia.
Qed.

Lemma print_length : forall a t, is_address a -> ~ mapped a -> address_text t a ->
  (length (print a) <= length t + 1)%nat.
Proof.
  intros a t A M T. destruct (words_small a A) as [F L].
  (* the length of the other text *)
  assert (K : (exists w1 w2 k, words a = w1 ++ repeat 0 k ++ w2 /\ (1 <= k)%nat /\
                 (length (joined w1) + 2 + length (joined w2) <= length t)%nat)
              \/ (length (joined (words a)) <= length t)%nat).
  { destruct T as [t bs P LB|t1 b1 t2 b2 n G P LB N2|t bs Q].
    - right. destruct (pieces_shortest _ _ P) as (ws & _ & S1 & -> & LE). now rewrite words_gbytes.
    - left. destruct (groups_shortest _ _ G) as (w1 & S1 & -> & L1).
      assert (exists w2, small w2 /\ b2 = gbytes w2 /\ (length (joined w2) <= length t2)%nat) as (w2 & S2 & -> & L2).
      { destruct P as [[-> ->]|P].
        - exists []. split; [constructor|]. split; [reflexivity|cbn; lia].
        - destruct (pieces_shortest _ _ P) as (ws & _ & X1 & X2 & X3). eauto. }
      rewrite !gbytes_length in LB.
      exists w1, w2, (n / 2)%nat. assert (E : n = (2 * (n / 2))%nat).
      { assert (Nat.even n = true).
        { replace n with (2 * (8 - length w1 - length w2))%nat by lia. rewrite Nat.even_mul. reflexivity. }
        apply Nat.even_spec in H as (q & ->). rewrite Nat.mul_comm at 2. rewrite Nat.div_mul by lia. reflexivity. }
      remember (n / 2)%nat as k. subst n. split.
      + rewrite repeat_gbytes, <- !gbytes_app. apply words_gbytes.
        apply Forall_app. split; [auto|]. apply Forall_app. split; [|auto].
        apply Forall_forall. intros x X. apply repeat_spec in X. subst. lia.
      + split; [lia|]. rewrite !app_length. cbn [length]. lia.
    - exfalso. apply M. unfold mapped. change (repeat 0 10 ++ [255; 255] ++ bs)
        with ((repeat 0 10 ++ [255; 255]) ++ bs). rewrite firstn_app. reflexivity. }
  destruct (unmapped_cases a A M) as [(Z & ->)|(i & n & Lo & _ & ->)].
  - destruct K as [(w1 & w2 & k & E & K1 & _)|K]; [|lia].
    exfalso. apply (Z (length w1) k). rewrite E. now apply zeros_mid.
  - pose proof (zeros_slice _ _ _ (proj1 Lo)) as SL. destruct Lo as [(N1 & IN & _) Best].
    pose proof (slice_split (words a) i (i + n) ltac:(lia) ltac:(lia)) as SP. rewrite SL in SP.
    set (p := firstn i (words a)) in *. set (q := skipn (i + n) (words a)) in *.
    assert (LP : length p = i) by (unfold p; rewrite firstn_length; lia).
    assert (LQ : length q = (8 - (i + n))%nat) by (unfold q; rewrite skipn_length; lia).
    destruct (gap_length p q n ltac:(lia) N1) as (G1 & G2 & G3).
    assert (SW : sum (words a) = (sum p + n + sum q)%nat) by (rewrite SP, !sum_app, sum_zeros; lia).
    rewrite !app_length. cbn [length].
    destruct K as [(w1 & w2 & k & E & K1 & K2)|K].
    + assert (KN : (k <= n)%nat) by (apply (Best (length w1)); rewrite E; now apply zeros_mid).
      assert (LW : (length w1 + k + length w2 = 8)%nat).
      { rewrite <- L, E, !app_length, repeat_length. lia. }
      destruct (gap_length w1 w2 k LW K1) as (H1 & _ & _).
      assert (SW' : sum (words a) = (sum w1 + k + sum w2)%nat) by (rewrite E, !sum_app, sum_zeros; lia).
      lia.
    + pose proof (joined_length (words a)) as JL. destruct (words a) eqn:EW; [discriminate|]. rewrite <- EW in *.
      lia.
Qed.

(* ------------------------------------------------------------------ *)
(** * Witnesses *)

Definition tie : list N := [0x20; 0x01; 0x0d; 0xb8; 0; 0; 0; 0; 0; 1; 0; 0; 0; 0; 0; 1].
Definition single : list N := [0x20; 0x01; 0x0d; 0xb8; 0; 0; 0; 1; 0; 1; 0; 1; 0; 1; 0; 1].
Definition long_one : list N := [0; 1; 0; 0; 0; 2; 0; 3; 0; 4; 0; 5; 0; 6; 0; 0].

Lemma addr_ok : forall a, length a = 16%nat -> forallb (fun b => b <? 256) a = true -> is_address a.
Proof.
  intros a L H. split; [auto|]. apply Forall_forall. intros b I. rewrite forallb_forall in H.
  apply H in I. now apply N.ltb_lt in I.
Qed.

Lemma longest_check : forall ws i n, length ws = 8%nat ->
  zb (map (fun g => g =? 0) ws) i n = true ->
  forallb (fun j => forallb (fun m => implb (zb (map (fun g => g =? 0) ws) j m) (Nat.leb m n)) (seq 0 9)) (seq 0 9) = true ->
  longest ws i n.
Proof.
  intros ws i n L Z H. split; [now apply zeros_zb|]. intros j m X.
  assert (B : (j < 9 /\ m < 9)%nat) by (destruct X as (? & ? & _); lia). apply zeros_zb in X.
  rewrite forallb_forall in H. specialize (H j ltac:(apply in_seq; lia)). rewrite forallb_forall in H.
  specialize (H m ltac:(apply in_seq; lia)). cbv beta in H. rewrite X in H. now apply Nat.leb_le in H.
Qed.

Lemma tie_text : rfc5952 (lit "2001:db8::1:0:0:1") tie.
Proof.
  apply (rfc_gap _ tie 2 2).
  - vm_compute. discriminate.
  - lia.
  - apply longest_check; reflexivity.
  - intros j [X _]. apply zeros_zb in X. destruct j as [|[|j]]; [discriminate X|discriminate X|lia].
  - exact (gap_form_joined (words tie) 2 2 ltac:(repeat constructor)).
Qed.

Lemma single_text : rfc5952 (lit "2001:db8:0:1:1:1:1:1") single.
Proof.
  apply rfc_plain.
  - vm_compute. discriminate.
  - intros i n X.
    assert (Lo : longest (words single) 2 1) by (apply longest_check; reflexivity).
    apply (proj2 Lo) in X as Y. destruct X as (? & _). lia.
  - exact (groups_form_joined (words single) ltac:(repeat constructor)).
Qed.

Lemma rfc_witness : exists a t, is_address a /\ rfc5952 t a /\ print a <> t /\
  (forall i n, zeros (words a) i n -> longest (words a) i n -> n = 2%nat).
Proof.
  exists tie, (lit "2001:db8::1:0:0:1"). split; [now apply addr_ok|]. split; [exact tie_text|].
  split; [vm_compute; discriminate|]. intros i n _ Lo.
  assert (L2 : longest (words tie) 2 2) by (apply longest_check; reflexivity).
  eapply longest_same; eauto.
Qed.

Lemma rfc_witness_single : exists a t, is_address a /\ rfc5952 t a /\ print a <> t /\
  (forall i n, zeros (words a) i n -> i = 2%nat /\ n = 1%nat).
Proof.
  exists single, (lit "2001:db8:0:1:1:1:1:1"). split; [now apply addr_ok|]. split; [exact single_text|].
  split; [vm_compute; discriminate|]. intros i n Z.
  assert (Lo : longest (words single) 2 1) by (apply longest_check; reflexivity).
  pose proof (proj2 Lo _ _ Z) as N1. assert (n = 1%nat) as -> by (destruct Z as (? & _); lia).
  split; [|reflexivity]. apply zeros_zb in Z. clear - Z.
  do 9 (destruct i as [|i]; [reflexivity || discriminate Z|]). discriminate Z.
Qed.

Lemma short_witness : exists a t, is_address a /\ ~ mapped a /\ address_text t a /\
  (length t < length (print a))%nat.
Proof.
  exists long_one, (lit "1::2:3:4:5:6:0"). split; [now apply addr_ok|]. split; [vm_compute; discriminate|].
  split; [|vm_compute; lia].
  exact (print_run_ok (words long_one) 1 1 eq_refl ltac:(repeat constructor) ltac:(lia) ltac:(lia) eq_refl).
Qed.

(** ** Field width *)
Lemma sink_left_all : forall t fill n, (length t <= n)%nat -> sink_left n fill t = t ++ repeat fill (n - length t).
Proof.
  induction t as [|c t IH]; intros fill n H.
  - cbn [length app]. rewrite Nat.sub_0_r. induction n as [|n IHn]; [reflexivity|]. cbn [sink_left repeat]. now rewrite IHn by apply Nat.le_0_l.
  - destruct n as [|n]; [cbn in H; lia|]. cbn [sink_left app length Nat.sub]. now rewrite IH by (cbn in H; lia).
Qed.
Lemma sink_right_all : forall i fill t, t <> [] -> sink_right i fill t = repeat fill i ++ t.
Proof.
  induction i as [|i IH]; intros fill t H; destruct t as [|c t]; try congruence; [reflexivity|].
  cbn [sink_right repeat app]. now rewrite IH.
Qed.
Lemma print_some : forall a, is_address a -> print a <> [].
Proof.
  intros a A E. pose proof (proj1 (form_iff a [] A) E) as F. inversion F as [q b M Q X|t b M Z (ts & J & X) Y|t b i n M L J (t1 & t2 & _ & _ & X)]; subst.
  - destruct A as [A _]. do 4 (destruct a as [|? a]; [discriminate A|]). cbn [words] in J.
    inversion J as [|u x us xs _ J' E1 E2]; subst. inversion J' as [|u' x' us' xs' _ J'' E1 E2]; subst. cbn [join] in X. destruct u; discriminate X.
  - destruct t1; discriminate X.
Qed.
Lemma padded_all : forall left fill width a, is_address a -> exists k,
  print_padded left fill width a = (if left then print a ++ repeat fill k else repeat fill k ++ print a) /\
  length (print_padded left fill width a) = Nat.max width (length (print a)).
Proof.
  intros left fill width a H. assert (N : print a <> []) by (apply print_some; exact H). exists (width - length (print a))%nat.
  assert (E : print_padded left fill width a = if left then print a ++ repeat fill (width - length (print a)) else repeat fill (width - length (print a)) ++ print a).
  { unfold print_padded. cbv zeta. destruct left; [rewrite sink_left_all by lia; do 2 f_equal; lia|now apply sink_right_all]. }
  split; [exact E|]. rewrite E. destruct left; rewrite app_length, repeat_length; lia.
Qed.
