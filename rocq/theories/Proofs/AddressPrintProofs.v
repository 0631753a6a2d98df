(** Printing addresses; masks and order. *)
From Coq Require Import String List NArith ZArith Bool Arith Lia.
From Verif Require Import Model.Base Model.WebMaps Model.HttpCodec Model.Address
  Spec.EndianSpec Spec.AddressSpec Proofs.Arith Proofs.UrlProofs Proofs.AddressProofs.
Import ListNotations.
Local Open Scope N_scope.

Lemma digit_char_ok : forall base d, base <= 16 -> d < base -> digit base (digit_char d) d.
Proof.
  intros base d B D. unfold digit_char. destruct (N.ltb_spec d 10).
  - now constructor.
  - now apply digit_lower.
Qed.

Lemma numeral_ok : forall base n v, 2 <= base -> base <= 16 -> v < base ^ N.of_nat (S n) ->
  numeral_of base (numeral base (S n) v) v /\ (length (numeral base (S n) v) <= S n)%nat.
Proof.
  intros base n. induction n as [|n IH]; intros v B1 B2 V.
  - cbn [numeral]. change (N.of_nat 1) with 1 in V. rewrite N.pow_1_r in V.
    replace (v <? base) with true by (symmetry; now apply N.ltb_lt).
    split; [|cbn; lia]. constructor. now apply digit_char_ok.
  - cbn [numeral]. destruct (N.ltb_spec v base) as [L|L].
    + split; [|cbn; lia]. constructor. now apply digit_char_ok.
    + assert (Q : v / base < base ^ N.of_nat (S n)).
      { apply N.div_lt_upper_bound; [lia|]. rewrite Nnat.Nat2N.inj_succ, N.pow_succ_r' in V. exact V. }
      destruct (IH (v / base) B1 B2 Q) as [I1 I2].
      change (if v / base <? base then [digit_char (v / base)]
              else numeral base n (v / base / base) ++ [digit_char (v / base mod base)])
        with (numeral base (S n) (v / base)).
      split.
      * assert (E : v = v / base * base + v mod base) by (rewrite N.mul_comm; apply N.div_mod; lia).
        assert (D : digit base (digit_char (v mod base)) (v mod base))
          by (apply digit_char_ok; auto; apply N.mod_lt; lia).
        pose proof (num_more _ _ _ _ _ I1 D) as G. rewrite <- E in G. exact G.
      * rewrite app_length. cbn [length]. lia.
Qed.

Lemma print_group_ok : forall g, g < 65536 -> group_text (numeral 16 4 g) (be_digits 2 g).
Proof.
  intros g H. destruct (numeral_ok 16 3 g) as [A B]; try lia.
  split; auto. exists g. auto.
Qed.

Lemma print_octet_ok : forall b, b < 256 -> octet_text (numeral 10 3 b) b.
Proof.
  intros b H. destruct (numeral_ok 10 2 b) as [A B]; try lia.
  split; auto.
Qed.

Lemma print_quad_ok : forall b1 b2 b3 b4, b1 < 256 -> b2 < 256 -> b3 < 256 -> b4 < 256 ->
  quad_text (print_quad [b1; b2; b3; b4]) [b1; b2; b3; b4].
Proof.
  intros. exists (numeral 10 3 b1), (numeral 10 3 b2), (numeral 10 3 b3), (numeral 10 3 b4), b1, b2, b3, b4.
  repeat (split; [now apply print_octet_ok|]). split; reflexivity.
Qed.

(** The bytes of a list of groups. *)
Definition gbytes (gs : list N) : list N := concat (map (be_digits 2) gs).

Lemma be2 : forall x y, x < 256 -> y < 256 -> be_digits 2 (x * 256 + y) = [x; y].
Proof.
  intros x y X Y. cbn [be_digits app].
  replace ((x * 256 + y) / 256) with x.
  2:{ rewrite N.div_add_l by lia. rewrite N.div_small by lia. lia. }
  replace ((x * 256 + y) mod 256) with y.
  2:{ rewrite N.add_comm, N.mod_add by lia. symmetry. now apply N.mod_small. }
  rewrite N.mod_small by lia. reflexivity.
Qed.

Lemma groups_bytes : forall n a, length a = (2 * n)%nat -> bytes_ok a ->
  gbytes (groups a) = a /\ length (groups a) = n /\ Forall (fun g => g < 65536) (groups a).
Proof.
  induction n as [|n IH]; intros a L B.
  - destruct a; [|discriminate]. repeat split. constructor.
  - destruct a as [|x [|y a]]; try (cbn in L; lia). cbn [length] in L.
    pose proof (Forall_inv B) as X. pose proof (Forall_inv (Forall_inv_tail B)) as Y.
    destruct (IH a) as (A1 & A2 & A3); [lia|exact (Forall_inv_tail (Forall_inv_tail B))|].
    cbn [groups]. unfold gbytes in *. cbn [map concat]. unfold is_byte in *.
    rewrite be2 by assumption. rewrite A1. split; [reflexivity|]. split; [cbn; lia|].
    constructor; auto. lia.
Qed.

(** Groups printed with a colon after each, and without one after the last. *)
Definition colons (gs : list N) : list N := concat (map (fun g => numeral 16 4 g ++ [58]) gs).

Fixpoint joined (gs : list N) : list N :=
  match gs with
  | [] => []
  | [g] => numeral 16 4 g
  | g :: gs' => numeral 16 4 g ++ [58] ++ joined gs'
  end.

Lemma joined_pieces : forall gs, gs <> [] -> Forall (fun g => g < 65536) gs ->
  pieces_text (joined gs) (gbytes gs).
Proof.
  induction gs as [|g gs IH]; intros NE F; [congruence|].
  pose proof (Forall_inv F) as G. pose proof (Forall_inv_tail F) as F'.
  destruct gs as [|g' gs].
  - cbn. constructor. now apply print_group_ok.
  - change (joined (g :: g' :: gs)) with (numeral 16 4 g ++ [58] ++ joined (g' :: gs)).
    change (gbytes (g :: g' :: gs)) with (be_digits 2 g ++ gbytes (g' :: gs)).
    apply pt_more; [now apply print_group_ok|]. apply IH; [discriminate|auto].
Qed.

Lemma numeral_no_dot : forall g, g < 65536 -> ~ In 46 (numeral 16 4 g).
Proof.
  intros g H. destruct (print_group_ok g H) as (_ & v & N1 & _).
  destruct (numeral_hex _ _ N1) as (_ & F & _). intro I.
  rewrite Forall_forall in F. apply F in I. destruct I as (_ & _ & I). congruence.
Qed.

Lemma joined_no_dot : forall gs, Forall (fun g => g < 65536) gs -> ~ In 46 (joined gs).
Proof.
  induction gs as [|g gs IH]; intros F; [intros []|].
  pose proof (Forall_inv F) as G. pose proof (Forall_inv_tail F) as F'.
  destruct gs as [|g' gs]; [now apply numeral_no_dot|].
  change (joined (g :: g' :: gs)) with (numeral 16 4 g ++ [58] ++ joined (g' :: gs)).
  intro I. apply in_app_or in I as [I|I]; [now apply (numeral_no_dot g)|].
  destruct I as [I|I]; [discriminate|]. now apply IH.
Qed.

Lemma colons_joined : forall gs, gs <> [] -> colons gs = joined gs ++ [58].
Proof.
  induction gs as [|g gs IH]; intros NE; [congruence|].
  destruct gs as [|g' gs].
  - unfold colons. cbn [map concat joined]. now rewrite app_nil_r.
  - change (colons (g :: g' :: gs)) with ((numeral 16 4 g ++ [58]) ++ colons (g' :: gs)).
    rewrite IH by discriminate.
    change (joined (g :: g' :: gs)) with (numeral 16 4 g ++ [58] ++ joined (g' :: gs)).
    now rewrite <- !app_assoc.
Qed.

(** The loop over the groups outside the zero run. *)
Lemma print_outside : forall gs i s, (i + length gs = 8)%nat ->
  match s with None => True | Some (x, y) => (y < i)%nat end ->
  print_groups i gs s = joined gs.
Proof.
  induction gs as [|g gs IH]; intros i s L S; [reflexivity|]. cbn [print_groups length] in *.
  assert (E : match s with None => false | Some (x, y) => Nat.leb x i && Nat.leb i y end = false).
  { destruct s as [[x y]|]; auto. replace (Nat.leb i y) with false by (symmetry; apply Nat.leb_gt; lia).
    apply andb_false_r. }
  rewrite E. rewrite IH; [|lia|destruct s as [[x y]|]; auto; lia].
  destruct gs as [|g' gs].
  - cbn [length] in L. replace (Nat.ltb i 7) with false by (symmetry; apply Nat.ltb_ge; lia).
    cbn. now rewrite !app_nil_r.
  - cbn [length] in L. replace (Nat.ltb i 7) with true by (symmetry; apply Nat.ltb_lt; lia).
    rewrite <- app_assoc. reflexivity.
Qed.

Lemma print_before : forall pre i l x y, (i + length pre <= x)%nat -> (x < 8)%nat ->
  print_groups i (pre ++ l) (Some (x, y)) = colons pre ++ print_groups (i + length pre) l (Some (x, y)).
Proof.
  induction pre as [|g pre IH]; intros i l x y L X.
  - cbn [app length]. rewrite Nat.add_0_r. reflexivity.
  - cbn [app print_groups length] in *.
    replace (Nat.leb x i) with false by (symmetry; apply Nat.leb_gt; lia). cbn [andb].
    replace (Nat.ltb i 7) with true by (symmetry; apply Nat.ltb_lt; lia).
    rewrite IH by lia. unfold colons. cbn [map concat].
    replace (S i + length pre)%nat with (i + S (length pre))%nat by lia.
    now rewrite <- !app_assoc.
Qed.

Lemma print_inside : forall n i l x y, (x <= i)%nat -> (i + n = S y)%nat -> (1 <= n)%nat ->
  print_groups i (repeat 0 n ++ l) (Some (x, y))
  = (if Nat.eqb i x && Nat.eqb i 0 then [58] else []) ++ [58] ++ print_groups (S y) l (Some (x, y)).
Proof.
  induction n as [|n IH]; intros i l x y X Y N1; [lia|]. cbn [repeat app print_groups].
  replace (Nat.leb x i) with true by (symmetry; apply Nat.leb_le; lia).
  replace (Nat.leb i y) with true by (symmetry; apply Nat.leb_le; lia). cbn [andb].
  destruct n as [|n].
  - replace (Nat.eqb i y) with true by (symmetry; apply Nat.eqb_eq; lia).
    replace (S y) with (S i) by lia. cbn [repeat app]. now rewrite <- app_assoc.
  - replace (Nat.eqb i y) with false by (symmetry; apply Nat.eqb_neq; lia).
    rewrite IH by lia. rewrite app_nil_r.
    replace (Nat.eqb (S i) 0) with false by reflexivity. rewrite andb_false_r. reflexivity.
Qed.

(** The run that is left out consists of zeros, for every zero pattern. *)
Fixpoint bools (n : nat) : list (list bool) :=
  match n with
  | O => [[]]
  | S n' => map (cons true) (bools n') ++ map (cons false) (bools n')
  end.

Lemma bools_all : forall l, In l (bools (length l)).
Proof.
  induction l as [|b l IH]; [now left|]. cbn. apply in_or_app.
  destruct b; [left|right]; now apply in_map.
Qed.

Lemma zero_run_ok : forall zs x y, length zs = 8%nat -> zero_run 0 zs None None = Some (x, y) ->
  (x <= y)%nat /\ (y < 8)%nat /\ slice (map (fun b : bool => if b then 0 else 1) zs) x (S y) = repeat 0 (S y - x).
Proof.
  intros zs x y L H.
  assert (K : forallb (fun zs => match zero_run 0 zs None None with
     | Some (x, y) => Nat.leb x y && Nat.ltb y 8 &&
         list_eqb (slice (map (fun b : bool => if b then 0 else 1) zs) x (S y)) (repeat 0 (S y - x))
     | None => true end) (bools 8) = true) by (vm_compute; reflexivity).
  rewrite forallb_forall in K. assert (I : In zs (bools 8)) by (rewrite <- L; apply bools_all).
  specialize (K zs I). cbv beta in K.
  rewrite H in K. apply andb_prop in K as [K K3]. apply andb_prop in K as [K1 K2].
  apply Nat.leb_le in K1. apply Nat.ltb_lt in K2. apply list_eqb_eq in K3. auto.
Qed.

Lemma slice_zeros : forall gs x y,
  slice (map (fun b : bool => if b then 0 else 1) (map (fun g => g =? 0) gs)) x y = repeat 0 (y - x) ->
  (y <= length gs)%nat -> slice gs x y = repeat 0 (y - x).
Proof.
  intros gs x y H L. unfold slice in *. rewrite map_map, skipn_map, firstn_map in H.
  assert (LE : length (firstn (y - x) (skipn x gs)) = (y - x)%nat).
  { rewrite firstn_length, skipn_length. lia. }
  remember (firstn (y - x) (skipn x gs)) as l. remember (y - x)%nat as n. clear - H LE.
  revert n H LE. induction l as [|g l IH]; intros n H LE; destruct n; try discriminate; auto.
  cbn in H. injection H as H1 H2. cbn. f_equal.
  - destruct (N.eqb_spec g 0); congruence.
  - apply IH; auto.
Qed.

Lemma skipn_skipn' : forall (l : list N) a b, skipn a (skipn b l) = skipn (b + a) l.
Proof.
  induction l as [|x l IH]; intros a b; [now rewrite !skipn_nil|]. destruct b; auto. cbn. apply IH.
Qed.

Lemma slice_split : forall (gs : list N) x y, (x <= y)%nat -> (y <= length gs)%nat ->
  gs = firstn x gs ++ slice gs x y ++ skipn y gs.
Proof.
  intros gs x y X Y. unfold slice. rewrite <- (firstn_skipn x gs) at 1. f_equal.
  rewrite <- (firstn_skipn (y - x) (skipn x gs)) at 1. f_equal.
  rewrite skipn_skipn'. f_equal. lia.
Qed.

Lemma gbytes_app : forall a b, gbytes (a ++ b) = gbytes a ++ gbytes b.
Proof. intros. unfold gbytes. now rewrite map_app, concat_app. Qed.

Lemma gbytes_zeros : forall n, gbytes (repeat 0 n) = repeat 0 (2 * n).
Proof.
  induction n; auto. unfold gbytes in *. cbn [repeat map concat]. rewrite IHn.
  replace (2 * S n)%nat with (S (S (2 * n)))%nat by lia. reflexivity.
Qed.

Lemma gbytes_length : forall gs, length (gbytes gs) = (2 * length gs)%nat.
Proof.
  induction gs as [|g gs IH]; auto. unfold gbytes in *. cbn [map concat]. rewrite app_length, IH.
  cbn [length be_digits app]. lia.
Qed.

Lemma Forall_firstn' : forall (P : N -> Prop) n l, Forall P l -> Forall P (firstn n l).
Proof. intros P n l H. rewrite <- (firstn_skipn n l) in H. now apply Forall_app in H. Qed.
Lemma Forall_skipn' : forall (P : N -> Prop) n l, Forall P l -> Forall P (skipn n l).
Proof. intros P n l H. rewrite <- (firstn_skipn n l) in H. now apply Forall_app in H. Qed.

(** Printing groups around a run of zeros. *)
Lemma print_run_ok : forall gs x y, length gs = 8%nat -> Forall (fun g => g < 65536) gs ->
  (x <= y)%nat -> (y < 8)%nat -> slice gs x (S y) = repeat 0 (S y - x) ->
  address_text (print_groups 0 gs (Some (x, y))) (gbytes gs).
Proof.
  intros gs x y L F X Y Z.
  pose proof (slice_split gs x (S y)) as SP. rewrite Z in SP. 
  set (pre := firstn x gs) in *. set (post := skipn (S y) gs) in *.
  assert (LP : length pre = x) by (unfold pre; rewrite firstn_length; lia).
  assert (LQ : length post = (7 - y)%nat) by (unfold post; rewrite skipn_length; lia).
  assert (FP : Forall (fun g => g < 65536) pre) by now apply Forall_firstn'.
  assert (FQ : Forall (fun g => g < 65536) post) by now apply Forall_skipn'.
  rewrite SP by lia. rewrite print_before by lia. rewrite print_inside by lia.
  rewrite print_outside by lia.
  rewrite !gbytes_app, gbytes_zeros.
  assert (T : colons pre ++ (if Nat.eqb (0 + length pre) x && Nat.eqb (0 + length pre) 0 then [58] else [])
              = joined pre ++ [58]).
  { destruct pre as [|g pre'] eqn:EP.
    - cbn in LP. subst x. reflexivity.
    - rewrite colons_joined by discriminate. replace (Nat.eqb (0 + length (g :: pre')) 0) with false by reflexivity.
      rewrite andb_false_r. now rewrite app_nil_r. }
  rewrite app_assoc, T. rewrite <- app_assoc. cbn [app].
  apply (at_gap (joined pre) (gbytes pre) (joined post) (gbytes post)).
  - destruct pre as [|g pre'] eqn:EP; [constructor|]. rewrite <- EP in *.
    apply gt_some; [apply joined_pieces; auto; congruence|now apply joined_no_dot].
  - destruct post as [|g post'] eqn:EQ; [now left|]. right. rewrite <- EQ in *.
    apply joined_pieces; auto. congruence.
  - rewrite !gbytes_length. lia.
  - lia.
Qed.

Lemma zero_len : forall gs : list N, length (map (fun g => g =? 0) gs) = length gs.
Proof. intros. apply map_length. Qed.

Lemma no_colon_dot : forall b : bool, ~ In 46 (if b then [58] else []).
Proof. intros [] I; [destruct I as [I|[]]; discriminate|destruct I]. Qed.

(** Every printed text is a standard text of the address. *)
Lemma print_text : forall a, is_address a -> address_text (print a) a /\ ~ compat_text (print a).
Proof.
  intros a [L B]. destruct (groups_bytes 8 a) as (G1 & G2 & G3); auto.
  assert (NO : forall s, (s = None \/ exists x y, s = Some (x, y) /\ (x <= y)%nat /\ (y < 8)%nat /\
    slice (groups a) x (S y) = repeat 0 (S y - x)) ->
    address_text (print_groups 0 (groups a) s) a).
  { intros s [->|(x & y & -> & X & Y & Z)].
    - rewrite print_outside by (auto; lia). apply at_full; auto.
      rewrite <- G1 at 2. apply joined_pieces; auto. intro E. rewrite E in G2. discriminate.
    - rewrite <- G1 at 2. now apply print_run_ok. }
  assert (ND : forall s, ~ In 46 (print_groups 0 (groups a) s)).
  { intro s. assert (X : forall gs i, Forall (fun g => g < 65536) gs -> ~ In 46 (print_groups i gs s)).
    { induction gs as [|g gs IH]; intros i F I; [destruct I|]. cbn [print_groups] in I.
      apply in_app_or in I as [I|I].
      - destruct (match s with None => false | Some (x, y) => Nat.leb x i && Nat.leb i y end).
        + apply in_app_or in I as [I|I].
          * now apply no_colon_dot in I.
          * now apply no_colon_dot in I.
        + apply in_app_or in I as [I|I]; [eapply numeral_no_dot; [exact (Forall_inv F)|exact I]|].
          now apply no_colon_dot in I.
      - eapply IH; [exact (Forall_inv_tail F)|exact I]. }
    apply X. exact G3. }
  assert (NC : forall t, ~ In 46 t -> ~ compat_text t).
  { intros t N1 CT. destruct CT as (q & bs & Q & E). apply N1. subst t.
    destruct Q as (t1 & t2 & t3 & t4 & v1 & v2 & v3 & v4 & _ & _ & _ & _ & -> & _).
    cbn [In app]. right. right. apply in_or_app. right. cbn [In app]. now left. }
  unfold print. cbv zeta.
  destruct (zero_run 0 (map (fun g => g =? 0) (groups a)) None None) as [[x y]|] eqn:ZR.
  2:{ split; auto. }
  destruct (zero_run_ok _ _ _ (eq_trans (zero_len _) G2) ZR) as (X & Y & Z).
  apply slice_zeros in Z; [|lia].
  assert (D : address_text (print_groups 0 (groups a) (Some (x, y))) a /\
              ~ compat_text (print_groups 0 (groups a) (Some (x, y)))).
  { split; [|auto]. apply NO. right. eauto 10. }
  destruct x as [|x]; [|exact D].
  destruct y as [|[|[|[|[|y]]]]]; try exact D.
  destruct (N.eqb_spec (nth 5 (groups a) 0) 65535) as [F5|F5]; [|exact D]. clear D.
  (* the IPv4-mapped form *)
  do 16 (destruct a as [|? a]; [discriminate L|]). destruct a; [|discriminate L].
  unfold bytes_ok, is_byte in B.
  do 16 (pose proof (Forall_inv B); apply Forall_inv_tail in B; cbv beta in *).
  cbn [groups] in Z, F5. cbn [nth slice firstn skipn Nat.sub repeat] in Z, F5.
  unfold slice in Z. cbn [firstn skipn Nat.sub repeat] in Z.
  injection Z as Z1 Z2 Z3 Z4 Z5. unfold is_byte in *.
  assert (n9 = 255 /\ n10 = 255) as [-> ->] by lia.
  assert (n = 0 /\ n0 = 0 /\ n1 = 0 /\ n2 = 0 /\ n3 = 0 /\ n4 = 0 /\ n5 = 0 /\ n6 = 0 /\ n7 = 0 /\ n8 = 0)
    as (-> & -> & -> & -> & -> & -> & -> & -> & -> & ->) by lia.
  cbn [skipn]. change (numeral 16 4 65535) with (lit "ffff").
  assert (Q : quad_text (print_quad [n11; n12; n13; n14]) [n11; n12; n13; n14]) by now apply print_quad_ok.
  split.
  - apply (at_gap [] [] (lit "ffff" ++ [58] ++ print_quad [n11; n12; n13; n14])
             ([255; 255] ++ [n11; n12; n13; n14]) 10).
    + constructor.
    + right. apply pt_more; [|now apply pt_quad].
      exact (print_group_ok 65535 ltac:(lia)).
    + reflexivity.
    + lia.
  - intros (q & bs & QT & E).
    destruct QT as (t1 & t2 & t3 & t4 & w1 & w2 & w3 & w4 & O1 & _ & _ & _ & -> & _).
    destruct (octet_parts _ _ O1) as (NE & FD & _ & _ & _ & _).
    cbn in E. injection E as E. destruct t1 as [|c t1]; [congruence|]. cbn in E. injection E as E _.
    pose proof (Forall_inv FD) as DC. unfold decd in DC. lia.
Qed.

Lemma numeral_length : forall base n v, (length (numeral base n v) <= n)%nat.
Proof.
  intros base n. induction n; intros; cbn [numeral]; [auto|].
  destruct (v <? base); [cbn; lia|]. rewrite app_length. cbn. specialize (IHn (v / base)). lia.
Qed.

(** The text fits the buffer of 40 characters (address.cpp 190), also with the
    '.' that is written and taken back. *)
Lemma print_fits : forall a, is_address a -> (length (print a) + 1 <= 40)%nat.
Proof.
  intros a [L B]. destruct (groups_bytes 8 a) as (G1 & G2 & G3); auto.
  assert (P : forall s gs i, (i + length gs = 8)%nat -> gs <> [] ->
    (length (print_groups i gs s) <= 5 * length gs - 1)%nat).
  { intro s. induction gs as [|g gs IH]; intros i E NE; [congruence|]. cbn [print_groups length] in *.
    rewrite app_length.
    pose proof (numeral_length 16 4 g) as NL.
    assert (H : (length
      (if match s with None => false | Some (x, y) => Nat.leb x i && Nat.leb i y end
       then (if match s with Some (x, _) => Nat.eqb i x && Nat.eqb i 0 | None => false end then [58%N] else [])
            ++ (if match s with Some (_, y) => Nat.eqb i y | None => false end then [58%N] else [])
       else numeral 16 4 g ++ (if Nat.ltb i 7 then [58%N] else [])) <= if Nat.ltb i 7 then 5 else 4)%nat).
    { destruct (match s with None => _ | Some _ => _ end); rewrite app_length.
      - destruct (match s with Some (x, _) => _ | None => _ end), (match s with Some (_, y) => _ | None => _ end), (Nat.ltb i 7); cbn [length]; lia.
      - destruct (Nat.ltb i 7); cbn [length]; lia. }
    eapply Nat.le_trans; [apply Nat.add_le_mono_r, H|].
    destruct gs as [|g' gs].
    - cbn [length] in *. replace (Nat.ltb i 7) with false by (symmetry; apply Nat.ltb_ge; lia). cbn. lia.
    - specialize (IH (S i)). cbn [length] in *.
      assert (IH' := IH ltac:(lia) ltac:(discriminate)). destruct (Nat.ltb i 7); lia. }
  assert (D : forall s, (length (print_groups 0 (groups a) s) + 1 <= 40)%nat).
  { intro s. specialize (P s (groups a) 0%nat). rewrite G2 in P.
    assert (P' := P eq_refl ltac:(intro E; rewrite E in G2; discriminate)). lia. }
  unfold print. cbv zeta.
  destruct (zero_run 0 (map (fun g => g =? 0) (groups a)) None None) as [[x y]|]; [|apply D].
  destruct x as [|x]; [|apply D]. destruct y as [|[|[|[|[|y]]]]]; try apply D.
  destruct (nth 5 (groups a) 0 =? 65535); [|apply D].
  do 16 (destruct a as [|? a]; [discriminate L|]). destruct a; [|discriminate L].
  cbn [skipn print_quad]. rewrite !app_length.
  pose proof (numeral_length 10 3 n11). pose proof (numeral_length 10 3 n12).
  pose proof (numeral_length 10 3 n13). pose proof (numeral_length 10 3 n14).
  change (length (numeral 16 4 65535)) with 4%nat. cbn [length lit]. lia.
Qed.

Lemma print_assign : forall a data c rest fuel,
  is_address a -> length data = 16%nat -> c <> 58 -> (44 <= fuel)%nat ->
  assign fuel (print a ++ c :: rest) (length (print a)) data = Done a.
Proof.
  intros a data c rest fuel A D C F. destruct (print_text a A) as [T N1]. pose proof (print_fits a A).
  apply assign_text; auto. lia.
Qed.

(* ------------------------------------------------------------------ *)
(** * Masks and order *)

Lemma le_bytes_land : forall n a b, length a = n -> length b = n -> bytes_ok a -> bytes_ok b ->
  le_bytes n (N.land (le_value a) (le_value b)) = map (fun p => N.land (fst p) (snd p)) (combine a b).
Proof.
  induction n as [|n IH]; intros a b LA LB BA BB; destruct a as [|x a], b as [|y b]; try discriminate; auto.
  cbn [le_value le_bytes combine map fst snd].
  pose proof (Forall_inv BA) as X. pose proof (Forall_inv BB) as Y. unfold is_byte in *.
  set (u := le_value a) in *. set (v := le_value b) in *.
  assert (E : forall p q, p < 256 -> p + 256 * q = N.lor (q * 2 ^ 8) p).
  { intros p q Hp. rewrite lor_add by exact Hp. change (2 ^ 8) with 256. lia. }
  assert (L1 : forall p q, p < 256 -> (p + 256 * q) mod 256 = p).
  { intros p q Hp. rewrite N.mul_comm, N.mod_add by lia. now apply N.mod_small. }
  assert (L2 : forall p q, p < 256 -> (p + 256 * q) / 256 = q).
  { intros p q Hp. rewrite N.mul_comm, N.div_add by lia. rewrite N.div_small by lia. lia. }
  assert (M : forall p q, N.land p q mod 256 = N.land (p mod 256) (q mod 256)).
  { intros p q. change 256 with (2 ^ 8). rewrite <- !N.land_ones.
    rewrite <- !N.land_assoc. f_equal. rewrite N.land_assoc, (N.land_comm (N.ones 8) q), <- N.land_assoc.
    now rewrite N.land_diag. }
  assert (DV : forall p q, N.land p q / 256 = N.land (p / 256) (q / 256)).
  { intros p q. change 256 with (2 ^ 8). rewrite <- !N.shiftr_div_pow2. apply N.shiftr_land. }
  rewrite M, !L1 by assumption. f_equal. rewrite DV, !L2 by assumption.
  apply IH; try (cbn in *; lia); eapply Forall_inv_tail; eassumption.
Qed.

Lemma bytes_firstn : forall n a, bytes_ok a -> bytes_ok (firstn n a).
Proof. intros. now apply Forall_firstn'. Qed.
Lemma bytes_skipn : forall n a, bytes_ok a -> bytes_ok (skipn n a).
Proof. intros. now apply Forall_skipn'. Qed.

Lemma combine_app : forall (a b c d : list N), length a = length c ->
  combine (a ++ b) (c ++ d) = combine a c ++ combine b d.
Proof.
  induction a as [|x a IH]; intros b c d L; destruct c as [|y c]; try discriminate; auto.
  cbn. f_equal. apply IH. cbn in L. lia.
Qed.

Lemma and_bytewise : forall a b, is_address a -> is_address b ->
  addr_and a b = map (fun p => N.land (fst p) (snd p)) (combine a b).
Proof.
  intros a b [LA BA] [LB BB]. unfold addr_and.
  rewrite !le_bytes_land; try (rewrite ?firstn_length, ?skipn_length; lia);
    try (now apply bytes_firstn); try (now apply bytes_skipn).
  rewrite <- map_app, <- combine_app by (rewrite !firstn_length; lia). now rewrite !firstn_skipn.
Qed.

(** Bit [k] of byte [i]. *)

Lemma and_nth : forall a b i, length a = length b ->
  nth i (map (fun p => N.land (fst p) (snd p)) (combine a b)) 0 = N.land (nth i a 0) (nth i b 0).
Proof.
  induction a as [|x a IH]; intros b i L; destruct b as [|y b]; try discriminate.
  - destruct i; reflexivity.
  - destruct i; cbn; auto.
Qed.

Lemma and_bits : forall a b i k, is_address a -> is_address b ->
  bit (addr_and a b) i k = bit a i k && bit b i k.
Proof.
  intros a b i k A B. unfold bit. rewrite and_bytewise by assumption.
  rewrite and_nth by (destruct A, B; congruence). apply N.land_spec.
Qed.

Lemma land_lt : forall x y n, x < 2 ^ n -> N.land x y < 2 ^ n.
Proof.
  intros x y n H. destruct (N.eq_dec (N.land x y) 0) as [->|NZ]; [apply N.neq_0_lt_0, N.pow_nonzero; lia|].
  apply N.log2_lt_pow2; [lia|]. eapply N.le_lt_trans; [apply N.log2_land|].
  apply N.min_lt_iff. left. destruct (N.eq_dec x 0) as [->|X].
  - rewrite N.land_0_l in NZ. congruence.
  - apply N.log2_lt_pow2; [lia|exact H].
Qed.

Lemma and_address : forall a b, is_address a -> is_address b -> is_address (addr_and a b).
Proof.
  intros a b A B. rewrite and_bytewise by assumption. destruct A as [LA BA], B as [LB BB]. split.
  - rewrite map_length, combine_length. lia.
  - unfold bytes_ok. rewrite Forall_forall. intros x H. apply in_map_iff in H as ([p q] & <- & I).
    apply in_combine_l in I. unfold bytes_ok in BA. rewrite Forall_forall in BA. apply BA in I.
    unfold is_byte in *. exact (land_lt p q 8 I).
Qed.

Lemma combine_land_comm : forall a b : list N,
  map (fun p => N.land (fst p) (snd p)) (combine a b) = map (fun p => N.land (fst p) (snd p)) (combine b a).
Proof.
  induction a as [|x a IH]; intros [|y b]; auto. cbn. rewrite IH. f_equal. apply N.land_comm.
Qed.

Lemma combine_land_assoc : forall a b c : list N,
  map (fun p => N.land (fst p) (snd p)) (combine (map (fun p => N.land (fst p) (snd p)) (combine a b)) c)
  = map (fun p => N.land (fst p) (snd p)) (combine a (map (fun p => N.land (fst p) (snd p)) (combine b c))).
Proof.
  induction a as [|x a IH]; intros [|y b] [|z c]; auto. cbn. rewrite IH. f_equal. symmetry. apply N.land_assoc.
Qed.

Lemma and_laws : forall a b c, is_address a -> is_address b -> is_address c ->
  addr_and a b = addr_and b a /\ addr_and (addr_and a b) c = addr_and a (addr_and b c) /\ addr_and a a = a.
Proof.
  intros a b c A B C. repeat split.
  - rewrite !and_bytewise by assumption. apply combine_land_comm.
  - rewrite (and_bytewise (addr_and a b) c), (and_bytewise a (addr_and b c)) by (auto using and_address). rewrite (and_bytewise a b), (and_bytewise b c) by assumption.
    apply combine_land_assoc.
  - rewrite and_bytewise by assumption. clear. induction a as [|x a IH]; auto. cbn. rewrite IH, N.land_diag. reflexivity.
Qed.

Lemma eqb_spec' : forall a b, addr_eqb a b = true <-> a = b.
Proof. apply list_eqb_eq. Qed.

Lemma ltb_irrefl : forall a, addr_ltb a a = false.
Proof. induction a as [|x a IH]; auto. cbn. now rewrite N.ltb_irrefl. Qed.

Lemma ltb_trans : forall a b c, addr_ltb a b = true -> addr_ltb b c = true -> addr_ltb a c = true.
Proof.
  induction a as [|x a IH]; intros [|y b] [|z c] H1 H2; try discriminate; auto. cbn in *.
  destruct (N.ltb_spec x y), (N.ltb_spec y z); try (destruct (N.ltb_spec x z); [reflexivity|lia]).
  - destruct (N.ltb_spec z y); [discriminate|]. destruct (N.ltb_spec x z); [reflexivity|lia].
  - destruct (N.ltb_spec y x); [discriminate|]. destruct (N.ltb_spec x z); [reflexivity|lia].
  - destruct (N.ltb_spec y x); [discriminate|]. destruct (N.ltb_spec z y); [discriminate|].
    assert (x = z) as -> by lia. rewrite N.ltb_irrefl. eapply IH; eauto.
Qed.

Lemma ltb_total : forall a b, length a = length b ->
  addr_ltb a b = true \/ a = b \/ addr_ltb b a = true.
Proof.
  induction a as [|x a IH]; intros [|y b] L; try discriminate; auto. cbn.
  destruct (N.ltb_spec x y); auto. destruct (N.ltb_spec y x); auto.
  assert (x = y) as -> by lia. destruct (IH b) as [E|[E|E]]; auto. subst. auto.
Qed.

Lemma ltb_lex : forall a b, addr_ltb a b = true <->
  exists p x y s t, a = p ++ x :: s /\ b = p ++ y :: t /\ x < y.
Proof.
  induction a as [|x a IH]; intros [|y b]; cbn.
  - split; [discriminate|]. intros ([|? ?] & ? & ? & ? & ? & H & _); discriminate.
  - split; [discriminate|]. intros ([|? ?] & ? & ? & ? & ? & H & _); discriminate.
  - split; [discriminate|]. intros ([|? ?] & ? & ? & ? & ? & _ & H & _); discriminate.
  - destruct (N.ltb_spec x y).
    + split; auto. intros _. exists [], x, y, a, b. auto.
    + destruct (N.ltb_spec y x).
      * split; [discriminate|]. intros ([|q p] & u & v & s & t & E1 & E2 & L); cbn in E1, E2;
          injection E1 as -> ->; injection E2 as -> ->; lia.
      * assert (x = y) as -> by lia. split.
        -- intro E. apply IH in E as (p & u & v & s & t & -> & -> & L). exists (y :: p), u, v, s, t. auto.
        -- intros ([|q p] & u & v & s & t & E1 & E2 & L); cbn in E1, E2.
           ++ injection E1 as -> ->. injection E2 as -> ->. lia.
           ++ injection E1 as -> ->. injection E2 as E2. apply IH. exists p, u, v, s, t. auto.
Qed.

Lemma bool_zero : forall a, addr_bool a = false <-> a = repeat 0 16.
Proof.
  intro a. unfold addr_bool. rewrite negb_false_iff. apply list_eqb_eq.
Qed.
