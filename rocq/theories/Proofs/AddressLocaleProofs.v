From Coq Require Import String List NArith ZArith Bool Arith Lia.
From Verif Require Import Model.Base Model.Address Model.AddressLocale Spec.EndianSpec Spec.AddressSpec
  Spec.AddressFormSpec Spec.AddressLocaleSpec Proofs.AddressPrintProofs Proofs.AddressFormProofs.
Import ListNotations.
Local Open Scope N_scope.

(* ------------------------------------------------------------------ *)
(** * Numbers *)

Lemma grouped_length : forall n sep g ds, ds <> [] -> (length (grouped n sep g ds) <= 2 * length ds - 1)%nat.
Proof.
  induction n as [|n IH]; intros sep g ds D; cbn [grouped].
  - destruct ds; [congruence|cbn [length]; lia].
  - destruct g as [|k g'].
    + destruct ds; [congruence|cbn [length]; lia].
    + destruct (group_size k && Nat.ltb (N.to_nat k) (length ds)) eqn:E.
      * apply andb_prop in E as [K1 K2]. apply Nat.ltb_lt in K2.
        unfold group_size in K1. apply andb_prop in K1 as [K0 _]. apply N.ltb_lt in K0.
        rewrite app_length, firstn_length. cbn [length].
        assert (SK : length (skipn (N.to_nat k) ds) = (length ds - N.to_nat k)%nat) by apply skipn_length.
        assert (NE : skipn (N.to_nat k) ds <> []) by (intro X; rewrite X in SK; cbn in SK; lia).
        specialize (IH sep (match g' with [] => k :: g' | _ => g' end) _ NE). rewrite SK in IH. lia.
      * destruct ds; [congruence|cbn [length]; lia].
Qed.

Lemma grouped_none : forall n sep g ds, ungrouped g -> grouped n sep g ds = ds.
Proof.
  intros [|n] sep [|k g] ds U; try reflexivity. cbn [grouped]. cbn in U.
  assert (G : group_size k = false).
  { unfold group_size. destruct U as [-> |U]; [reflexivity|].
    replace (k <? 127) with false by (symmetry; apply N.ltb_ge; lia). apply andb_false_r. }
  rewrite G. reflexivity.
Qed.

Lemma grouped_short : forall n sep k g ds, (length ds <= N.to_nat k)%nat -> grouped n sep (k :: g) ds = ds.
Proof.
  intros [|n] sep k g ds L; [reflexivity|]. cbn [grouped].
  replace (Nat.ltb (N.to_nat k) (length ds)) with false by (symmetry; apply Nat.ltb_ge; lia).
  now rewrite andb_false_r.
Qed.

Lemma grouped_one : forall n sep g d, grouped n sep g [d] = [d].
Proof.
  intros [|n] sep [|k g] d; try reflexivity. cbn [grouped length].
  destruct (group_size k) eqn:G; [|reflexivity]. unfold group_size in G.
  apply andb_prop in G as [G _]. apply N.ltb_lt in G.
  replace (Nat.ltb (N.to_nat k) 1) with false by (symmetry; apply Nat.ltb_ge; lia). reflexivity.
Qed.

Lemma grouped_first : forall n sep g a b c d, grouped (S n) sep (3 :: g) [a; b; c; d] = [a; b; c; sep; d].
Proof.
  intros. cbn [grouped].
  change (group_size 3 && Nat.ltb (N.to_nat 3) (length [a; b; c; d])) with true. cbv iota.
  change (firstn (N.to_nat 3) [a; b; c; d]) with [a; b; c]. change (skipn (N.to_nat 3) [a; b; c; d]) with [d].
  rewrite grouped_one. reflexivity.
Qed.

Lemma grouped_four : forall sep g a b c d, grouped 4 sep (3 :: g) [a; b; c; d] = [a; b; c; sep; d].
Proof. intros. apply grouped_first. Qed.

Definition dress (f : style) (t : list N) : list N := if f_upper f then map raise t else t.

Lemma dress_length : forall f t, length (dress f t) = length t.
Proof. intros f t. unfold dress. destruct (f_upper f); [apply map_length|reflexivity]. Qed.

Lemma numeral_four : forall v, v < 65536 -> (length (numeral 16 4 v) = 4%nat <-> 4096 <= v) /\
  (v < 4096 -> (length (numeral 16 4 v) <= 3)%nat).
Proof.
  intros v V.
  assert (L : forall n v, length (numeral 16 (S n) v) =
    if v <? 16 then 1%nat else (length (numeral 16 n (v / 16)) + 1)%nat).
  { intros n w. cbn [numeral]. destruct (w <? 16); [reflexivity|]. rewrite app_length. reflexivity. }
  assert (E : length (numeral 16 4 v) = if v <? 16 then 1%nat else if v <? 256 then 2%nat else
              if v <? 4096 then 3%nat else 4%nat).
  { rewrite !L. change (length (numeral 16 0 (v / 16 / 16 / 16 / 16))) with 0%nat.
    rewrite !N.div_div by lia. change (16 * 16) with 256. change (16 * (16 * 16)) with 4096.
    destruct (N.ltb_spec v 16); [reflexivity|].
    destruct (N.ltb_spec v 256) as [H1|H1].
    - replace (v / 16 <? 16) with true; [reflexivity|]. symmetry. apply N.ltb_lt. apply N.div_lt_upper_bound; lia.
    - replace (v / 16 <? 16) with false.
      2:{ symmetry. apply N.ltb_ge. apply N.div_le_lower_bound; lia. }
      destruct (N.ltb_spec v 4096) as [H2|H2].
      + replace (v / 256 <? 16) with true; [reflexivity|]. symmetry. apply N.ltb_lt. apply N.div_lt_upper_bound; lia.
      + replace (v / 256 <? 16) with false.
        2:{ symmetry. apply N.ltb_ge. apply N.div_le_lower_bound; lia. }
        replace (v / (256 * 16) <? 16) with true; [reflexivity|].
        symmetry. apply N.ltb_lt. apply N.div_lt_upper_bound; lia. }
  rewrite E. destruct (N.ltb_spec v 16), (N.ltb_spec v 256), (N.ltb_spec v 4096); split; try split; intros; lia.
Qed.

(** Without grouping and base: the digits. *)
Lemma put_plain : forall f base n v, ungrouped (f_grouping f) -> f_showbase f = false ->
  put_num f base n v = dress f (numeral base n v).
Proof.
  intros f base n v U B. unfold put_num. rewrite B. cbn [andb]. cbv zeta.
  rewrite grouped_none by auto. apply rev_involutive.
Qed.

Lemma put_short : forall f base n v g, f_grouping f = 3 :: g -> f_showbase f = false ->
  (length (numeral base n v) <= 3)%nat -> put_num f base n v = dress f (numeral base n v).
Proof.
  intros f base n v g U B L. unfold put_num. rewrite B. cbn [andb]. cbv zeta. rewrite U.
  change (if f_upper f then map raise (numeral base n v) else numeral base n v)
    with (dress f (numeral base n v)).
  rewrite grouped_short; [apply rev_involutive|]. rewrite rev_length, dress_length. exact L.
Qed.

Lemma put_four_length : forall f v g, f_grouping f = 3 :: g -> f_showbase f = false ->
  length (numeral 16 4 v) = 4%nat -> length (put_num f 16 4 v) = 5%nat.
Proof.
  intros f v g U B L. unfold put_num. rewrite B. cbn [andb]. cbv zeta. rewrite U.
  change (if f_upper f then map raise (numeral 16 4 v) else numeral 16 4 v)
    with (dress f (numeral 16 4 v)).
  rewrite rev_length, dress_length, L.
  assert (R : length (rev (dress f (numeral 16 4 v))) = 4%nat) by (rewrite rev_length, dress_length; exact L).
  destruct (rev (dress f (numeral 16 4 v))) as [|a [|b [|c [|d [|e l]]]]]; try discriminate R.
  now rewrite grouped_four.
Qed.

Lemma put_length : forall f base n v, (1 <= n)%nat ->
  (length (put_num f base n v) <= 2 * n - 1 + if (base =? 16)%N then 2 else 0)%nat.
Proof.
  intros f base n v N1. unfold put_num. cbv zeta.
  set (ds := if f_upper f then map raise (numeral base n v) else numeral base n v).
  assert (D : length ds = length (numeral base n v)) by apply (dress_length f).
  pose proof (numeral_length base n v) as L.
  assert (NE : ds <> []).
  { intro X. rewrite X in D. symmetry in D. apply length_zero_iff_nil in D.
    destruct n as [|n]; [lia|]. now apply numeral_nonempty in D. }
  assert (R : (length (rev (grouped (length ds) (f_sep f) (f_grouping f) (rev ds))) <= 2 * n - 1)%nat).
  { rewrite rev_length. eapply Nat.le_trans; [apply grouped_length|].
    - intro X. apply (f_equal (@rev N)) in X. rewrite rev_involutive in X. now apply NE.
    - rewrite rev_length, D. lia. }
  destruct (base =? 16); [|rewrite andb_false_r; cbn [andb]; lia].
  destruct (f_showbase f && true && negb (v =? 0)); [|lia].
  cbn [app length]. lia.
Qed.

(* ------------------------------------------------------------------ *)
(** * The two forms *)

Lemma put_mapped : forall f a, is_address a -> mapped a ->
  put_address f a = let t := [58; 58] ++ put_num f 16 4 65535 ++ [58] ++ put_quad f (skipn 12 a) in
                    (t, (length t - 1)%nat).
Proof.
  intros f a [L B] M. unfold mapped in M.
  do 16 (destruct a as [|? a]; [discriminate L|]). destruct a; [|discriminate L].
  cbn in M. injection M as -> -> -> -> -> -> -> -> -> -> -> ->.
  unfold put_address. cbn [groups].
  assert (ZR : forall b1 b2 : bool, zero_run 0 [true; true; true; true; true; false; b1; b2] None None = Some (0, 4)%nat)
    by (intros [] []; reflexivity).
  cbn [map]. change (0 * 256 + 0 =? 0) with true. change (255 * 256 + 255 =? 0) with false.
  rewrite ZR. cbn [nth skipn]. change (255 * 256 + 255 =? 65535) with true. cbv iota.
  reflexivity.
Qed.

Lemma put_unmapped : forall f a, is_address a -> ~ mapped a ->
  put_address f a =
    let t := put_groups f 0 (groups a) (zero_run 0 (map (fun g => g =? 0) (groups a)) None None) in (t, length t).
Proof.
  intros f a [L B] M. unfold put_address. cbv zeta.
  destruct (zero_run 0 (map (fun g => g =? 0) (groups a)) None None) as [[x y]|] eqn:ZR; [|reflexivity].
  destruct x as [|x]; [|reflexivity]. destruct y as [|[|[|[|[|y]]]]]; try reflexivity.
  destruct (N.eqb_spec (nth 5 (groups a) 0) 65535) as [F5|F5]; [|reflexivity]. exfalso. apply M.
  destruct (groups_bytes 8 a) as (G1 & G2 & G3); auto.
  destruct (zero_run_ok _ _ _ (eq_trans (zero_len _) G2) ZR) as (X & Y & Z).
  apply slice_zeros in Z; [|lia].
  do 16 (destruct a as [|? a]; [discriminate L|]). destruct a; [|discriminate L].
  unfold bytes_ok, is_byte in B.
  do 16 (pose proof (Forall_inv B); apply Forall_inv_tail in B; cbv beta in *).
  cbn [groups] in Z, F5. cbn [nth firstn skipn Nat.sub repeat] in Z, F5.
  unfold slice in Z. cbn [firstn skipn Nat.sub repeat] in Z.
  injection Z as Z1 Z2 Z3 Z4 Z5. unfold is_byte in *.
  assert (n9 = 255 /\ n10 = 255) as [-> ->] by lia.
  assert (n = 0 /\ n0 = 0 /\ n1 = 0 /\ n2 = 0 /\ n3 = 0 /\ n4 = 0 /\ n5 = 0 /\ n6 = 0 /\ n7 = 0 /\ n8 = 0)
    as (-> & -> & -> & -> & -> & -> & -> & -> & -> & ->) by lia.
  reflexivity.
Qed.

Lemma dress_app : forall f a b, dress f (a ++ b) = dress f a ++ dress f b.
Proof. intros f a b. unfold dress. destruct (f_upper f); [apply map_app|reflexivity]. Qed.

Lemma dress_mark : forall f (b : bool) c, raise c = c -> dress f (if b then [c] else []) = if b then [c] else [].
Proof. intros f [] c R; unfold dress; destruct (f_upper f); cbn; congruence. Qed.

Lemma groups_same : forall f gs i s, Forall (fun g => put_num f 16 4 g = dress f (numeral 16 4 g)) gs ->
  put_groups f i gs s = dress f (print_groups i gs s).
Proof.
  intros f gs. induction gs as [|g gs IH]; intros i s F.
  - cbn. unfold dress. now destruct (f_upper f).
  - cbn [put_groups print_groups]. rewrite dress_app, <- IH by (now apply Forall_inv_tail in F).
    f_equal. rewrite (Forall_inv F).
    destruct (match s with None => false | Some (x, y) => Nat.leb x i && Nat.leb i y end);
      rewrite dress_app, ?dress_mark by reflexivity; reflexivity.
Qed.

Lemma quad_same : forall f bs, bs <> [] -> Forall (fun b => put_num f 10 3 b = dress f (numeral 10 3 b)) bs ->
  put_quad f bs = dress f (print_quad bs) ++ [46].
Proof.
  intros f bs. induction bs as [|b bs IH]; intros NE F; [congruence|].
  unfold put_quad in *. cbn [flat_map print_quad]. rewrite (Forall_inv F).
  destruct bs as [|b' bs].
  - cbn [flat_map]. now rewrite app_nil_r.
  - rewrite IH by (try discriminate; now apply Forall_inv_tail in F).
    rewrite !dress_app. rewrite <- !app_assoc. f_equal.
    assert (D : dress f [46] = [46]) by (unfold dress; destruct (f_upper f); reflexivity).
    rewrite D. reflexivity.
Qed.

(* ------------------------------------------------------------------ *)
(** * Statements *)

Lemma firstn_less : forall (t : list N) c, firstn (length (t ++ [c]) - 1) (t ++ [c]) = t.
Proof.
  intros t c. rewrite app_length. cbn [length]. replace (length t + 1 - 1)%nat with (length t + 0)%nat by lia.
  rewrite firstn_app_2. cbn. apply app_nil_r.
Qed.

Lemma show_same : forall f a, is_address a ->
  (mapped a -> put_num f 16 4 65535 = dress f (numeral 16 4 65535) /\
     Forall (fun b => put_num f 10 3 b = dress f (numeral 10 3 b)) (skipn 12 a)) ->
  (~ mapped a -> Forall (fun g => put_num f 16 4 g = dress f (numeral 16 4 g)) (groups a)) ->
  show f a = Val (dress f (print a)).
Proof.
  intros f a A M1 M2. pose proof (print_fits a A) as PF. unfold show, bufferSize.
  destruct (mapped_dec a) as [M|M].
  - rewrite (put_mapped f a A M). cbv zeta. destruct (M1 M) as [P1 P2].
    destruct (mapped_text a A M) as [E _].
    assert (NE : skipn 12 a <> []).
    { intro X. apply (f_equal (@length N)) in X. rewrite skipn_length in X. destruct A as [L _].
      rewrite L in X. discriminate. }
    rewrite quad_same by auto. rewrite P1.
    assert (T : [58; 58] ++ dress f (numeral 16 4 65535) ++ [58] ++ dress f (print_quad (skipn 12 a)) ++ [46]
                = dress f (print a) ++ [46]).
    { rewrite E. change [58; 58; 102; 102; 102; 102; 58] with ([58; 58] ++ numeral 16 4 65535 ++ [58]).
      rewrite !dress_app.
      replace (dress f [58; 58]) with [58; 58] by (unfold dress; destruct (f_upper f); reflexivity).
      replace (dress f [58]) with [58] by (unfold dress; destruct (f_upper f); reflexivity).
      rewrite <- !app_assoc. reflexivity. }
    rewrite T. rewrite firstn_less.
    replace (Nat.leb (length (dress f (print a) ++ [46])) 40) with true; [reflexivity|].
    symmetry. apply Nat.leb_le. rewrite app_length, dress_length. cbn [length]. exact PF.
  - rewrite (put_unmapped f a A M). cbv zeta. rewrite groups_same by auto.
    rewrite <- (unmapped_print a A M). rewrite firstn_all.
    replace (Nat.leb (length (dress f (print a))) 40) with true; [reflexivity|].
    symmetry. apply Nat.leb_le. rewrite dress_length. lia.
Qed.

Lemma raise_digit : forall base c d, base <= 16 -> digit base c d -> digit base (raise c) d.
Proof.
  intros base c d BB D. destruct D as [d H1 H2|d H1 H2|d H1 H2]; unfold raise.
  - replace ((97 <=? 48 + d) && (48 + d <=? 102)) with false; [now constructor|].
    symmetry. apply andb_false_iff. left. apply N.leb_gt. lia.
  - replace ((97 <=? 65 + (d - 10)) && (65 + (d - 10) <=? 102)) with false; [now constructor|].
    symmetry. apply andb_false_iff. left. apply N.leb_gt. lia.
  - replace ((97 <=? 97 + (d - 10)) && (97 + (d - 10) <=? 102)) with true.
    2:{ symmetry. apply andb_true_iff. split; apply N.leb_le; lia. }
    replace (97 + (d - 10) - 32) with (65 + (d - 10)) by lia. now constructor.
Qed.

Lemma raise_numeral : forall base t v, base <= 16 -> numeral_of base t v -> numeral_of base (map raise t) v.
Proof.
  intros base t v B H. induction H as [c d D|t v c d H IH D].
  - cbn [map]. constructor. now apply raise_digit.
  - rewrite map_app. cbn [map]. constructor; auto. now apply raise_digit.
Qed.

Lemma raise_group : forall t bs, group_text t bs -> group_text (map raise t) bs.
Proof.
  intros t bs (L & v & H & E). split; [now rewrite map_length|]. exists v. split; auto.
  apply raise_numeral; [lia|auto].
Qed.

Lemma raise_octet : forall t v, octet_text t v -> octet_text (map raise t) v.
Proof.
  intros t v (L & H & B). split; [now rewrite map_length|]. split; auto. apply raise_numeral; [lia|auto].
Qed.

Lemma raise_quad : forall t bs, quad_text t bs -> quad_text (map raise t) bs.
Proof.
  intros t bs (t1 & t2 & t3 & t4 & v1 & v2 & v3 & v4 & H1 & H2 & H3 & H4 & -> & ->).
  exists (map raise t1), (map raise t2), (map raise t3), (map raise t4), v1, v2, v3, v4.
  repeat (split; [now apply raise_octet|]). split; [|reflexivity]. now rewrite !map_app.
Qed.

Lemma raise_pieces : forall t bs, pieces_text t bs -> pieces_text (map raise t) bs.
Proof.
  intros t bs H. induction H as [t bs H|t bs H|t bs t' bs' H H' IH].
  - apply pt_group. now apply raise_group.
  - apply pt_quad. now apply raise_quad.
  - rewrite !map_app. change (map raise [58]) with [58]. apply pt_more; auto. now apply raise_group.
Qed.

Lemma raise_dot : forall t, In 46 (map raise t) -> In 46 t.
Proof.
  intros t I. apply in_map_iff in I as (c & E & I). unfold raise in E.
  destruct ((97 <=? c) && (c <=? 102)) eqn:X; [|now subst].
  apply andb_prop in X as [X1 X2]. apply N.leb_le in X1. apply N.leb_le in X2. lia.
Qed.

Lemma raise_text : forall t a, address_text t a -> address_text (map raise t) a.
Proof.
  intros t a H. destruct H as [t bs H L|t1 b1 t2 b2 n G1 G2 L N2|t bs H].
  - apply at_full; auto. now apply raise_pieces.
  - rewrite !map_app. change (map raise [58; 58]) with [58; 58]. apply at_gap; auto.
    + destruct G1 as [|t bs P D]; [constructor|]. constructor; [now apply raise_pieces|].
      intro I. apply D. now apply raise_dot.
    + destruct G2 as [[-> ->]|P]; [left; auto|right; now apply raise_pieces].
  - apply at_quad. now apply raise_quad.
Qed.

Lemma plain_all : forall f a, is_address a -> ungrouped (f_grouping f) -> f_showbase f = false ->
  exists t, show f a = Val t /\ address_text t a /\ (f_upper f = false -> t = print a).
Proof.
  intros f a A U B. exists (dress f (print a)). split; [|split].
  - apply show_same; auto.
    + intros _. split; [now apply put_plain|]. apply Forall_forall. intros. now apply put_plain.
    + intros _. apply Forall_forall. intros. now apply put_plain.
  - destruct (print_text a A) as [T _]. unfold dress. destruct (f_upper f); [now apply raise_text|exact T].
  - intro X. unfold dress. now rewrite X.
Qed.

Lemma mapped_defined : forall f a, is_address a -> mapped a -> exists t, show f a = Val t.
Proof.
  intros f a A M. unfold show. rewrite (put_mapped f a A M). cbv zeta.
  assert (L : (length ([58%N; 58%N] ++ put_num f 16 4 65535%N ++ [58%N] ++ put_quad f (skipn 12 a)) <= 40)%nat).
  { destruct A as [L _]. do 16 (destruct a as [|? a]; [discriminate L|]). destruct a; [|discriminate L].
    cbn [skipn]. unfold put_quad. cbn [flat_map]. rewrite !app_length. cbn [length].
    pose proof (put_length f 16 4 65535 ltac:(lia)) as H0. cbn in H0.
    pose proof (put_length f 10 3 n11 ltac:(lia)) as H1. pose proof (put_length f 10 3 n12 ltac:(lia)) as H2.
    pose proof (put_length f 10 3 n13 ltac:(lia)) as H3. pose proof (put_length f 10 3 n14 ltac:(lia)) as H4.
    change (10 =? 16) with false in *. cbv iota in *. lia. }
  unfold bufferSize. apply Nat.leb_le in L. rewrite L. eauto.
Qed.

Definition extra (w : N) : nat := if 4096 <=? w then 1%nat else 0%nat.

Lemma groups_longer : forall f g gs i s, f_grouping f = 3 :: g -> f_showbase f = false ->
  Forall (fun w => w < 65536) gs ->
  (forall j, match s with None => false | Some (x, y) => Nat.leb x (i + j) && Nat.leb (i + j) y end = true ->
     nth j gs 0 = 0) ->
  (length (put_groups f i gs s) = length (print_groups i gs s) + length (filter (fun w => (4096 <=? w)%N) gs))%nat.
Proof.
  intros f g gs. induction gs as [|w gs IH]; intros i s G B F Z; [reflexivity|].
  cbn [put_groups print_groups filter]. rewrite !app_length.
  rewrite IH; [|auto|auto|now apply Forall_inv_tail in F|].
  2:{ intros j J. apply (Z (S j)). now replace (i + S j)%nat with (S i + j)%nat by lia. }
  pose proof (Forall_inv F) as W. cbv beta in W.
  specialize (Z 0%nat). rewrite Nat.add_0_r in Z. cbn [nth] in Z.
  destruct (match s with None => false | Some (x, y) => Nat.leb x i && Nat.leb i y end).
  - rewrite (Z eq_refl). cbn. lia.
  - rewrite !app_length.
    destruct (numeral_four w W) as [N1 N2].
    destruct (N.leb_spec 4096 w) as [H|H].
    + apply N1 in H. rewrite (put_four_length f w g) by auto. rewrite H. cbn [length]. lia.
    + rewrite (put_short f 16 4 w g) by (auto; now apply N2). rewrite dress_length. lia.
Qed.

Lemma run_zero : forall gs, length gs = 8%nat -> forall j,
  match zero_run 0 (map (fun g => g =? 0) gs) None None with
  | None => false | Some (x, y) => Nat.leb x (0 + j) && Nat.leb (0 + j) y end = true -> nth j gs 0 = 0.
Proof.
  intros gs L j H. destruct (zero_run 0 (map (fun g => g =? 0) gs) None None) as [[x y]|] eqn:ZR; [|discriminate].
  apply andb_prop in H as [H1 H2]. apply Nat.leb_le in H1. apply Nat.leb_le in H2.
  destruct (zero_run_best _ _ _ (eq_trans (zero_len gs) L) ZR) as (X & Z & _).
  apply zeros_zb in Z. destruct Z as (_ & Z2 & Z3).
  rewrite (nth_indep gs 0 1) by lia. apply Z3; lia.
Qed.

Lemma thousands_iff : forall f g a, is_address a -> f_grouping f = 3 :: g -> f_showbase f = false ->
  (show f a = UB <-> ~ mapped a /\ (40 < length (print a) + long_words a)%nat).
Proof.
  intros f g a A G B. destruct (mapped_dec a) as [M|M].
  - destruct (mapped_defined f a A M) as [t ->]. split; [discriminate|]. intros [X _]. now exfalso.
  - destruct (words_small a A) as [S8 L8]. destruct A as [LA BA]. assert (A : is_address a) by now split.
    unfold show, bufferSize. rewrite (put_unmapped f a A M). cbv zeta.
    rewrite <- (words_groups 8 a LA).
    rewrite (groups_longer f g) by (auto; now apply run_zero).
    rewrite (words_groups 8 a LA), <- (unmapped_print a A M), <- (words_groups 8 a LA).
    fold (long_words a).
    destruct (Nat.leb_spec (length (print a) + long_words a) 40) as [H|H].
    + split; [discriminate|lia].
    + split; [auto|reflexivity].
Qed.

Lemma no_long : forall ws, length (filter (fun w => (4096 <=? w)%N) ws) = 0%nat -> Forall (fun w => w < 4096) ws.
Proof.
  induction ws as [|w ws IH]; intro H; [constructor|]. cbn [filter] in H.
  destruct (N.leb_spec 4096 w); [discriminate|]. constructor; auto.
Qed.

Lemma thousands_same : forall f g a, is_address a -> f_grouping f = 3 :: g -> f_showbase f = false ->
  f_upper f = false -> ~ mapped a -> long_words a = 0%nat -> show f a = Val (print a).
Proof.
  intros f g a A G B U M Z. rewrite (show_same f a A); [unfold dress; now rewrite U|now intros| ].
  intros _. destruct A as [LA BA]. rewrite <- (words_groups 8 a LA). apply no_long in Z.
  revert Z. apply Forall_impl. intros w W. apply (put_short f 16 4 w g); auto. apply numeral_four; lia.
Qed.

Lemma octets_short : forall f g bs, f_grouping f = 3 :: g -> f_showbase f = false ->
  Forall (fun b => put_num f 10 3 b = dress f (numeral 10 3 b)) bs.
Proof.
  intros f g bs G B. apply Forall_forall. intros b _. apply (put_short f 10 3 b g); auto. apply numeral_length.
Qed.

Lemma hex_chars : forall base t v, base <= 16 -> numeral_of base t v -> forall c, In c t -> exists d, digit 16 c d.
Proof.
  intros base t v B H.
  assert (W : forall c d, digit base c d -> digit 16 c d).
  { intros c d D. destruct D; constructor; lia. }
  induction H as [c d D|t v c d H IH D]; intros x I.
  - destruct I as [<- |[]]. exists d. auto.
  - apply in_app_or in I as [I|[<- |[]]]; [now apply IH|]. exists d. auto.
Qed.

Lemma foreign_group : forall t bs c, group_text t bs -> foreign c -> ~ In c t.
Proof.
  intros t bs c (_ & v & H & _) (_ & _ & X) I. destruct (hex_chars 16 t v ltac:(lia) H c I) as [d D]. now apply (X d).
Qed.

Lemma foreign_octet : forall t v c, octet_text t v -> foreign c -> ~ In c t.
Proof.
  intros t v c (_ & H & _) (_ & _ & X) I. destruct (hex_chars 10 t v ltac:(lia) H c I) as [d D]. now apply (X d).
Qed.

Lemma foreign_quad : forall t bs c, quad_text t bs -> foreign c -> ~ In c t.
Proof.
  intros t bs c (t1 & t2 & t3 & t4 & v1 & v2 & v3 & v4 & H1 & H2 & H3 & H4 & -> & _) F I.
  pose proof (foreign_octet _ _ _ H1 F). pose proof (foreign_octet _ _ _ H2 F).
  pose proof (foreign_octet _ _ _ H3 F). pose proof (foreign_octet _ _ _ H4 F).
  destruct F as (_ & D & _). rewrite !in_app_iff in I. cbn [In] in I. intuition congruence.
Qed.

Lemma foreign_pieces : forall t bs c, pieces_text t bs -> foreign c -> ~ In c t.
Proof.
  intros t bs c H F. induction H as [t bs H|t bs H|t bs t' bs' H H' IH].
  - now apply (foreign_group t bs).
  - now apply (foreign_quad t bs).
  - pose proof (foreign_group _ _ _ H F). destruct F as (D & _ & _). rewrite !in_app_iff. cbn [In].
    intuition congruence.
Qed.

Lemma foreign_text : forall t a c, address_text t a -> foreign c -> ~ In c t.
Proof.
  intros t a c H F. destruct H as [t bs H L|t1 b1 t2 b2 n G1 G2 L N2|t bs H].
  - now apply (foreign_pieces t bs).
  - rewrite !in_app_iff. cbn [In]. intros [I|[I|I]].
    + destruct G1 as [|t bs P D]; [exact I|]. now apply (foreign_pieces _ _ c P F).
    + destruct F as (D & _ & _). intuition congruence.
    + destruct G2 as [[-> ->]|P]; [exact I|]. now apply (foreign_pieces _ _ c P F).
  - now apply (foreign_quad t bs).
Qed.

Lemma locale_style : forall known wide name g sep, known (name ++ codepage wide) = Some (g, sep) ->
  setLocale known wide name = mkStyle g sep false false.
Proof.
  intros known wide name g sep K. unfold setLocale.
  replace (if wide then lit ".UTF-8" else []) with (codepage wide) by (destruct wide; reflexivity).
  now rewrite K.
Qed.

Lemma unknown_locale : forall known wide name a, is_address a -> known (name ++ codepage wide) = None ->
  show (setLocale known wide name) a = Val (print a).
Proof.
  intros known wide name a A K. unfold setLocale.
  replace (if wide then lit ".UTF-8" else []) with (codepage wide) by (destruct wide; reflexivity).
  rewrite K. destruct (plain_all classic a A) as (t & S & _ & E); [exact I|reflexivity|].
  rewrite S. now rewrite E.
Qed.

Lemma mapped_thousands : forall known wide name g sep a, is_address a -> mapped a ->
  known (name ++ codepage wide) = Some (3 :: g, sep) ->
  exists q, quad_form q (skipn 12 a) /\
    show (setLocale known wide name) a = Val ([58; 58; 102] ++ [sep] ++ [102; 102; 102; 58] ++ q) /\
    (foreign sep -> forall b, ~ address_text ([58; 58; 102] ++ [sep] ++ [102; 102; 102; 58] ++ q) b).
Proof.
  intros known wide name g sep a A M K. rewrite (locale_style _ _ _ _ _ K).
  exists (print_quad (skipn 12 a)). split; [now apply mapped_text|]. split.
  - set (f := mkStyle (3 :: g) sep false false). unfold show.
    destruct (mapped_defined f a A M) as [t T]. unfold show in T.
    rewrite (put_mapped f a A M) in *. cbv zeta in *.
    assert (P : put_num f 16 4 65535 = [102; sep; 102; 102; 102]).
    { unfold put_num. change (numeral 16 4 65535) with [102; 102; 102; 102].
      cbn [f_upper f_showbase f_sep f_grouping f andb]. cbv zeta.
      change (rev [102; 102; 102; 102]) with [102; 102; 102; 102].
      change (length [102; 102; 102; 102]) with 4%nat. rewrite grouped_four. reflexivity. }
    assert (Q : put_quad f (skipn 12 a) = print_quad (skipn 12 a) ++ [46]).
    { rewrite quad_same; [reflexivity| |now apply (octets_short f g)].
      intro X. apply (f_equal (@length N)) in X. rewrite skipn_length in X. destruct A as [L _].
      rewrite L in X. discriminate. }
    rewrite P, Q in *.
    assert (E : [58; 58] ++ [102; sep; 102; 102; 102] ++ [58] ++ print_quad (skipn 12 a) ++ [46]
              = ([58; 58; 102] ++ [sep] ++ [102; 102; 102; 58] ++ print_quad (skipn 12 a)) ++ [46])
      by (rewrite <- !app_assoc; reflexivity).
    rewrite E in *. rewrite firstn_less in *.
    destruct (Nat.leb _ bufferSize); [reflexivity|discriminate].
  - intros F b T. apply (foreign_text _ _ sep T F). apply in_or_app. right. left. reflexivity.
Qed.

Lemma comma_foreign : foreign 44.
Proof. split; [discriminate|]. split; [discriminate|]. intros d D. remember 44 as c. destruct D; lia. Qed.

(** 2001:1db8:1111:2222:3333:4444:5555:6666 *)
Definition long6 : list N :=
  [0x20; 0x01; 0x1d; 0xb8; 0x11; 0x11; 0x22; 0x22; 0x33; 0x33; 0x44; 0x44; 0x55; 0x55; 0x66; 0x66].

Lemma overflow_witness : exists a, is_address a /\
  forall known wide name g sep, known (name ++ codepage wide) = Some (3 :: g, sep) ->
    show (setLocale known wide name) a = UB.
Proof.
  exists long6. assert (A : is_address long6) by now apply addr_ok. split; [exact A|].
  intros known wide name g sep K. rewrite (locale_style _ _ _ _ _ K).
  apply (thousands_iff _ g); [exact A|reflexivity|reflexivity|].
  split; [vm_compute; discriminate|vm_compute; lia].
Qed.

Lemma showbase_witness : exists a, is_address a /\ show (mkStyle [] 44 true false) a = UB.
Proof. exists long6. split; [now apply addr_ok|reflexivity]. Qed.
