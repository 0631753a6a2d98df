(** Proofs about addresses. *)
From Coq Require Import String List NArith ZArith Bool Arith Lia.
From Verif Require Import Model.Base Model.WebMaps Model.HttpCodec Model.Address
  Spec.EndianSpec Spec.AddressSpec Proofs.Arith.
Import ListNotations.
Local Open Scope N_scope.

(* ------------------------------------------------------------------ *)
(** * Digits and numerals *)

(** Value of a hexadecimal digit character. *)
Definition hv (c : N) : N := match hex_offset c with Some o => c - o | None => 0 end.
Definition hexd (c : N) : Prop := (exists o, hex_offset c = Some o /\ c - o < 16) /\ c <> 58 /\ c <> 46.
Definition decd (c : N) : Prop := 48 <= c <= 57.

Lemma digit_hexd : forall c d, digit 16 c d -> hexd c /\ hv c = d.
Proof.
  intros c d H.
  assert (D : d < 16) by (destruct H; assumption).
  unfold hexd, hv, hex_offset.
  destruct H as [d L1 L2|d L1 L2|d L1 L2].
  - replace ((48 <=? 48 + d) && (48 + d <=? 57)) with true
      by (symmetry; apply andb_true_intro; split; apply N.leb_le; lia).
    split; [|lia]. split; [|lia]. eexists. split; [reflexivity|lia].
  - replace ((48 <=? 65 + (d - 10)) && (65 + (d - 10) <=? 57)) with false
      by (symmetry; apply andb_false_iff; right; apply N.leb_gt; lia).
    replace ((65 <=? 65 + (d - 10)) && (65 + (d - 10) <=? 70)) with true
      by (symmetry; apply andb_true_intro; split; apply N.leb_le; lia).
    split; [|lia]. split; [|lia]. eexists. split; [reflexivity|lia].
  - replace ((48 <=? 97 + (d - 10)) && (97 + (d - 10) <=? 57)) with false
      by (symmetry; apply andb_false_iff; right; apply N.leb_gt; lia).
    replace ((65 <=? 97 + (d - 10)) && (97 + (d - 10) <=? 70)) with false
      by (symmetry; apply andb_false_iff; right; apply N.leb_gt; lia).
    replace ((97 <=? 97 + (d - 10)) && (97 + (d - 10) <=? 102)) with true
      by (symmetry; apply andb_true_intro; split; apply N.leb_le; lia).
    split; [|lia]. split; [|lia]. eexists. split; [reflexivity|lia].
Qed.

Definition hexval (t : list N) (acc : N) : N := fold_left (fun a c => a * 16 + hv c) t acc.
Definition decval (t : list N) (acc : N) : N := fold_left (fun a c => a * 10 + (c - 48)) t acc.

Lemma numeral_hex : forall t v, numeral_of 16 t v -> t <> [] /\ Forall hexd t /\ hexval t 0 = v.
Proof.
  intros t v H. induction H as [c d D|t v c d H (N1 & F & V) D].
  - destruct (digit_hexd _ _ D) as [A B]. split; [discriminate|]. split; [repeat constructor; auto; apply A|].
    cbn. lia.
  - destruct (digit_hexd _ _ D) as [A B]. split; [now destruct t|]. split.
    + apply Forall_app. split; auto.
    + unfold hexval in *. rewrite fold_left_app. cbn. rewrite V, B. reflexivity.
Qed.

Lemma digit_dec : forall c d, digit 10 c d -> decd c /\ c - 48 = d.
Proof. intros c d H. destruct H; unfold decd; lia. Qed.

Lemma numeral_dec : forall t v, numeral_of 10 t v -> t <> [] /\ Forall decd t /\ decval t 0 = v.
Proof.
  intros t v H. induction H as [c d D|t v c d H (N1 & F & V) D].
  - destruct (digit_dec _ _ D) as [A B]. split; [discriminate|]. split; [repeat constructor; apply A|].
    cbn. lia.
  - destruct (digit_dec _ _ D) as [A B]. split; [now destruct t|]. split.
    + apply Forall_app. split; auto.
    + unfold decval in *. rewrite fold_left_app. cbn. rewrite V, B. reflexivity.
Qed.

Lemma decd_hexd : forall c, decd c -> hexd c /\ hv c = c - 48.
Proof.
  intros c H. unfold decd in H. unfold hexd, hv, hex_offset.
  replace ((48 <=? c) && (c <=? 57)) with true
    by (symmetry; apply andb_true_intro; split; apply N.leb_le; lia).
  split; [|reflexivity]. split; [|lia]. eexists. split; [reflexivity|lia].
Qed.

Lemma hv_lt : forall c, hexd c -> hv c < 16.
Proof. intros c ((o & E & L) & _). unfold hv. now rewrite E. Qed.

Lemma hexval_bound : forall t a, Forall hexd t -> hexval t a < (a + 1) * 16 ^ N.of_nat (length t).
Proof.
  induction t as [|c t IH]; intros a H; cbn [hexval fold_left length].
  - cbn. lia.
  - inversion H; subst. fold (hexval t (a * 16 + hv c)).
    specialize (IH (a * 16 + hv c) H3). pose proof (hv_lt c H2).
    rewrite Nnat.Nat2N.inj_succ, N.pow_succ_r'.
    eapply N.lt_le_trans; [exact IH|].
    rewrite N.mul_assoc. apply N.mul_le_mono_r. lia.
Qed.

Lemma chunk_push_ok : forall chunk c o, chunk < 4096 -> hex_offset c = Some o -> c - o < 16 ->
  chunk_push chunk c o = chunk * 16 + hv c.
Proof.
  intros chunk c o L E D. unfold chunk_push, hv. rewrite E.
  rewrite trunc_small.
  - rewrite N.shiftl_mul_pow2. apply (lor_add 4). exact D.
  - rewrite N.shiftl_mul_pow2. change (2 ^ 4) with 16. change (2 ^ 16) with 65536. lia.
Qed.

(** The two bytes stored for a group. *)
Lemma group_bytes : forall v, v < 65536 ->
  [N.shiftr (N.land v 0xff00) 8; N.land v 0x00ff] = be_digits 2 v.
Proof.
  intros v H. cbn [be_digits app]. 
  rewrite N.shiftr_land. change (N.shiftr 65280 8) with (N.ones 8). change 255 with (N.ones 8).
  rewrite !N.land_ones, N.shiftr_div_pow2. change (2 ^ 8) with 256. reflexivity.
Qed.

(** The first octet of a quad, for every one to three decimal digits. *)
Definition nat_digits : list N := map N.of_nat (seq 0 10).
Lemma digit_in : forall c, decd c -> In (c - 48) nat_digits /\ c = 48 + (c - 48).
Proof.
  intros c H. unfold decd in H. split; [|lia]. unfold nat_digits.
  apply in_map_iff. exists (N.to_nat (c - 48)). split; [apply Nnat.N2Nat.id|]. apply in_seq. lia.
Qed.

Lemma quad_first_ok : forall t, Forall decd t -> t <> [] -> (length t <= 3)%nat -> decval t 0 < 256 ->
  quad_first (hexval t 0) = decval t 0.
Proof.
  intros t F NE L V.
  assert (K1 : forallb (fun a => quad_first a =? a) nat_digits = true) by (vm_compute; reflexivity).
  assert (K2 : forallb (fun a => forallb (fun b => quad_first (a * 16 + b) =? a * 10 + b) nat_digits) nat_digits = true)
    by (vm_compute; reflexivity).
  assert (K3 : forallb (fun a => forallb (fun b => forallb (fun c =>
     (256 <=? (a * 10 + b) * 10 + c) || (quad_first ((a * 16 + b) * 16 + c) =? (a * 10 + b) * 10 + c))
       nat_digits) nat_digits) nat_digits = true)
    by (vm_compute; reflexivity).
  rewrite forallb_forall in K1, K2, K3.
  assert (Q : forall c, decd c -> exists d, In d nat_digits /\ hv c = d /\ c - 48 = d).
  { intros c H. exists (c - 48). destruct (digit_in c H) as [I _]. destruct (decd_hexd c H) as [_ A]. auto. }
  unfold hexval, decval in *.
  destruct t as [|x [|y [|z [|w t]]]]; [congruence| | | |cbn in L; lia].
  - inversion F as [|? ? X F1]; subst. destruct (Q x X) as (a & Ia & A1 & A2).
    cbn [fold_left] in *. rewrite A1, A2. specialize (K1 _ Ia). apply N.eqb_eq in K1. exact K1.
  - inversion F as [|? ? X F1]; subst. inversion F1 as [|? ? Y F2]; subst.
    destruct (Q x X) as (a & Ia & A1 & A2). destruct (Q y Y) as (b & Ib & B1 & B2).
    cbn [fold_left] in *. rewrite A1, A2, B1, B2. specialize (K2 _ Ia).
    rewrite forallb_forall in K2. specialize (K2 _ Ib). apply N.eqb_eq in K2. exact K2.
  - inversion F as [|? ? X F1]; subst. inversion F1 as [|? ? Y F2]; subst. inversion F2 as [|? ? Z F3]; subst.
    destruct (Q x X) as (a & Ia & A1 & A2). destruct (Q y Y) as (b & Ib & B1 & B2).
    destruct (Q z Z) as (c & Ic & C1 & C2).
    cbn [fold_left] in *. rewrite A1, B1, C1. rewrite A2, B2, C2 in *. specialize (K3 _ Ia).
    rewrite forallb_forall in K3. specialize (K3 _ Ib). rewrite forallb_forall in K3. specialize (K3 _ Ic).
    apply orb_prop in K3 as [K3|K3].
    + apply N.leb_le in K3. change (0 * 10 + a) with a in V. lia.
    + apply N.eqb_eq in K3. exact K3.
Qed.

(* ------------------------------------------------------------------ *)
(** * Memory *)

Lemma rd_at : forall (p : list N) c rest, rd (p ++ c :: rest) (length p) = Some c.
Proof. intros. unfold rd. rewrite nth_error_app2, Nat.sub_diag; auto. Qed.

Lemma rd_in : forall (p t : list N) rest c t', t = c :: t' -> rd (p ++ t ++ rest) (length p) = Some c.
Proof. intros. subst. cbn [app]. apply rd_at. Qed.

Lemma wr_at : forall (d : list N) x junk v, wr (d ++ x :: junk) (length d) v = Some (d ++ v :: junk).
Proof. induction d; intros; cbn; auto. now rewrite IHd. Qed.

Lemma wr2 : forall (d : list N) x y junk u v,
  exists d1, wr (d ++ x :: y :: junk) (length d) u = Some d1 /\
    wr d1 (S (length d)) v = Some (d ++ [u; v] ++ junk).
Proof.
  intros. exists (d ++ u :: y :: junk). split; [apply wr_at|].
  replace (d ++ u :: y :: junk) with ((d ++ [u]) ++ y :: junk) by now rewrite <- app_assoc.
  replace (S (length d)) with (length (d ++ [u])) by (rewrite app_length; cbn; lia).
  rewrite wr_at. now rewrite <- app_assoc.
Qed.

Lemma last_char : forall (p t rest : list N), t <> [] ->
  exists t0 c, t = t0 ++ [c] /\ rd (p ++ t ++ rest) (length (p ++ t) - 1) = Some c.
Proof.
  intros p t rest NE. destruct (exists_last NE) as (t0 & c & ->). exists t0, c. split; auto.
  replace (p ++ (t0 ++ [c]) ++ rest) with ((p ++ t0) ++ c :: rest)
    by now rewrite <- !app_assoc.
  rewrite !app_length. cbn [length].
  replace (length p + (length t0 + 1) - 1)%nat with (length (p ++ t0)) by (rewrite app_length; lia).
  apply rd_at.
Qed.

(* ------------------------------------------------------------------ *)
(** * The loop of assign *)

Section Assign.

Variables (mem : list N) (end_ : nat).

Lemma hex_step : forall f r w pad chunk data c,
  rd mem r = Some c -> (r < end_)%nat -> hexd c -> chunk < 4096 ->
  a_loop (S f) mem end_ r w pad chunk data = a_loop f mem end_ (S r) w pad (chunk * 16 + hv c) data.
Proof.
  intros f r w pad chunk data c R L ((o & E & D) & N1 & N2) C. cbn [a_loop].
  replace (Nat.leb end_ r) with false by (symmetry; apply Nat.leb_gt; lia).
  rewrite R. cbn [option_map].
  replace (c =? 58) with false by (symmetry; now apply N.eqb_neq).
  rewrite E. f_equal. now apply chunk_push_ok.
Qed.

Lemma hex_run : forall t p rest chunk f w pad data,
  mem = p ++ t ++ rest -> (length p + length t <= end_)%nat -> Forall hexd t ->
  (chunk + 1) * 16 ^ N.of_nat (length t) <= 65536 ->
  a_loop (length t + f) mem end_ (length p) w pad chunk data
  = a_loop f mem end_ (length (p ++ t)) w pad (hexval t chunk) data.
Proof.
  induction t as [|c t IH]; intros p rest chunk f w pad data M L F B.
  - cbn. now rewrite app_nil_r.
  - pose proof (Forall_inv F) as H1. pose proof (Forall_inv_tail F) as H2. cbn [length] in B, L. rewrite Nnat.Nat2N.inj_succ, N.pow_succ_r' in B.
    assert (P : 1 <= 16 ^ N.of_nat (length t)) by (apply (N.pow_le_mono_r 16 0); lia).
    pose proof (hv_lt c H1).
    change (length (c :: t) + f)%nat with (S (length t + f)).
    rewrite (hex_step _ _ _ _ _ _ c); auto.
    + replace (S (length p)) with (length (p ++ [c])) by (rewrite app_length; cbn; lia).
      rewrite (IH (p ++ [c]) rest).
      * f_equal. now rewrite <- app_assoc.
      * rewrite M. now rewrite <- app_assoc.
      * rewrite app_length. cbn. lia.
      * auto.
      * eapply N.le_trans; [|exact B]. rewrite N.mul_assoc. apply N.mul_le_mono_r. lia.
    + rewrite M. cbn [app]. apply rd_at.
    + lia.
    + nia.
Qed.

Lemma group_hex : forall t bs, group_text t bs ->
  t <> [] /\ Forall hexd t /\ (length t <= 4)%nat /\ hexval t 0 < 65536 /\ bs = be_digits 2 (hexval t 0).
Proof.
  intros t bs (L & v & H & ->). destruct (numeral_hex _ _ H) as (NE & F & V).
  repeat split; auto; [|now rewrite V].
  pose proof (hexval_bound t 0 F) as B.
  assert (16 ^ N.of_nat (length t) <= 16 ^ 4) by (apply N.pow_le_mono_r; lia).
  change (16 ^ 4) with 65536 in *. lia.
Qed.

Lemma hex_pow : forall (t : list N), (length t <= 4)%nat -> (0 + 1) * 16 ^ N.of_nat (length t) <= 65536.
Proof.
  intros. assert (16 ^ N.of_nat (length t) <= 16 ^ 4) by (apply N.pow_le_mono_r; lia).
  change (16 ^ 4) with 65536 in *. lia.
Qed.

(** The end of a group. *)
Lemma sep_step : forall f p t rest chunk done x y junk pad,
  mem = p ++ t ++ rest -> t <> [] -> Forall hexd t -> chunk < 65536 ->
  ((end_ <= length (p ++ t))%nat \/
   ((length (p ++ t) < end_)%nat /\ exists rest', rest = 58 :: rest')) ->
  a_loop (S f) mem end_ (length (p ++ t)) (length done) pad chunk (done ++ x :: y :: junk)
  = let r := length (p ++ t) in
    let w := length (done ++ be_digits 2 chunk) in
    let d := (done ++ be_digits 2 chunk) ++ junk in
    if Nat.leb asize w || Nat.leb end_ r
    then Done (Nat.leb end_ r && Nat.ltb w asize && Nat.eqb pad asize, w, pad, d)
    else a_loop f mem end_ (S r) w pad 0 d.
Proof.
  intros f p t rest chunk done x y junk pad M NE F C H. cbv zeta.
  destruct (last_char p t rest NE) as (t0 & c & E & R). rewrite <- M in R.
  assert (HC : c <> 58).
  { rewrite E in F. apply Forall_app in F as [_ F]. inversion F; subst. apply H2. }
  assert (R0 : Nat.eqb (length (p ++ t)) 0 = false).
  { apply Nat.eqb_neq. rewrite app_length. destruct t; [congruence|cbn; lia]. }
  destruct (wr2 done x y junk (N.shiftr (N.land chunk 0xff00) 8) (N.land chunk 0x00ff)) as (d1 & W1 & W2).
  rewrite group_bytes in W2 by assumption.
  replace (length (done ++ be_digits 2 chunk)) with (length done + 2)%nat
    by (rewrite app_length; reflexivity).
  rewrite <- app_assoc.
  cbn [a_loop].
  assert (S1 : match (if Nat.leb end_ (length (p ++ t)) then Some None
                      else option_map Some (rd mem (length (p ++ t)))) with
               | None => False
               | Some None => True
               | Some (Some c) => c = 58
               end).
  { destruct (Nat.leb_spec end_ (length (p ++ t))); auto.
    destruct H as [H|(H & rest' & ->)]; [lia|].
    rewrite M, app_assoc, rd_at. reflexivity. }
  destruct (if Nat.leb end_ (length (p ++ t)) then _ else _) as [[c0|]|]; [| |contradiction].
  - subst c0. rewrite N.eqb_refl, R0, R.
    apply N.eqb_neq in HC. rewrite HC, W1, W2. reflexivity.
  - rewrite R0, R. apply N.eqb_neq in HC. rewrite HC, W1, W2. reflexivity.
Qed.

(** Groups that are followed by a colon. *)
Lemma pieces_len : forall t bs, pieces_text t bs -> (2 <= length bs)%nat /\ t <> [].
Proof.
  intros t bs H. induction H as [t bs H|t bs H|t bs t' bs' H _ [L N1]].
  - destruct (group_hex _ _ H) as (N1 & _ & _ & _ & ->). split; auto.
  - destruct H as (t1 & t2 & t3 & t4 & v1 & v2 & v3 & v4 & _ & _ & _ & _ & -> & ->).
    split; [cbn [length]; lia|]. now destruct t1.
  - rewrite app_length. split; [lia|]. now destruct t.
Qed.

Lemma split2 : forall (l : list N), (2 <= length l)%nat -> exists x y l', l = x :: y :: l'.
Proof. intros [|x [|y l]] H; cbn in H; try lia. eauto. Qed.

Lemma groups_run : forall t bs, pieces_text t bs -> ~ In 46 t ->
  forall p rest done junk pad,
  mem = p ++ t ++ 58 :: rest -> (length (p ++ t) < end_)%nat ->
  length (done ++ junk) = 16%nat -> (length done + length bs < 16)%nat ->
  exists junk',
    length junk' = (length junk - length bs)%nat /\
    forall f, a_loop (length t + S f) mem end_ (length p) (length done) pad 0 (done ++ junk)
    = a_loop f mem end_ (S (length (p ++ t))) (length (done ++ bs)) pad 0 ((done ++ bs) ++ junk').
Proof.
  intros t bs H. induction H as [t bs H|t bs H|t bs t' bs' H HP IH]; intros ND p rest done junk pad M L D B.
  - destruct (group_hex _ _ H) as (NE & F & LT & V & ->).
    assert (LJ : (2 <= length junk)%nat) by (rewrite app_length in D; cbn in B; lia).
    destruct (split2 _ LJ) as (x & y & junk' & ->). exists junk'. split; [cbn; lia|]. intro f.
    rewrite (hex_run t p (58 :: rest)); auto; [|rewrite app_length in L; lia|now apply hex_pow].
    rewrite (sep_step f p t (58 :: rest)); eauto. cbv zeta.
    replace (Nat.leb asize (length (done ++ be_digits 2 (hexval t 0)))) with false
      by (symmetry; apply Nat.leb_gt; rewrite app_length; unfold asize; lia).
    replace (Nat.leb end_ (length (p ++ t))) with false by (symmetry; apply Nat.leb_gt; lia).
    reflexivity.
  - exfalso. apply ND. destruct H as (t1 & t2 & t3 & t4 & v1 & v2 & v3 & v4 & _ & _ & _ & _ & -> & _).
    apply in_or_app. right. now left.
  - destruct (group_hex _ _ H) as (NE & F & LT & V & E).
    assert (LB : length bs = 2%nat) by now rewrite E.
    destruct (pieces_len _ _ HP) as [LB' NE'].
    rewrite app_length in B. rewrite app_length in D.
    assert (LJ : (2 <= length junk)%nat) by lia.
    destruct (split2 _ LJ) as (x & y & junk1 & ->). cbn [length] in *.
    rewrite app_length in L. rewrite !app_length in L. cbn [length] in L.
    destruct (IH (fun X => ND (in_or_app _ _ _ (or_intror (in_or_app _ _ _ (or_intror X)))))
      (p ++ t ++ [58]) rest (done ++ bs) junk1 pad) as (junk' & LJ' & EQ).
    { rewrite M. rewrite <- !app_assoc. reflexivity. }
    { rewrite !app_length. cbn. lia. }
    { rewrite !app_length. lia. }
    { rewrite app_length. lia. }
    exists junk'. split; [rewrite app_length; lia|]. intro f.
    rewrite app_length. cbn [length app].
    replace (length t + S (length t') + S f)%nat with (length t + S (length t' + S f))%nat by lia.
    rewrite (hex_run t p (58 :: t' ++ 58 :: rest)); auto; [| |lia|now apply hex_pow].
    2:{ rewrite M. rewrite <- !app_assoc. reflexivity. }
    rewrite (sep_step _ p t (58 :: t' ++ 58 :: rest)); eauto.
    2:{ rewrite M. rewrite <- !app_assoc. reflexivity. }
    2:{ right. split; [rewrite app_length; lia|eauto]. }
    cbv zeta. rewrite <- E.
    replace (Nat.leb asize (length (done ++ bs))) with false
      by (symmetry; apply Nat.leb_gt; rewrite app_length; unfold asize; lia).
    replace (Nat.leb end_ (length (p ++ t))) with false
      by (symmetry; apply Nat.leb_gt; rewrite app_length; lia).
    cbn [orb].
    replace (S (length (p ++ t))) with (length (p ++ t ++ [58])) by (rewrite !app_length; cbn; lia).
    rewrite EQ. f_equal.
    + rewrite !app_length. cbn. lia.
    + now rewrite <- app_assoc.
    + now rewrite <- !app_assoc.
Qed.

(* ------------------------------------------------------------------ *)
(** ** Dotted quads *)

Lemma find_dot_ok : forall t p rest f, mem = p ++ t ++ 46 :: rest -> ~ In 46 t ->
  (length (p ++ t) < end_)%nat -> (length t <= f)%nat ->
  find_dot f mem (length p) end_ = Done (length (p ++ t)).
Proof.
  induction t as [|c t IH]; intros p rest f M N1 L F.
  - rewrite app_nil_r in *. destruct f; cbn [find_dot];
      (replace (Nat.leb end_ (length p)) with false by (symmetry; apply Nat.leb_gt; lia));
      rewrite M; cbn [app]; rewrite rd_at; reflexivity.
  - destruct f as [|f]; [cbn in F; lia|]. cbn [find_dot].
    rewrite app_length in L. cbn [length] in *.
    replace (Nat.leb end_ (length p)) with false by (symmetry; apply Nat.leb_gt; lia).
    rewrite M at 1. cbn [app]. rewrite rd_at.
    replace (c =? 46) with false by (symmetry; apply N.eqb_neq; intro; apply N1; left; auto).
    replace (S (length p)) with (length (p ++ [c])) by (rewrite app_length; cbn; lia).
    rewrite (IH (p ++ [c]) rest).
    + f_equal. now rewrite <- app_assoc.
    + rewrite M. now rewrite <- app_assoc.
    + intro. apply N1. now right.
    + rewrite <- app_assoc. rewrite app_length. cbn. lia.
    + lia.
Qed.

Lemma land_digit : forall c, decd c -> N.land c 15 = c - 48.
Proof.
  intros c H. destruct (digit_in c H) as [I E].
  assert (K : forallb (fun d => N.land (48 + d) 15 =? d) nat_digits = true) by (vm_compute; reflexivity).
  rewrite forallb_forall in K. apply K in I. apply N.eqb_eq in I. rewrite <- E in I. exact I.
Qed.

Lemma decval_bound : forall t a, Forall decd t -> decval t a < (a + 1) * 10 ^ N.of_nat (length t).
Proof.
  induction t as [|c t IH]; intros a H; cbn [decval fold_left length].
  - cbn. lia.
  - inversion H; subst. fold (decval t (a * 10 + (c - 48))).
    specialize (IH (a * 10 + (c - 48)) H3). unfold decd in H2.
    rewrite Nnat.Nat2N.inj_succ, N.pow_succ_r'.
    eapply N.lt_le_trans; [exact IH|].
    rewrite N.mul_assoc. apply N.mul_le_mono_r. lia.
Qed.

Lemma atoi_loop_ok : forall t p c rest f acc, mem = p ++ t ++ c :: rest -> Forall decd t ->
  (length (p ++ t) <= end_)%nat -> ((end_ <= length (p ++ t))%nat \/ ~ decd c) ->
  (length t <= f)%nat -> (acc + 1) * 10 ^ N.of_nat (length t) <= 100000 ->
  atoi_loop f 32 mem (length p) end_ (Z.of_N acc) = Done (Z.of_N (decval t acc)).
Proof.
  induction t as [|x t IH]; intros p c rest f acc M F L E LF B.
  - rewrite app_nil_r in *. cbn [app] in M.
    assert (X : (48 <=? c) && (c <=? 57) && Nat.ltb (length p) end_ = false).
    { destruct E as [E|E].
      - replace (Nat.ltb (length p) end_) with false by (symmetry; apply Nat.ltb_ge; lia). apply andb_false_r.
      - destruct ((48 <=? c) && (c <=? 57)) eqn:Q; auto.
        apply andb_prop in Q as [Q1 Q2]. apply N.leb_le in Q1, Q2. exfalso. apply E. unfold decd. lia. }
    destruct f; cbn [atoi_loop]; rewrite M at 1; rewrite rd_at, X; reflexivity.
  - destruct f as [|f]; [cbn in LF; lia|]. pose proof (Forall_inv F) as Hx. pose proof (Forall_inv_tail F) as Ht.
    cbn [atoi_loop]. rewrite M at 1. cbn [app]. rewrite rd_at.
    rewrite app_length in L. cbn [length] in L, B, LF.
    assert (X : (48 <=? x) && (x <=? 57) && Nat.ltb (length p) end_ = true).
    { unfold decd in Hx. apply andb_true_intro. split; [apply andb_true_intro; split; apply N.leb_le; lia|].
      apply Nat.ltb_lt. lia. }
    rewrite X. rewrite Nnat.Nat2N.inj_succ, N.pow_succ_r' in B.
    assert (P : 1 <= 10 ^ N.of_nat (length t)) by (apply (N.pow_le_mono_r 10 0); lia).
    assert (Q : (Z.of_N acc * 10 + Z.of_N (N.land x 15))%Z = Z.of_N (acc * 10 + (x - 48))).
    { rewrite land_digit by assumption. lia. }
    cbv zeta. rewrite Q. unfold decd in Hx.
    assert (S1 : acc * 10 + (x - 48) < 100000) by nia.
    replace (2 ^ (32 - 1) <=? Z.of_N (acc * 10 + (x - 48)))%Z with false.
    2:{ symmetry. apply Z.leb_gt. change (2 ^ (32 - 1))%Z with 2147483648%Z. lia. }
    replace (S (length p)) with (length (p ++ [x])) by (rewrite app_length; cbn; lia).
    rewrite (IH (p ++ [x]) c rest).
    + reflexivity.
    + rewrite M. now rewrite <- app_assoc.
    + assumption.
    + rewrite <- app_assoc, app_length. cbn. lia.
    + rewrite <- app_assoc. exact E.
    + lia.
    + eapply N.le_trans; [|exact B]. rewrite N.mul_assoc. apply N.mul_le_mono_r. lia.
Qed.

Lemma atoi_ok : forall t p c rest, mem = p ++ t ++ c :: rest -> Forall decd t -> t <> [] ->
  (length t <= 3)%nat ->
  (length (p ++ t) <= end_)%nat -> ((end_ <= length (p ++ t))%nat \/ ~ decd c) ->
  atoi (length mem) 32 mem (length p) end_ = Done (Z.of_N (decval t 0)).
Proof.
  intros t p c rest M F NE L3 L E. unfold atoi.
  destruct t as [|x t]; [congruence|]. pose proof (Forall_inv F) as Hx. pose proof (Forall_inv_tail F) as Ht.
  replace (rd mem (length p)) with (Some x) by (rewrite M; symmetry; apply rd_at).
  replace (x =? 45) with false by (symmetry; apply N.eqb_neq; unfold decd in Hx; lia).
  change 0%Z with (Z.of_N 0). rewrite (atoi_loop_ok (x :: t) p c rest (length mem) 0); auto.
  - rewrite M, !app_length. lia.
  - assert (10 ^ N.of_nat (length (x :: t)) <= 10 ^ 3) by (apply N.pow_le_mono_r; lia).
    change (10 ^ 3) with 1000 in *. lia.
Qed.

Lemma octet_parts : forall t v, octet_text t v ->
  t <> [] /\ Forall decd t /\ (length t <= 3)%nat /\ decval t 0 = v /\ v < 256 /\ ~ In 46 t.
Proof.
  intros t v (L & H & V). destruct (numeral_dec _ _ H) as (NE & F & E). repeat split; auto.
  intro I. rewrite Forall_forall in F. apply F in I. unfold decd in I. lia.
Qed.

(** One more octet: [r] is anywhere before the dot with no dot in between. *)
Lemma quad_octet : forall n u t p c rest v w done x junk pad,
  mem = p ++ u ++ 46 :: t ++ c :: rest -> ~ In 46 u -> octet_text t v ->
  (length (p ++ u ++ [46%N] ++ t) <= end_)%nat ->
  ((end_ <= length (p ++ u ++ [46%N] ++ t))%nat \/ c = 46) -> length done = w ->
  quad_rest (S n) mem (length p) end_ w pad (done ++ x :: junk)
  = quad_rest n mem (length (p ++ u ++ [46])) end_ (S w) pad ((done ++ [v]) ++ junk).
Proof.
  intros n u t p c rest v w done x junk pad M NU O L E W.
  destruct (octet_parts _ _ O) as (NE & F & L3 & V & B & ND).
  assert (LT : (1 <= length t)%nat) by (destruct t; [congruence|cbn; lia]).
  rewrite !app_length in L. cbn [length] in L.
  cbn [quad_rest].
  replace (Nat.leb end_ (length p)) with false by (symmetry; apply Nat.leb_gt; lia).
  rewrite (find_dot_ok u p (t ++ c :: rest)); auto.
  2:{ rewrite app_length. lia. }
  2:{ rewrite M, !app_length. lia. }
  replace (Nat.ltb (length (p ++ u)) (end_ - 1)) with true
    by (symmetry; apply Nat.ltb_lt; rewrite app_length; lia).
  replace (S (length (p ++ u))) with (length (p ++ u ++ [46])) by (rewrite !app_length; cbn; lia).
  rewrite (atoi_ok t (p ++ u ++ [46]) c rest); auto.
  - rewrite V.
    replace (Z.to_N (Z.of_N v mod 256)) with v.
    2:{ rewrite Z.mod_small by lia. symmetry. apply N2Z.id. }
    rewrite <- W, wr_at, <- app_assoc. reflexivity.
  - rewrite M. rewrite <- !app_assoc. reflexivity.
  - rewrite !app_length. cbn. lia.
  - destruct E as [E|E].
    + left. rewrite !app_length in *. cbn [length] in *. lia.
    + right. unfold decd. lia.
Qed.

Lemma quad_run : forall t bs p c rest done junk pad,
  quad_text t bs -> mem = p ++ t ++ c :: rest -> end_ = length (p ++ t) ->
  length (done ++ junk) = 16%nat -> (0 < length done)%nat -> (length done + 4 <= 16)%nat ->
  exists junk' f0, (f0 <= length t)%nat /\
  length junk' = (length junk - 4)%nat /\
  forall f, a_loop (f0 + f) mem end_ (length p) (length done) pad 0 (done ++ junk)
  = Done (false, length (done ++ bs), pad, (done ++ bs) ++ junk').
Proof.
  intros t bs p c rest done junk pad H M E D W B.
  destruct H as (t1 & t2 & t3 & t4 & v1 & v2 & v3 & v4 & O1 & O2 & O3 & O4 & -> & ->).
  destruct (octet_parts _ _ O1) as (NE1 & F1 & L1 & V1 & B1 & D1).
  destruct (octet_parts _ _ O2) as (NE2 & F2 & L2 & V2 & B2 & D2).
  destruct (octet_parts _ _ O3) as (NE3 & F3 & L3 & V3 & B3 & D3).
  rewrite app_length in D.
  destruct junk as [|j1 [|j2 [|j3 [|j4 junk']]]]; cbn [length] in D; try lia.
  exists junk', (length t1 + 1)%nat.
  split; [rewrite !app_length; cbn; lia|]. split; [cbn [length]; lia|]. intro f.
  assert (F1' : Forall hexd t1).
  { eapply Forall_impl; [|exact F1]. intros a A. apply (decd_hexd a A). }
  rewrite <- Nat.add_assoc.
  rewrite (hex_run t1 p ([46] ++ t2 ++ [46] ++ t3 ++ [46] ++ t4 ++ c :: rest)); auto.
  2:{ rewrite M. now rewrite <- !app_assoc. }
  2:{ rewrite E, !app_length. lia. }
  2:{ apply hex_pow. lia. }
  cbn [plus a_loop].
  replace (Nat.leb end_ (length (p ++ t1))) with false.
  2:{ symmetry. apply Nat.leb_gt. rewrite E, !app_length. cbn. lia. }
  replace (rd mem (length (p ++ t1))) with (Some 46).
  2:{ rewrite M. rewrite <- !app_assoc. cbn [app]. rewrite app_assoc. now rewrite rd_at. }
  cbn [option_map]. change (46 =? 58) with false. change (hex_offset 46) with (@None N).
  cbv iota. change (46 =? 46) with true. cbv iota. unfold quad.
  replace (Nat.eqb (length done) 0) with false by (symmetry; apply Nat.eqb_neq; lia).
  replace (Nat.ltb 12 (length done)) with false by (symmetry; apply Nat.ltb_ge; lia).
  rewrite wr_at.
  rewrite quad_first_ok by (auto; lia). rewrite V1.
  replace (done ++ v1 :: j2 :: j3 :: j4 :: junk') with ((done ++ [v1]) ++ j2 :: j3 :: j4 :: junk')
    by now rewrite <- app_assoc.
  assert (E' : end_ = length (p ++ t1 ++ [46] ++ t2 ++ [46] ++ t3 ++ [46] ++ t4)) by (rewrite E; reflexivity).
  rewrite (quad_octet 2 [] t2 (p ++ t1) 46 (t3 ++ [46] ++ t4 ++ c :: rest) v2); auto.
  2:{ rewrite M. rewrite <- !app_assoc. reflexivity. }
  2:{ rewrite E', !app_length. cbn. lia. }
  2:{ rewrite app_length. cbn. lia. }
  rewrite (quad_octet 1 t2 t3 ((p ++ t1) ++ [] ++ [46]) 46 (t4 ++ c :: rest) v3); auto.
  2:{ rewrite M. rewrite <- !app_assoc. reflexivity. }
  2:{ rewrite E', !app_length. cbn. lia. }
  2:{ rewrite !app_length. cbn. lia. }
  rewrite (quad_octet 0 t3 t4 (((p ++ t1) ++ [] ++ [46]) ++ t2 ++ [46]) c rest v4); auto.
  2:{ rewrite M. rewrite <- !app_assoc. reflexivity. }
  2:{ rewrite E', !app_length. cbn. lia. }
  2:{ left. rewrite E', !app_length. cbn. lia. }
  2:{ rewrite !app_length. cbn. lia. }
  cbn [quad_rest]. rewrite <- !app_assoc. cbn [app].
  rewrite app_length. cbn [length].
  replace (S (S (S (S (length done))))) with (length done + 4)%nat by lia. reflexivity.
Qed.

(** Pieces up to the end of the text. *)
Lemma pieces_run : forall t bs, pieces_text t bs ->
  forall p c rest done junk pad,
  mem = p ++ t ++ c :: rest -> end_ = length (p ++ t) ->
  length (done ++ junk) = 16%nat -> (length done + length bs <= 16)%nat ->
  (length done + length bs = 16)%nat \/ pad <> asize ->
  ((0 < length done)%nat \/ ~ quad_text t bs) ->
  exists junk' f0, (f0 <= length t + 1)%nat /\
  length junk' = (length junk - length bs)%nat /\
  forall f, a_loop (f0 + f) mem end_ (length p) (length done) pad 0 (done ++ junk)
  = Done (false, length (done ++ bs), pad, (done ++ bs) ++ junk').
Proof.
  intros t bs H. induction H as [t bs H|t bs H|t bs t' bs' H HP IH]; intros p c rest done junk pad M E D B PD Q.
  - destruct (group_hex _ _ H) as (NE & F & LT & V & EB).
    assert (LB : length bs = 2%nat) by now rewrite EB.
    rewrite app_length in D.
    destruct (split2 junk) as (x & y & junk' & ->); [lia|].
    exists junk', (length t + 1)%nat. split; [lia|]. split; [cbn [length]; lia|]. intro f.
    rewrite <- Nat.add_assoc.
    rewrite (hex_run t p (c :: rest)); auto; [|rewrite E, app_length; lia|now apply hex_pow].
    change (1 + f)%nat with (S f).
    rewrite (sep_step f p t (c :: rest)); auto; [|left; lia]. cbv zeta. rewrite <- EB.
    replace (Nat.leb end_ (length (p ++ t))) with true by (symmetry; apply Nat.leb_le; lia).
    rewrite orb_true_r. do 4 f_equal. cbn [andb].
    rewrite app_length. destruct PD as [PD|PD].
    + replace (Nat.ltb (length done + length bs) asize) with false
        by (symmetry; apply Nat.ltb_ge; unfold asize; lia). reflexivity.
    + apply Nat.eqb_neq in PD. rewrite PD. apply andb_false_r.
  - destruct Q as [Q|Q]; [|now exfalso].
    assert (LB : length bs = 4%nat).
    { destruct H as (t1 & t2 & t3 & t4 & v1 & v2 & v3 & v4 & _ & _ & _ & _ & _ & ->). reflexivity. }
    destruct (quad_run t bs p c rest done junk pad H M E D Q) as (junk' & f0 & L0 & LJ & R); [lia|].
    exists junk', f0. split; [lia|]. split; [lia|]. exact R.
  - destruct (group_hex _ _ H) as (NE & F & LT & V & EB).
    assert (LB : length bs = 2%nat) by now rewrite EB.
    destruct (pieces_len _ _ HP) as [LB' NE'].
    rewrite app_length in B, PD. rewrite app_length in D.
    destruct (split2 junk) as (x & y & junk1 & ->); [lia|]. cbn [length] in *.
    destruct (IH (p ++ t ++ [58]) c rest (done ++ bs) junk1 pad) as (junk' & f0 & L0 & LJ' & EQ).
    { rewrite M. rewrite <- !app_assoc. reflexivity. }
    { rewrite E. f_equal. rewrite <- !app_assoc. reflexivity. }
    { rewrite !app_length. lia. }
    { rewrite app_length. lia. }
    { rewrite app_length. destruct PD; [left; lia|now right]. }
    { left. rewrite app_length. lia. }
    exists junk', (length t + 1 + f0)%nat.
    split; [rewrite app_length; cbn; lia|]. split; [rewrite app_length; lia|]. intro f.
    replace (length t + 1 + f0 + f)%nat with (length t + S (f0 + f))%nat by lia.
    assert (M' : mem = p ++ t ++ 58 :: t' ++ c :: rest) by (rewrite M; rewrite <- !app_assoc; reflexivity).
    assert (LE : (length (p ++ t) < end_)%nat) by (rewrite E, !app_length; cbn; lia).
    rewrite (hex_run t p (58 :: t' ++ c :: rest)); auto; [|rewrite app_length in LE; lia|now apply hex_pow].
    rewrite (sep_step _ p t (58 :: t' ++ c :: rest)); eauto.
    cbv zeta. rewrite <- EB.
    replace (Nat.leb asize (length (done ++ bs))) with false
      by (symmetry; apply Nat.leb_gt; rewrite app_length; unfold asize; lia).
    replace (Nat.leb end_ (length (p ++ t))) with false by (symmetry; apply Nat.leb_gt; lia).
    cbn [orb].
    replace (S (length (p ++ t))) with (length (p ++ t ++ [58])) by (rewrite !app_length; cbn; lia).
    rewrite EQ. rewrite <- !app_assoc. reflexivity.
Qed.

(** A colon after a colon, or in the first place. *)
Lemma gap_step : forall f r w chunk data pad,
  (r < end_)%nat -> rd mem r = Some 58 -> (r = 0%nat \/ rd mem (r - 1) = Some 58) ->
  (pad = asize \/ pad = w) ->
  a_loop (S f) mem end_ r w pad chunk data = a_loop f mem end_ (S r) w w chunk data.
Proof.
  intros f r w chunk data pad L R P Q. cbn [a_loop].
  replace (Nat.leb end_ r) with false by (symmetry; apply Nat.leb_gt; lia).
  rewrite R. cbn [option_map]. change (58 =? 58) with true. cbv iota.
  assert (X : (if Nat.eqb r 0 then Some 58 else rd mem (r - 1)) = Some 58).
  { destruct P as [->|P]; auto. destruct (Nat.eqb r 0); auto. }
  rewrite X. change (58 =? 58) with true. cbv iota.
  replace (negb (Nat.eqb pad asize) && negb (Nat.eqb pad w)) with false; auto.
  symmetry. destruct Q as [-> | ->]; rewrite Nat.eqb_refl; auto. apply andb_false_r.
Qed.

(** The end of a text that ends in a gap. *)
Lemma trailing_gap : forall f t0 c rest done x y junk,
  mem = t0 ++ 58 :: c :: rest -> c <> 58 -> end_ = S (length t0) ->
  a_loop (S (S f)) mem end_ end_ (length done) (length done) 0 (done ++ x :: y :: junk)
  = Done (Nat.ltb (length done + 2) asize && Nat.eqb (length done) asize,
          (length done + 2)%nat, length done, done ++ [0; 0] ++ junk).
Proof.
  intros f t0 c rest done x y junk M C E.
  assert (R1 : rd mem (length t0) = Some 58) by (rewrite M; apply rd_at).
  assert (R2 : rd mem (S (length t0)) = Some c).
  { rewrite M. replace (t0 ++ 58 :: c :: rest) with ((t0 ++ [58]) ++ c :: rest) by now rewrite <- app_assoc.
    replace (S (length t0)) with (length (t0 ++ [58])) by (rewrite app_length; cbn; lia). apply rd_at. }
  remember (S f) as f1. cbn [a_loop].
  rewrite Nat.leb_refl.
  replace (Nat.eqb end_ 0) with false by (symmetry; apply Nat.eqb_neq; lia).
  replace (end_ - 1)%nat with (length t0) by lia. rewrite R1. change (58 =? 58) with true. cbv iota.
  rewrite Nat.eqb_refl. cbn [negb]. rewrite andb_false_r. subst f1. cbn [a_loop].
  replace (Nat.leb end_ (S end_)) with true by (symmetry; apply Nat.leb_le; lia).
  change (Nat.eqb (S end_) 0) with false. cbv iota.
  replace (S end_ - 1)%nat with end_ by lia. rewrite E at 1. rewrite R2.
  apply N.eqb_neq in C. rewrite C.
  destruct (wr2 done x y junk (N.shiftr (N.land 0 0xff00) 8) (N.land 0 0x00ff)) as (d1 & W1 & W2).
  rewrite W1, W2. rewrite orb_true_r. reflexivity.
Qed.

End Assign.

Lemma finish_gap : forall b1 n b2 junk,
  (length b1 + n + length b2 = 16)%nat -> b2 <> [] ->
  a_finish (false, length (b1 ++ b2), length b1, (b1 ++ b2) ++ junk) = b1 ++ repeat 0 n ++ b2.
Proof.
  intros b1 n b2 junk L NE. unfold a_finish, asize.
  assert (0 < length b2)%nat by (destruct b2; [congruence|cbn; lia]).
  replace (Nat.eqb (length b1) 16) with false by (symmetry; apply Nat.eqb_neq; lia).
  cbn [negb].
  replace (Nat.eqb (length b1) (length (b1 ++ b2))) with false
    by (symmetry; apply Nat.eqb_neq; rewrite app_length; lia).
  f_equal; [|f_equal].
  - rewrite <- app_assoc. rewrite firstn_app, Nat.sub_diag, firstn_all. cbn. now rewrite app_nil_r.
  - f_equal. rewrite app_length. lia.
  - unfold slice. rewrite app_length. replace (length b1 + length b2 - length b1)%nat with (length b2) by lia.
    rewrite <- app_assoc, skipn_app, Nat.sub_diag, skipn_all. cbn.
    rewrite firstn_app, Nat.sub_diag, firstn_all. cbn. now rewrite app_nil_r.
Qed.

Lemma quad_alone : forall mem end_ t bs c rest junk,
  quad_text t bs -> mem = t ++ c :: rest -> end_ = length t -> length junk = 16%nat ->
  exists junk' f0, (f0 <= length t)%nat /\
  forall f pad, a_loop (f0 + f) mem end_ 0 0 pad 0 junk
  = Done (false, 6%nat, 0%nat, ([255; 255] ++ bs) ++ junk').
Proof.
  intros mem end_ t bs c rest junk H M E D.
  destruct H as (t1 & t2 & t3 & t4 & v1 & v2 & v3 & v4 & O1 & O2 & O3 & O4 & -> & ->).
  destruct (octet_parts _ _ O1) as (NE1 & F1 & L1 & V1 & B1 & D1).
  destruct (octet_parts _ _ O2) as (NE2 & F2 & L2 & V2 & B2 & D2).
  destruct (octet_parts _ _ O3) as (NE3 & F3 & L3 & V3 & B3 & D3).
  destruct junk as [|i1 [|i2 [|j1 [|j2 [|j3 [|j4 junk']]]]]]; cbn [length] in D; try lia.
  exists junk', (length t1 + 1)%nat.
  split; [rewrite !app_length; cbn; lia|]. intros f pad.
  assert (F1' : Forall hexd t1).
  { eapply Forall_impl; [|exact F1]. intros a A. apply (decd_hexd a A). }
  rewrite <- Nat.add_assoc.
  change 0%nat with (@length N []) at 1.
  rewrite (hex_run mem end_ t1 [] ([46] ++ t2 ++ [46] ++ t3 ++ [46] ++ t4 ++ c :: rest)); auto.
  2:{ rewrite M. now rewrite <- !app_assoc. }
  2:{ rewrite E, !app_length. cbn [length]. lia. }
  2:{ apply hex_pow. lia. }
  cbn [plus a_loop app].
  replace (Nat.leb end_ (length t1)) with false.
  2:{ symmetry. apply Nat.leb_gt. rewrite E, !app_length. cbn. lia. }
  replace (rd mem (length t1)) with (Some 46).
  2:{ rewrite M. rewrite <- !app_assoc. cbn [app]. now rewrite rd_at. }
  cbn [option_map]. change (46 =? 58) with false. change (hex_offset 46) with (@None N).
  cbv iota. change (46 =? 46) with true. cbv iota. unfold quad.
  change (Nat.eqb 0 0) with true. cbv iota.
  cbn [wr]. rewrite quad_first_ok by (auto; lia). rewrite V1.
  change (255 :: 255 :: v1 :: j2 :: j3 :: j4 :: junk') with ([255; 255; v1] ++ j2 :: j3 :: j4 :: junk').
  assert (E' : end_ = length (t1 ++ [46] ++ t2 ++ [46] ++ t3 ++ [46] ++ t4)) by (rewrite E; reflexivity).
  rewrite (quad_octet mem end_ 2 [] t2 t1 46 (t3 ++ [46] ++ t4 ++ c :: rest) v2); auto.
  2:{ rewrite M. rewrite <- !app_assoc. reflexivity. }
  2:{ rewrite E', !app_length. cbn. lia. }
  rewrite (quad_octet mem end_ 1 t2 t3 (t1 ++ [] ++ [46]) 46 (t4 ++ c :: rest) v3); auto.
  2:{ rewrite M. rewrite <- !app_assoc. reflexivity. }
  2:{ rewrite E', !app_length. cbn. lia. }
  rewrite (quad_octet mem end_ 0 t3 t4 ((t1 ++ [] ++ [46]) ++ t2 ++ [46]) c rest v4); auto.
  { rewrite M. rewrite <- !app_assoc. reflexivity. }
  { rewrite E', !app_length. cbn. lia. }
  { left. rewrite E', !app_length. cbn. lia. }
Qed.

Lemma rd_app1 : forall (a b : list N) i, (i < length a)%nat -> rd (a ++ b) i = rd a i.
Proof. intros. unfold rd. now apply nth_error_app1. Qed.

(** [assign] understands every standard text. *)
Lemma assign_text : forall t a c rest data,
  address_text t a -> ~ compat_text t -> c <> 58 -> length data = 16%nat ->
  forall fuel, (length t + 4 <= fuel)%nat ->
  assign fuel (t ++ c :: rest) (length t) data = Done a.
Proof.
  intros t a c rest data H NC HC D fuel HF. unfold assign.
  destruct H as [t bs H LB|t1 b1 t2 b2 n H1 H2 L N2|t bs H].
  - destruct (pieces_run (t ++ c :: rest) (length t) t bs H [] c rest [] data asize) as (junk' & f0 & L0 & LJ & R);
      auto; try (cbn; lia).
    { right. intro Q. destruct Q as (q1 & q2 & q3 & q4 & v1 & v2 & v3 & v4 & _ & _ & _ & _ & _ & ->).
      discriminate LB. }
    replace fuel with (f0 + (fuel - f0))%nat by lia.
    cbn [app length] in R. rewrite R. unfold a_finish. cbn [negb Nat.eqb asize]. 
    destruct junk'; [now rewrite app_nil_r|]. cbn in LJ. lia.
  - set (mem := (t1 ++ [58; 58] ++ t2) ++ c :: rest).
    set (end_ := length (t1 ++ [58; 58] ++ t2)) in *.
    (* the part before the gap *)
    assert (P1 : exists junk1 f1, (f1 <= length t1 + 2)%nat /\ length (b1 ++ junk1) = 16%nat /\
      forall f, a_loop (f1 + f) mem end_ 0 0 asize 0 data
        = a_loop f mem end_ (length (t1 ++ [58; 58])) (length b1) (length b1) 0 (b1 ++ junk1)).
    { destruct H1 as [|t1 b1 H1 ND].
      - exists data, 2%nat. cbn [length app]. split; [lia|]. split; [auto|]. intro f.
        change (2 + f)%nat with (S (S f)).
        rewrite gap_step; [|cbn; lia|reflexivity|auto|auto].
        rewrite gap_step; [|cbn; lia|reflexivity|right; reflexivity|auto]. reflexivity.
      - destruct (pieces_len _ _ H1) as [LB NE].
        destruct (groups_run mem end_ t1 b1 H1 ND [] (58 :: t2 ++ c :: rest) [] data asize) as (j & LJ & R).
        { unfold mem. rewrite <- !app_assoc. reflexivity. }
        { unfold end_. rewrite !app_length. cbn [length]. lia. }
        { cbn. lia. }
        { cbn. lia. }
        exists j, (length t1 + 2)%nat. split; [lia|]. split; [rewrite app_length; lia|]. intro f.
        replace (length t1 + 2 + f)%nat with (length t1 + S (S f))%nat by lia.
        cbn [app length] in R. rewrite R.
        assert (M1 : mem = t1 ++ 58 :: 58 :: t2 ++ c :: rest).
        { unfold mem. rewrite <- !app_assoc. reflexivity. }
        rewrite gap_step; auto.
        + f_equal. rewrite app_length. cbn. lia.
        + unfold end_. rewrite !app_length. cbn [length]. lia.
        + rewrite M1. replace (t1 ++ 58 :: 58 :: t2 ++ c :: rest) with ((t1 ++ [58]) ++ 58 :: t2 ++ c :: rest)
            by now rewrite <- app_assoc.
          replace (S (length t1)) with (length (t1 ++ [58])) by (rewrite app_length; cbn; lia). apply rd_at.
        + right. replace (S (length t1) - 1)%nat with (length t1) by lia. rewrite M1. apply rd_at. }
    destruct P1 as (junk1 & f1 & L1 & D1 & R1).
    assert (E0 : end_ = (length t1 + 2 + length t2)%nat) by (unfold end_; rewrite !app_length; cbn; lia).
    assert (HF' : (end_ + 4 <= fuel)%nat) by exact HF.
    destruct H2 as [[-> ->]|H2].
    + rewrite app_length in D1. cbn [length] in L, E0.
      destruct (split2 junk1) as (x & y & junk2 & ->); [lia|].
      replace fuel with (f1 + (S (S (fuel - f1 - 2))))%nat by lia.
      rewrite R1.
      replace (length (t1 ++ [58; 58])) with end_ by (rewrite app_length; cbn; lia).
      rewrite (trailing_gap mem end_ _ (t1 ++ [58]) c rest); auto.
      2:{ unfold mem. rewrite <- !app_assoc. reflexivity. }
      2:{ rewrite app_length. cbn. lia. }
      replace (Nat.eqb (length b1) asize) with false by (symmetry; apply Nat.eqb_neq; unfold asize; lia).
      rewrite andb_false_r.
      replace (length b1 + 2)%nat with (length (b1 ++ [0; 0])) by (rewrite app_length; reflexivity).
      rewrite app_assoc. rewrite (finish_gap b1 (n - 2)); [|cbn; lia|discriminate].
      rewrite app_nil_r. f_equal. f_equal.
      replace n with (n - 2 + 2)%nat at 2 by lia. rewrite repeat_app. reflexivity.
    + destruct (pieces_len _ _ H2) as [LB NE].
      destruct (pieces_run mem end_ t2 b2 H2 (t1 ++ [58; 58]) c rest b1 junk1 (length b1))
        as (junk' & f0 & L0 & LJ & R); auto.
      { unfold mem. rewrite <- !app_assoc. reflexivity. }
      { unfold end_. now rewrite <- !app_assoc. }
      { lia. }
      { right. unfold asize. lia. }
      { destruct H1 as [|t1 b1 H1 ND].
        - right. intro Q. apply NC. exists t2, b2. auto.
        - left. apply pieces_len in H1. lia. }
      replace fuel with (f1 + (f0 + (fuel - f1 - f0)))%nat by lia.
      rewrite R1, R. rewrite (finish_gap b1 n); auto. destruct b2; [cbn in LB; lia|discriminate].
  - destruct (quad_alone (t ++ c :: rest) (length t) t bs c rest data H) as (junk' & f0 & L0 & R); auto.
    replace fuel with (f0 + (fuel - f0))%nat by lia. rewrite R.
    assert (LB : length bs = 4%nat).
    { destruct H as (t1 & t2 & t3 & t4 & v1 & v2 & v3 & v4 & _ & _ & _ & _ & _ & ->). reflexivity. }
    pose proof (finish_gap [] 10 ([255; 255] ++ bs) junk') as G. rewrite app_length, LB in G.
    cbn [length app Nat.add] in G |- *. rewrite LB in G. rewrite G; auto. discriminate.
Qed.
