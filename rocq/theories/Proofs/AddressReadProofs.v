From Coq Require Import String List NArith ZArith Bool Arith Lia.
From Verif Require Import Model.Base Model.HttpCodec Model.Address Model.AddressRead Spec.AddressSpec
  Spec.AddressReadSpec Proofs.AddressProofs Proofs.ExtractProofs Proofs.AddressExamples.
Import ListNotations.
Local Open Scope N_scope.

Lemma apart_tl : forall sep c l, apart sep (c :: l) -> apart sep l.
Proof. intros sep c l A l1 x l2 E. apply (A (c :: l1) x l2). now rewrite E. Qed.

Lemma apart_app : forall sep l1 l2, apart sep (l1 ++ l2) -> apart sep l2.
Proof. intros sep l1 l2 A. induction l1 as [|c l1 IH]; auto. apply IH. now apply apart_tl in A. Qed.

(* ------------------------------------------------------------------ *)
(** * Where the separator does not matter *)

Lemma get_digits_suffix : forall l v any, exists p, l = p ++ fst (fst (get_digits l v any)).
Proof.
  induction l as [|c l IH]; intros v any; cbn [get_digits].
  - now exists [].
  - destruct ((0x30 <=? c) && (c <=? 0x39)).
    + destruct (IH (v * 10 + (c - 0x30)) true) as [p E]. exists (c :: p). cbn. now rewrite <- E.
    + now exists [].
Qed.

Lemma get_uint_suffix : forall l, exists p, l = p ++ fst (fst (get_uint l)).
Proof.
  intro l. unfold get_uint.
  destruct (match l with c :: l' => if c =? 0x2d then (true, l') else if c =? 0x2b then (false, l') else (false, l)
            | [] => (false, []) end) as [neg l1] eqn:E.
  assert (S1 : exists p, l = p ++ l1).
  { destruct l as [|c l']; [injection E as <- <-; now exists []|].
    destruct (c =? 0x2d); [injection E as <- <-; now exists [c]|].
    destruct (c =? 0x2b); [injection E as <- <-; now exists [c]|]. injection E as <- <-. now exists []. }
  destruct S1 as [p ->]. destruct (get_digits_suffix l1 0 false) as [q Q].
  destruct (get_digits l1 0 false) as [[l2 v] any]. cbn [fst] in Q. subst l1.
  exists (p ++ q). destruct (negb any); [|destruct (2 ^ 32 <=? v)]; cbn [fst]; now rewrite <- app_assoc.
Qed.

Lemma loc_digits_same : forall d l v pos,
  separator (d_sep d) -> (d_grouped d = true -> apart (d_sep d) l) ->
  (d_grouped d = true -> pos <> 0%nat -> hd_error l <> Some (d_sep d)) ->
  exists pos' bad, loc_digits d l v pos [] =
      (fst (fst (get_digits l v (negb (Nat.eqb pos 0)))), snd (fst (get_digits l v (negb (Nat.eqb pos 0)))), pos', [], bad) /\
    (bad = true -> pos' = 0%nat) /\ snd (get_digits l v (negb (Nat.eqb pos 0))) = negb (Nat.eqb pos' 0).
Proof.
  intros d l. induction l as [|c l IH]; intros v pos SP A H.
  - cbn. exists pos, false. split; [reflexivity|]. split; [discriminate|reflexivity].
  - cbn [loc_digits get_digits].
    destruct (d_grouped d && (c =? d_sep d)) eqn:E.
    + apply andb_prop in E as [E1 E2]. apply N.eqb_eq in E2. subst c.
      destruct (Nat.eqb_spec pos 0) as [-> |P]; [|exfalso; now apply (H E1 P)].
      cbn [Nat.eqb negb].
      replace ((0x30 <=? d_sep d) && (d_sep d <=? 0x39)) with false.
      * exists 0%nat, true. cbn. auto.
      * symmetry. destruct SP as [SP _]. apply andb_false_iff.
        destruct (N.leb_spec 0x30 (d_sep d)); [right|now left]. apply N.leb_gt. lia.
    + destruct ((0x30 <=? c) && (c <=? 0x39)) eqn:DG.
      * destruct (IH (v * 10 + (c - 0x30)) (S pos)) as (pos' & bad & X & Y & Z); auto.
        -- intro G. specialize (A G). now apply apart_tl in A.
        -- intros G _ HD. destruct l as [|x l]; [discriminate|]. cbn in HD. injection HD as ->.
           apply (A G [] c l eq_refl). apply andb_prop in DG as [D1 D2]. apply N.leb_le in D1. apply N.leb_le in D2. lia.
        -- cbn [Nat.eqb negb] in *. exists pos', bad. auto.
      * exists pos, false. cbn. split; [reflexivity|]. split; [discriminate|reflexivity].
Qed.

Lemma loc_uint_same : forall d l, separator (d_sep d) -> (d_grouped d = true -> apart (d_sep d) l) ->
  loc_uint d l = get_uint l.
Proof.
  intros d l SP A. unfold loc_uint, get_uint.
  assert (E : match l with
    | [] => (false, [])
    | c :: l' => if d_grouped d && (c =? d_sep d) then (false, l)
        else if c =? 0x2d then (true, l') else if c =? 0x2b then (false, l') else (false, l) end =
    match l with c :: l' => if c =? 0x2d then (true, l') else if c =? 0x2b then (false, l') else (false, l)
            | [] => (false, []) end).
  { destruct l as [|c l']; [reflexivity|].
    destruct (d_grouped d && (c =? d_sep d)) eqn:X; [|reflexivity].
    apply andb_prop in X as [_ X]. apply N.eqb_eq in X. subst c. destruct SP as (_ & S1 & S2).
    apply N.eqb_neq in S1. apply N.eqb_neq in S2. now rewrite S1, S2. }
  rewrite E. clear E.
  destruct (match l with c :: l' => if c =? 0x2d then (true, l') else if c =? 0x2b then (false, l') else (false, l)
            | [] => (false, []) end) as [neg l1] eqn:E.
  assert (A1 : d_grouped d = true -> apart (d_sep d) l1).
  { intro G. specialize (A G). destruct l as [|c l']; [injection E as <- <-; exact A|].
    destruct (c =? 0x2d); [injection E as <- <-; now apply apart_tl in A|].
    destruct (c =? 0x2b); [injection E as <- <-; now apply apart_tl in A|]. injection E as <- <-. exact A. }
  destruct (loc_digits_same d l1 0 0 SP A1) as (pos' & bad & X & Y & Z); [congruence|].
  cbn [Nat.eqb negb] in *. rewrite X. destruct (get_digits l1 0 false) as [[l2 v] any]. cbn [fst snd] in *.
  subst any. destruct (Nat.eqb_spec pos' 0) as [-> |P].
  - cbn [negb andb]. now rewrite orb_true_r.
  - destruct bad; [now exfalso; apply P, Y|]. reflexivity.
Qed.

Lemma loc_quad_rest_same : forall d n inp fail write pad buf,
  separator (d_sep d) -> (d_grouped d = true -> apart (d_sep d) inp) ->
  loc_quad_rest d n inp fail write pad buf = x_quad_rest n inp fail write pad buf.
Proof.
  intros d n. induction n as [|n IH]; intros inp fail write pad buf SP A; [reflexivity|].
  cbn [loc_quad_rest x_quad_rest]. destruct inp as [|c inp']; [reflexivity|].
  destruct (c =? 0x2e); [|reflexivity].
  assert (A1 : d_grouped d = true -> apart (d_sep d) inp') by (intro G; specialize (A G); now apply apart_tl in A).
  rewrite loc_uint_same by auto. destruct (get_uint_suffix inp') as [p P].
  destruct (get_uint inp') as [[inp2 v] bad]. cbn [fst] in P.
  destruct (wr buf write (v mod 256)); [|reflexivity]. apply IH; auto.
  intro G. specialize (A1 G). rewrite P in A1. now apply apart_app in A1.
Qed.

Lemma loc_quad_same : forall d inp write pad chunk buf,
  separator (d_sep d) -> (d_grouped d = true -> apart (d_sep d) inp) ->
  loc_quad d inp write pad chunk buf = x_quad inp write pad chunk buf.
Proof.
  intros d inp write pad chunk buf SP A. unfold loc_quad, x_quad.
  assert (Q : forall w p b, loc_quad_rest d 3 inp false w p b = x_quad_rest 3 inp false w p b)
    by (intros; now apply loc_quad_rest_same).
  destruct (Nat.eqb write 0).
  - destruct (wr buf 0 0xff) as [d1|]; [|reflexivity]. destruct (wr d1 1 0xff) as [d2|]; [|reflexivity].
    destruct (wr d2 2 (quad_first chunk)); [|reflexivity]. apply Q.
  - destruct (Nat.ltb 12 write); [reflexivity|]. destruct (wr buf write (quad_first chunk)); [|reflexivity]. apply Q.
Qed.

Lemma loc_loop_same : forall d fuel count inp lastColon write pad chunk buf,
  separator (d_sep d) -> (d_grouped d = true -> apart (d_sep d) inp) ->
  loc_loop d fuel count inp lastColon write pad chunk buf = x_loop fuel count inp lastColon write pad chunk buf.
Proof.
  intros d fuel. induction fuel as [|f IH]; intros count inp lastColon write pad chunk buf SP A; [reflexivity|].
  cbn [loc_loop x_loop].
  assert (A1 : d_grouped d = true -> apart (d_sep d) (tl inp)).
  { intro G. specialize (A G). destruct inp; [exact A|]. now apply apart_tl in A. }
  rewrite loc_quad_same by auto.
  destruct (40 <? trunc 8 (count + 1)); [reflexivity|].
  destruct (hex_offset _); [now apply IH|].
  destruct (_ =? 0x2e); [reflexivity|].
  destruct (_ && lastColon).
  - destruct (match pad with Some p => _ | None => _ end); [reflexivity|]. now apply IH.
  - destruct (wr buf write _) as [d1|]; [|reflexivity]. destruct (wr d1 (S write) _) as [d2|]; [|reflexivity].
    destruct (Nat.leb asize (write + 2)); [reflexivity|].
    destruct (negb _); [reflexivity|]. now apply IH.
Qed.

Lemma skip_ws_suffix : forall l, exists p, l = p ++ skip_ws l /\ ~ In 46 p.
Proof.
  induction l as [|c l IH]; cbn [skip_ws].
  - exists []. split; auto.
  - destruct (is_space c) eqn:E.
    + destruct IH as (p & E' & I). exists (c :: p). split; [cbn; now rewrite <- E'|].
      intros [-> |J]; [discriminate E|now apply I].
    + exists []. split; auto.
Qed.

Lemma read_same : forall d fuel inp junk, separator (d_sep d) -> (d_grouped d = true -> apart (d_sep d) inp) ->
  loc_extract d fuel inp junk = extract fuel inp junk.
Proof.
  intros d fuel inp junk SP A. unfold loc_extract, extract. rewrite loc_loop_same; auto.
  intro G. specialize (A G). destruct (skip_ws_suffix inp) as (p & E & _). rewrite E in A. now apply apart_app in A.
Qed.

(* ------------------------------------------------------------------ *)
(** * The dot as separator *)

Lemma dot_digits : forall d l v pos found, d_grouped d = true -> d_sep d = 46 ->
  snd (loc_digits d l v pos found) = true \/
  hd_error (fst (fst (fst (fst (loc_digits d l v pos found))))) <> Some 46.
Proof.
  intros d l. induction l as [|c l IH]; intros v pos found G S0; cbn [loc_digits].
  - right. cbn. discriminate.
  - rewrite G, S0. cbn [andb]. destruct (N.eqb_spec c 46) as [-> |C].
    + destruct (Nat.eqb pos 0); [now left|]. now apply IH.
    + destruct ((0x30 <=? c) && (c <=? 0x39)); [now apply IH|]. right. cbn. congruence.
Qed.

Lemma dot_uint : forall d l, d_grouped d = true -> d_sep d = 46 ->
  snd (loc_uint d l) = true \/ hd_error (fst (fst (loc_uint d l))) <> Some 46.
Proof.
  intros d l G S0. unfold loc_uint.
  destruct (match l with [] => _ | _ => _ end) as [neg l1].
  pose proof (dot_digits d l1 0 0 [] G S0) as H.
  destruct (loc_digits d l1 0 0 []) as [[[[l2 v] pos] found] bad]. cbn [fst snd] in H.
  destruct bad; [now left|]. destruct H as [H|H]; [discriminate|].
  cbn [orb]. destruct (Nat.eqb pos 0 && _); [now left|]. destruct (2 ^ 32 <=? v); [now left|]. now right.
Qed.

Lemma fail_stays : forall d n inp write pad buf b i w p bf,
  loc_quad_rest d n inp true write pad buf = Done (b, i, w, p, bf) -> b = true.
Proof.
  intros d n. induction n as [|n IH]; intros inp write pad buf b i w p bf H; cbn [loc_quad_rest] in H.
  - now injection H as <-.
  - destruct inp as [|c inp']; [now injection H as <-|]. destruct (c =? 0x2e); [|now injection H as <-].
    destruct (loc_uint d inp') as [[inp2 v] bad]. destruct (wr buf write (v mod 256)); [|discriminate].
    cbn [orb] in H. now apply IH in H.
Qed.

Lemma dot_quad_rest : forall d n inp fail write pad buf b i w p bf, d_grouped d = true -> d_sep d = 46 ->
  loc_quad_rest d (S (S n)) inp fail write pad buf = Done (b, i, w, p, bf) -> b = true.
Proof.
  intros d n inp fail write pad buf b i w p bf G S0 H.
  remember (S n) as m. cbn [loc_quad_rest] in H. subst m.
  destruct inp as [|c inp']; [now injection H as <-|]. destruct (c =? 0x2e); [|now injection H as <-].
  pose proof (dot_uint d inp' G S0) as U.
  destruct (loc_uint d inp') as [[inp2 v] bad]. cbn [fst snd] in U.
  destruct (wr buf write (v mod 256)); [|discriminate].
  destruct U as [-> |U].
  - rewrite orb_true_r in H. now apply fail_stays in H.
  - cbn [loc_quad_rest] in H. destruct inp2 as [|x inp2]; [now injection H as <-|].
    cbn in U. destruct (N.eqb_spec x 0x2e) as [-> |X]; [now exfalso; apply U|]. now injection H as <-.
Qed.

Lemma dot_quad : forall d inp write pad chunk buf b i w p bf, d_grouped d = true -> d_sep d = 46 ->
  loc_quad d inp write pad chunk buf = Done (b, i, w, p, bf) -> b = true.
Proof.
  intros d inp write pad chunk buf b i w p bf G S0 H. unfold loc_quad in H.
  destruct (Nat.eqb write 0).
  - destruct (wr buf 0 0xff) as [d1|]; [|discriminate]. destruct (wr d1 1 0xff) as [d2|]; [|discriminate].
    destruct (wr d2 2 (quad_first chunk)); [|discriminate]. now apply dot_quad_rest in H.
  - destruct (Nat.ltb 12 write); [now injection H as <-|].
    destruct (wr buf write (quad_first chunk)); [|discriminate]. now apply dot_quad_rest in H.
Qed.

Lemma dot_loop : forall d fuel count inp lastColon write pad chunk buf i w p bf,
  d_grouped d = true -> d_sep d = 46 ->
  loc_loop d fuel count inp lastColon write pad chunk buf = Done (false, i, w, p, bf) ->
  exists t, inp = t ++ i /\ ~ In 46 t.
Proof.
  intros d fuel. induction fuel as [|f IH]; intros count inp lastColon write pad chunk buf i w p bf G S0 H;
    cbn [loc_loop] in H; [discriminate|].
  destruct (40 <? trunc 8 (count + 1)); [discriminate|].
  assert (STEP : forall r, (exists t, tl inp = t ++ r /\ ~ In 46 t) ->
     match inp with c :: _ => c | [] => 0xff end <> 46 -> exists t, inp = t ++ r /\ ~ In 46 t).
  { intros r (t & E & I) C. destruct inp as [|c inp].
    - exists t. auto.
    - cbn [tl] in E. exists (c :: t). split; [cbn; now rewrite <- E|]. intros [-> |J]; auto. }
  set (cur := match inp with c :: _ => c | [] => 0xff end) in *.
  destruct (hex_offset cur) eqn:HO.
  - apply STEP; [now apply IH in H|]. intro C. rewrite C in HO. discriminate HO.
  - destruct (N.eqb_spec cur 0x2e) as [C|C].
    + apply dot_quad in H; auto. discriminate.
    + destruct ((cur =? 0x3a) && lastColon).
      * destruct (match pad with Some q => negb (Nat.eqb q write) | None => false end); [discriminate|].
        apply STEP; [now apply IH in H|exact C].
      * destruct (wr buf write _) as [d1|]; [|discriminate]. destruct (wr d1 (S write) _) as [d2|]; [|discriminate].
        destruct (Nat.leb asize (write + 2)).
        -- injection H as <- <- <- <-. exists []. split; auto.
        -- destruct (negb (cur =? 0x3a)).
           ++ destruct pad; [|discriminate]. injection H as <- <- <- <-. exists []. split; auto.
           ++ apply STEP; [now apply IH in H|exact C].
Qed.

Lemma dot_refuses : forall d fuel inp junk a rest, d_grouped d = true -> d_sep d = 46 ->
  loc_extract d fuel inp junk = Done (Some a, rest) -> exists t, inp = t ++ rest /\ ~ In 46 t.
Proof.
  intros d fuel inp junk a rest G S0 H. unfold loc_extract in H.
  destruct (loc_loop d fuel 0 (skip_ws inp) true 0 None 0 junk) as [[[[[b i] w] p] bf]| |] eqn:E; try discriminate.
  destruct b; [discriminate|]. injection H as _ <-. apply dot_loop in E; auto.
  destruct E as (t & E & I). destruct (skip_ws_suffix inp) as (q & Q & J).
  exists (q ++ t). split; [rewrite Q at 1; rewrite E; apply app_assoc|].
  intro K. apply in_app_or in K as [K|K]; auto.
Qed.

(* ------------------------------------------------------------------ *)
(** * The comma *)

Lemma comma_witness : forall junk, length junk = 16%nat ->
  loc_extract (mkDigits true 44 threes) 60 (lit "10.0.0.1,100.0.0.1") junk =
    Done (Some (repeat 0 10 ++ [255; 255; 10; 0; 0; 76]), lit ".0.0.1").
Proof.
  intros junk L. do 16 (destruct junk as [|? junk]; [discriminate L|]). destruct junk; [|discriminate L].
  reflexivity.
Qed.

Lemma read_standard : forall d t a ws after junk fuel,
  separator (d_sep d) -> (d_grouped d = true -> apart (d_sep d) (ws ++ t ++ after)) ->
  address_text t a -> ~ compat_text t -> text_ends after -> length junk = 16%nat ->
  Forall blank ws -> (length t + 4 <= fuel)%nat ->
  loc_extract d fuel (ws ++ t ++ after) junk = Done (Some a, after).
Proof.
  intros. rewrite read_same by auto. now apply extract_text_blank.
Qed.
