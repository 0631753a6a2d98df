(** Proofs about what texts are taken for addresses. *)
From Coq Require Import String List NArith ZArith Bool Arith Lia.
From Verif Require Import Model.Base Model.WebMaps Model.HttpCodec Model.Address
  Spec.EndianSpec Spec.AddressSpec Spec.LooseSpec Proofs.Arith Proofs.AddressProofs
  Proofs.AddressPrintProofs Proofs.ExtractProofs.
Import ListNotations.
Local Open Scope N_scope.

(* ------------------------------------------------------------------ *)
(** * Fields *)

Lemma fields_some : forall t, exists fs f, fields t = fs ++ [f].
Proof.
  induction t as [|c t (fs & f & E)].
  - exists [], []. reflexivity.
  - cbn. destruct (c =? 58).
    + exists ([] :: fs), f. now rewrite E.
    + rewrite E. destruct fs as [|g fs]; cbn; [exists [], (c :: f)|exists ((c :: g) :: fs), f]; reflexivity.
Qed.

Lemma fields_colon : forall t, fields (t ++ [58]) = fields t ++ [[]].
Proof.
  induction t as [|c t IH]; [reflexivity|]. cbn. rewrite IH. destruct (c =? 58); [reflexivity|].
  destruct (fields_some t) as (fs & f & E). rewrite E. destruct fs; reflexivity.
Qed.

Lemma fields_tail : forall q t fs f, ~ In 58 q -> fields t = fs ++ [f] -> fields (t ++ q) = fs ++ [f ++ q].
Proof.
  induction q as [|x q IHq]; intros t fs f N E; [now rewrite !app_nil_r|].
  replace (t ++ x :: q) with ((t ++ [x]) ++ q) by (rewrite <- app_assoc; reflexivity).
  replace (f ++ x :: q) with ((f ++ [x]) ++ q) by (rewrite <- app_assoc; reflexivity).
  apply IHq; [intro I; apply N; now right|].
  assert (X : x =? 58 = false) by (apply N.eqb_neq; intro; apply N; now left).
  clear IHq N q. revert fs f E.
  induction t as [|c t IH]; intros fs f E; cbn in *.
  - rewrite X. destruct fs as [|g fs]; [injection E as <-; reflexivity|]. now destruct fs.
  - destruct (c =? 58) eqn:C.
    + destruct fs as [|g fs].
      { cbn in E. injection E as <- E2. destruct (fields_some t) as (a & b & Z). rewrite Z in E2. now destruct a. }
      cbn in E. injection E as <- E2. now rewrite (IH _ _ E2).
    + destruct (fields_some t) as (a & b & Z). rewrite (IH _ _ Z). rewrite Z in E.
      destruct a as [|g a]; cbn in *.
      * apply (app_inj_tail [] fs) in E as [<- <-]. reflexivity.
      * apply (app_inj_tail ((c :: g) :: a) fs) in E as [<- <-]. reflexivity.
Qed.

Lemma given_snoc : forall fs f, f <> [] -> given (fs ++ [f]) = given fs ++ [f].
Proof. intros fs f H. unfold given. rewrite filter_app. cbn. now destruct f. Qed.

Lemma given_empty : forall fs, given (fs ++ [[]]) = given fs.
Proof. intro fs. unfold given. rewrite filter_app. cbn. now rewrite app_nil_r. Qed.

Lemma given_all : forall fs, ~ In [] fs -> given fs = fs.
Proof.
  induction fs as [|f fs IH]; intro N; [reflexivity|]. cbn.
  destruct f; [destruct N; now left|]. f_equal. apply IH. intro I. apply N. now right.
Qed.

Lemma given_gap : forall n r, given (repeat [] n ++ r) = given r.
Proof. induction n; intro r; [reflexivity|apply IHn]. Qed.

Lemma given_parts : forall l n r, ~ In [] l -> ~ In [] r -> given (l ++ repeat [] n ++ r) = l ++ r.
Proof.
  intros l n r L R. unfold given. rewrite filter_app. fold (given l). fold (given (repeat [] n ++ r)).
  now rewrite given_gap, !given_all.
Qed.

(** The state of the scan: [pad] against the fields before the current one. *)
Definition pinv (fs : list (list N)) (pad : option nat) : Prop :=
  match pad with
  | None => ~ In [] fs
  | Some q => exists l n r, fs = l ++ repeat [] (S n) ++ r /\ ~ In [] l /\ ~ In [] r /\ q = (2 * length l)%nat
  end.

Lemma pinv_group : forall fs f pad, f <> [] -> pinv fs pad -> pinv (fs ++ [f]) pad.
Proof.
  intros fs f [q|] F P; cbn in *.
  - destruct P as (l & n & r & -> & L & R & E). exists l, n, (r ++ [f]). cbn [repeat app]. rewrite <- !app_assoc.
    cbn [app]. rewrite <- app_assoc. repeat split; auto.
    intro I. apply in_app_or in I as [I|[I|[]]]; auto.
  - intro I. apply in_app_or in I as [I|[I|[]]]; auto.
Qed.

Lemma pinv_gap : forall fs pad,
  pinv fs pad -> match pad with Some p => p = (2 * length (given fs))%nat | None => True end ->
  pinv (fs ++ [[]]) (Some (2 * length (given fs))%nat).
Proof.
  intros fs [q|] P Q; unfold pinv in P.
  - destruct P as (l & n & r & E & L & R & Z). rewrite E in Q. rewrite given_parts in Q by assumption.
    rewrite app_length in Q. assert (r = []) by (destruct r; [reflexivity|cbn [length] in Q; lia]). subst r.
    rewrite E. exists l, (S n), []. rewrite given_parts by assumption. rewrite !app_nil_r.
    repeat split; auto. rewrite <- app_assoc. f_equal. change [[]] with (repeat (@nil N) 1).
    rewrite <- repeat_app. f_equal. lia.
  - exists fs, 0%nat, []. cbn [repeat app]. rewrite given_all by assumption. repeat split; auto.
Qed.

Lemma pinv_one : forall fs pad, pinv fs pad -> one_gap fs.
Proof.
  intros fs [q|] P; cbn in P.
  - destruct P as (l & n & r & E & L & R & _). exists l, (S n), r. auto.
  - exists fs, 0%nat, []. rewrite app_nil_r. auto.
Qed.

Lemma pinv_in : forall fs q, pinv fs (Some q) -> In [] fs.
Proof.
  intros fs q (l & n & r & -> & _). apply in_or_app. right. now left.
Qed.

Lemma hex_field_snoc : forall f c o, hex_field f -> hex_offset c = Some o -> hex_field (f ++ [c]).
Proof.
  intros f c o F H. apply Forall_app. split; auto. constructor; [|constructor].
  exact (hex_offset_digit _ _ H).
Qed.

Lemma hex_not_colon : forall c o, hex_offset c = Some o -> c <> 58 /\ c <> 46.
Proof. intros c o H. split; intros ->; discriminate H. Qed.

(* ------------------------------------------------------------------ *)
(** * From a stream *)

Lemma get_digits_form : forall l v any l2 v2 any2, get_digits l v any = (l2, v2, any2) ->
  exists ds, l = ds ++ l2 /\ Forall (fun c => exists d, digit 10 c d) ds /\ (any2 = true -> any = true \/ ds <> []).
Proof.
  induction l as [|c l IH]; intros v any l2 v2 any2 E; cbn in E.
  - injection E as <- <- <-. exists []. repeat split; auto.
  - destruct ((0x30 <=? c) && (c <=? 0x39)) eqn:B.
    + apply IH in E as (ds & -> & F & A). exists (c :: ds). repeat split.
      * constructor; auto. apply andb_true_iff in B as [B1 B2]. apply N.leb_le in B1, B2.
        exists (c - 48). replace c with (48 + (c - 48)) at 1 by lia. apply digit_num; lia.
      * intros _. right. discriminate.
    + injection E as <- <- <-. exists []. repeat split; auto.
Qed.

Lemma get_uint_form : forall l l2 v, get_uint l = (l2, v, false) ->
  exists t, l = t ++ l2 /\ signed_number t.
Proof.
  intros l l2 v. unfold get_uint.
  set (s := match l with
    | c :: l' => if c =? 0x2d then (true, l') else if c =? 0x2b then (false, l') else (false, l)
    | [] => (false, [])
    end).
  assert (S : exists p, l = p ++ snd s /\ (p = [] \/ p = [43] \/ p = [45])).
  { subst s. destruct l as [|c l']; [exists []; auto|].
    destruct (N.eqb_spec c 0x2d) as [->|_]; [exists [45]; auto|].
    destruct (N.eqb_spec c 0x2b) as [->|_]; [exists [43]; auto|]. exists []. auto. }
  destruct s as [neg l1]. cbn [snd] in S. destruct S as (p & -> & S).
  destruct (get_digits l1 0 false) as [[m w] any] eqn:D. apply get_digits_form in D as (ds & -> & F & A).
  destruct any; cbn [negb]; [|discriminate]. destruct (A eq_refl) as [X|X]; [discriminate|].
  destruct (2 ^ 32 <=? w); [discriminate|]. intro E. injection E as <- _.
  exists (p ++ ds). split; [now rewrite app_assoc|]. exists p, ds. repeat split; auto.
Qed.

Lemma signed_no_colon : forall t, signed_number t -> ~ In 58 t.
Proof.
  intros t (s & ds & -> & S & _ & F) I. apply in_app_or in I as [I|I].
  - destruct S as [->|[->| ->]]; cbn in I; intuition discriminate.
  - apply (proj1 (Forall_forall _ _) F) in I as (d & D). apply digit_dec in D. unfold decd in D. lia.
Qed.

Fixpoint dotted (n : nat) (q : list N) : Prop :=
  match n with
  | O => q = []
  | S n' => exists t q', q = 46 :: t ++ q' /\ signed_number t /\ dotted n' q'
  end.

Lemma x_quad_rest_form : forall n inp fail w pad buf rest w' pad' buf',
  x_quad_rest n inp fail w pad buf = Done (false, rest, w', pad', buf') ->
  fail = false /\ exists q, inp = q ++ rest /\ dotted n q.
Proof.
  induction n as [|n IH]; intros inp fail w pad buf rest w' pad' buf' E; cbn in E.
  - injection E as -> <- <- <- <-. split; auto. exists []. split; reflexivity.
  - destruct inp as [|c inp]; [discriminate|]. destruct (N.eqb_spec c 0x2e) as [->|]; [|discriminate].
    destruct (get_uint inp) as [[i2 v] bad] eqn:G. destruct (wr buf w (v mod 256)); [|discriminate].
    apply IH in E as (F & q & -> & D). apply orb_false_iff in F as [F ->].
    apply get_uint_form in G as (t & -> & S). split; auto. exists (46 :: t ++ q).
    split; [cbn; now rewrite <- app_assoc|]. exists t, q. auto.
Qed.

Lemma x_quad_form : forall inp w pad chunk buf rest w' pad' buf',
  x_quad inp w pad chunk buf = Done (false, rest, w', pad', buf') ->
  (w <= 12)%nat /\ exists q, inp = q ++ rest /\ dotted 3 q.
Proof.
  intros inp w pad chunk buf rest w' pad' buf'. unfold x_quad.
  destruct (Nat.eqb_spec w 0) as [->|_].
  - destruct (wr buf 0 0xff) as [d1|]; [|discriminate]. destruct (wr d1 1 0xff) as [d2|]; [|discriminate].
    destruct (wr d2 2 (quad_first chunk)) as [d3|]; [|discriminate]. intro E.
    apply x_quad_rest_form in E as (_ & E). split; [lia|exact E].
  - destruct (Nat.ltb_spec 12 w) as [|L]; [discriminate|].
    destruct (wr buf w (quad_first chunk)) as [d3|]; [|discriminate]. intro E.
    apply x_quad_rest_form in E as (_ & E). split; [lia|exact E].
Qed.

Lemma dotted_no_colon : forall n q, dotted n q -> ~ In 58 q.
Proof.
  induction n as [|n IH]; intros q D; cbn in D; [subst q; intros []|].
  destruct D as (t & q' & -> & S & D). intros [I|I]; [discriminate|].
  apply in_app_or in I as [I|I]; [exact (signed_no_colon _ S I)|exact (IH _ D I)].
Qed.

Lemma dotted_quad : forall f q, hex_field f -> dotted 3 q -> loose_quad (f ++ q).
Proof.
  intros f q F (t2 & q2 & -> & S2 & t3 & q3 & -> & S3 & t4 & q4 & -> & S4 & E). cbn in E. subst q4.
  exists f, t2, t3, t4. rewrite app_nil_r. repeat split; auto.
Qed.

Lemma x_loop_form : forall fuel k inp lc w pad chunk buf rest w' pad' buf' p fs f,
  x_loop fuel k inp lc w pad chunk buf = Done (false, rest, w', pad', buf') ->
  fields p = fs ++ [f] -> Forall hex_field fs -> hex_field f ->
  lc = (match f with [] => true | _ => false end) -> w = (2 * length (given fs))%nat ->
  (length (given fs) <= 7)%nat -> pinv fs pad ->
  exists t, p ++ inp = t ++ rest /\ loose_text t.
Proof.
  induction fuel as [|fuel IH]; intros k inp lc w pad chunk buf rest w' pad' buf' p fs f E P HF Hf LC W W7 PI;
    [discriminate|].
  cbn [x_loop] in E. destruct (40 <? trunc 8 (k + 1)); [discriminate|].
  destruct (hex_offset (match inp with c :: _ => c | [] => 0xff end)) as [o|] eqn:HX.
  - destruct inp as [|c inp]; [discriminate HX|]. cbn [tl] in E.
    destruct (hex_not_colon _ _ HX) as [C1 _].
    replace (p ++ c :: inp) with ((p ++ [c]) ++ inp) by (rewrite <- app_assoc; reflexivity).
    eapply IH; [exact E| |exact HF| | |exact W|exact W7|exact PI].
    + apply fields_tail; [|exact P]. intros [I|[]]. now apply C1.
    + exact (hex_field_snoc _ _ _ Hf HX).
    + now destruct f.
  - destruct (match inp with c :: _ => c | [] => 0xff end =? 0x2e) eqn:DOT.
    + apply x_quad_form in E as (L & q & -> & D). exists (p ++ q). rewrite app_assoc. split; auto.
      exists fs, (f ++ q). split; [apply fields_tail; [exact (dotted_no_colon _ _ D)|exact P]|].
      split; auto. split; [exact (pinv_one _ _ PI)|]. right. split; [exact (dotted_quad _ _ Hf D)|lia].
    + destruct ((match inp with c :: _ => c | [] => 0xff end =? 0x3a) && lc) eqn:CC.
      * apply andb_true_iff in CC as [CC L]. destruct inp as [|c inp]; [discriminate CC|].
        apply N.eqb_eq in CC. subst c. rewrite LC in L. destruct f as [|]; [|discriminate L].
        destruct (match pad with Some p => negb (Nat.eqb p w) | None => false end) eqn:PW; [discriminate|].
        cbn [tl] in E.
        replace (p ++ 58 :: inp) with ((p ++ [58]) ++ inp) by (rewrite <- app_assoc; reflexivity).
        eapply IH; [exact E| | | | | | |].
        -- rewrite fields_colon, P. reflexivity.
        -- apply Forall_app. split; auto.
        -- constructor.
        -- reflexivity.
        -- rewrite given_empty. exact W.
        -- rewrite given_empty. exact W7.
        -- rewrite W. apply pinv_gap with (pad := pad); [exact PI|].
           destruct pad as [q|]; [|trivial]. apply negb_false_iff, Nat.eqb_eq in PW. lia.
      * destruct (wr buf w (N.shiftr (N.land chunk 0xff00) 8)) as [d1|]; [|discriminate].
        destruct (wr d1 (S w) (N.land chunk 0x00ff)) as [d2|]; [|discriminate].
        assert (T : fields p = fs ++ [f] /\ Forall hex_field fs /\ one_gap fs)
          by (split; [exact P|split; [exact HF|exact (pinv_one _ _ PI)]]).
        destruct (Nat.leb_spec asize (w + 2)) as [W8|W8]; unfold asize in W8.
        { injection E as <- <- <- <-. exists p. split; auto. exists fs, f. destruct T as (T1 & T2 & T3).
          split; auto. split; auto. split; auto. left. split; auto. left. lia. }
        destruct (negb (match inp with c :: _ => c | [] => 0xff end =? 0x3a)) eqn:NC.
        { injection E as PD <- <- <- <-. destruct pad as [q|]; [|discriminate PD].
          exists p. split; auto. exists fs, f. destruct T as (T1 & T2 & T3).
          split; auto. split; auto. split; auto. left. split; auto. right. split; [lia|].
          exact (pinv_in _ _ PI). }
        apply negb_false_iff in NC. rewrite NC in CC. destruct inp as [|c inp]; [discriminate NC|].
        apply N.eqb_eq in NC. subst c. cbn [tl] in E.
        assert (f <> []) by (intros ->; rewrite LC in CC; discriminate CC).
        replace (p ++ 58 :: inp) with ((p ++ [58]) ++ inp) by (rewrite <- app_assoc; reflexivity).
        eapply IH; [exact E| | | | | | |].
        -- rewrite fields_colon, P. reflexivity.
        -- apply Forall_app. split; auto.
        -- constructor.
        -- reflexivity.
        -- rewrite given_snoc by assumption. rewrite app_length. cbn [length]. lia.
        -- rewrite given_snoc by assumption. rewrite app_length. cbn [length]. lia.
        -- apply pinv_group; assumption.
Qed.

Lemma skip_ws_form : forall l, exists ws, l = ws ++ skip_ws l /\ forallb is_space ws = true.
Proof.
  induction l as [|c l (ws & E & F)]; [exists []; auto|]. cbn. destruct (is_space c) eqn:S.
  - exists (c :: ws). cbn. rewrite S, F. now rewrite <- E.
  - exists []. auto.
Qed.

Theorem extract_accepts : forall fuel inp junk a rest,
  extract fuel inp junk = Done (Some a, rest) ->
  exists ws t, inp = ws ++ t ++ rest /\ forallb is_space ws = true /\ loose_text t.
Proof.
  intros fuel inp junk a rest. unfold extract.
  destruct (x_loop fuel 0 (skip_ws inp) true 0 None 0 junk) as [[[[[[|] r] w] pad] buf]| |] eqn:X;
    try discriminate.
  intro E. assert (R : r = rest) by congruence. subst r.
  apply (x_loop_form _ _ _ _ _ _ _ _ _ _ _ _ [] [] []) in X;
    [|reflexivity|constructor|constructor|reflexivity|reflexivity|cbn; lia|intros []].
  destruct X as (t & Et & L). destruct (skip_ws_form inp) as (ws & Ew & S).
  exists ws, t. rewrite <- Et. auto.
Qed.

(* ------------------------------------------------------------------ *)
(** * From memory *)

Lemma find_dot_form : forall fuel s a after pt,
  find_dot fuel (a ++ s ++ after) (length a) (length a + length s) = Done pt ->
  exists u v, s = u ++ v /\ ~ In 46 u /\ pt = (length a + length u)%nat /\
    (v = [] \/ exists v', v = 46 :: v').
Proof.
  induction fuel as [|fuel IH]; intros s a after pt E; destruct s as [|c s].
  1, 3: cbn [find_dot length] in E; rewrite Nat.add_0_r, Nat.leb_refl in E; injection E as <-;
    exists [], []; cbn; repeat split; auto; lia.
  - cbn [find_dot] in E. destruct (Nat.leb_spec (length a + length (c :: s)) (length a)) as [L|L]; [cbn in L; lia|].
    cbn [app] in E. rewrite rd_at in E. destruct (N.eqb_spec c 0x2e) as [->|]; [|discriminate].
    injection E as <-. exists [], (46 :: s). cbn. repeat split; eauto; lia.
  - cbn [find_dot] in E. destruct (Nat.leb_spec (length a + length (c :: s)) (length a)) as [L|L]; [cbn in L; lia|].
    cbn [app] in E. rewrite rd_at in E. destruct (N.eqb_spec c 0x2e) as [->|D].
    + injection E as <-. exists [], (46 :: s). cbn. repeat split; eauto; lia.
    + replace (a ++ c :: s ++ after) with ((a ++ [c]) ++ s ++ after) in E by (rewrite <- app_assoc; reflexivity).
      replace (S (length a)) with (length (a ++ [c])) in E by (rewrite app_length; cbn; lia).
      replace (length a + length (c :: s))%nat with (length (a ++ [c]) + length s)%nat in E
        by (rewrite app_length; cbn; lia).
      apply IH in E as (u & v & -> & N & -> & V). exists (c :: u), v. repeat split; auto.
      * intros [I|I]; auto.
      * rewrite app_length. cbn. lia.
Qed.

Fixpoint dots (n : nat) (s : list N) : Prop :=
  match n with
  | O => s <> []
  | S n' => exists u v, s = u ++ 46 :: v /\ ~ In 46 u /\ dots n' v
  end.

Lemma quad_rest_form : forall n s a after w pad data w' pad' data',
  quad_rest n (a ++ s ++ after) (length a) (length a + length s) w pad data = Done (false, w', pad', data') ->
  s <> [] -> dots n s.
Proof.
  induction n as [|n IH]; intros s a after w pad data w' pad' data' E S; [exact S|].
  cbn [quad_rest] in E. destruct (Nat.leb_spec (length a + length s) (length a)) as [L|L].
  { destruct s; [now destruct S|cbn in L; lia]. }
  destruct (find_dot (length (a ++ s ++ after)) (a ++ s ++ after) (length a) (length a + length s))
    as [pt| |] eqn:F; try discriminate E.
  apply find_dot_form in F as (u & v & -> & N & -> & V).
  destruct (Nat.ltb_spec (length a + length u) (length a + length (u ++ v) - 1)) as [P|P]; [|discriminate E].
  rewrite app_length in P. destruct V as [->|(v' & ->)]; [cbn in P; lia|].
  destruct (atoi _ 32 _ _ _) as [z| |]; try discriminate E.
  destruct (wr data w (Z.to_N (z mod 256))) as [d|]; [|discriminate E].
  replace (a ++ (u ++ 46 :: v') ++ after) with ((a ++ u ++ [46]) ++ v' ++ after) in E
    by (rewrite <- !app_assoc; reflexivity).
  replace (Datatypes.S (length a + length u)) with (length (a ++ u ++ [46])) in E
    by (rewrite !app_length; cbn; lia).
  replace (length a + length (u ++ 46%N :: v'))%nat with (length (a ++ u ++ [46%N]) + length v')%nat in E
    by (rewrite !app_length; cbn; lia).
  exists u, v'. split; auto. split; auto. eapply IH; [exact E|]. intros ->. cbn in P. lia.
Qed.

Lemma quad_form : forall s a after w pad chunk data w' pad' data',
  quad (a ++ s ++ after) (length a) (length a + length s) w pad chunk data = Done (false, w', pad', data') ->
  s <> [] -> (w <= 12)%nat /\ dots 3 s.
Proof.
  intros s a after w pad chunk data w' pad' data'. unfold quad.
  destruct (Nat.eqb_spec w 0) as [->|_].
  - destruct (wr data 0 0xff) as [d1|]; [|discriminate]. destruct (wr d1 1 0xff) as [d2|]; [|discriminate].
    destruct (wr d2 2 (quad_first chunk)) as [d3|]; [|discriminate]. intros E S.
    split; [lia|exact (quad_rest_form _ _ _ _ _ _ _ _ _ _ E S)].
  - destruct (Nat.ltb_spec 12 w) as [|L]; [discriminate|].
    destruct (wr data w (quad_first chunk)) as [d3|]; [|discriminate]. intros E S.
    split; [lia|exact (quad_rest_form _ _ _ _ _ _ _ _ _ _ E S)].
Qed.

Lemma dots_three : forall f s, hex_field f -> dots 3 (46 :: s) -> three_dots (f ++ 46 :: s).
Proof.
  intros f s F (u & v & E & N & u2 & v2 & -> & N2 & u3 & v3 & -> & N3 & X).
  destruct u as [|x u]; [|injection E as <- _; destruct N; now left].
  injection E as ->. exists f, u2, u3, v3. repeat split; auto.
Qed.

(** What stands before the current position. *)
Lemma fields_last : forall p fs f, fields p = fs ++ [f] ->
  (if Nat.eqb (length p) 0 then Some 0x3a else rd p (length p - 1)) = Some 58 <-> f = [].
Proof.
  intros p. induction p as [|c p IH] using rev_ind; intros fs f E.
  - cbn in *. apply (app_inj_tail [] fs) in E as [_ <-]. split; reflexivity.
  - rewrite app_length. cbn [length]. rewrite Nat.add_1_r. cbn [Nat.eqb]. rewrite Nat.sub_succ, Nat.sub_0_r.
    rewrite rd_at. destruct (N.eqb_spec c 58) as [->|C].
    + rewrite fields_colon in E. apply app_inj_tail in E as [_ <-]. split; reflexivity.
    + destruct (fields_some p) as (gs & g & P).
      rewrite (fields_tail [c] p gs g) in E; [|intros [I|[]]; auto|exact P].
      apply app_inj_tail in E as [_ <-]. split; [congruence|]. intro X. now destruct g.
Qed.

Definition popt (pad : nat) : option nat := if Nat.eqb pad asize then None else Some pad.

Lemma popt_some : forall n, (n <= 14)%nat -> popt n = Some n.
Proof. intros n H. unfold popt. destruct (Nat.eqb_spec n asize); [unfold asize in *; lia|reflexivity]. Qed.

Lemma a_loop_form : forall fuel p s after w pad chunk data w' pad' data' fs f,
  a_loop fuel (p ++ s ++ after) (length p + length s) (length p) w pad chunk data = Done (false, w', pad', data') ->
  fields p = fs ++ [f] -> Forall hex_field fs -> hex_field f -> w = (2 * length (given fs))%nat ->
  (length (given fs) <= 7)%nat -> pinv fs (popt pad) ->
  looser_text (p ++ s).
Proof.
  induction fuel as [|fuel IH]; intros p s after w pad chunk data w' pad' data' fs f E P HF Hf W W7 PI;
    [discriminate|].
  cbn [a_loop] in E.
  set (mem := p ++ s ++ after) in *.
  assert (PV : (if Nat.eqb (length p) 0 then Some 0x3a else rd mem (length p - 1))
    = (if Nat.eqb (length p) 0 then Some 0x3a else rd p (length p - 1))).
  { destruct (Nat.eqb_spec (length p) 0); [reflexivity|]. subst mem. apply rd_app1. lia. }
  assert (NG : pad <> asize -> forall q, q = pad -> pinv fs (Some q)).
  { intros D q ->. unfold popt in PI. destruct (Nat.eqb_spec pad asize); [contradiction|exact PI]. }
  destruct s as [|c s].
  - cbn [length] in E. rewrite Nat.add_0_r, Nat.leb_refl in E. rewrite PV in E.
    exists p, [], fs, f. rewrite app_nil_r. split; auto. split; auto. split; auto. split; auto.
    destruct (if Nat.eqb (length p) 0 then Some 0x3a else rd p (length p - 1)) as [prev|] eqn:PR; [|discriminate E].
    destruct (N.eqb_spec prev 0x3a) as [->|NP].
    + apply (proj1 (fields_last _ _ _ P)) in PR. subst f.
      destruct (negb (Nat.eqb pad asize) && negb (Nat.eqb pad w)) eqn:B; [discriminate E|].
      right. left. split; auto.
      assert (G : pinv (fs ++ [[]]) (Some (2 * length (given fs))%nat)).
      { apply pinv_gap with (pad := popt pad); auto. unfold popt. destruct (Nat.eqb_spec pad asize); [trivial|].
        cbn in B. apply negb_false_iff, Nat.eqb_eq in B. lia. }
      split; [exact (pinv_one _ _ G)|]. split; [rewrite given_empty; lia|exact (pinv_in _ _ G)].
    + assert (FN : f <> []).
      { intro X. apply (proj2 (fields_last _ _ _ P)) in X. congruence. }
      destruct (wr data w (N.shiftr (N.land chunk 0xff00) 8)) as [d1|]; [|discriminate].
      destruct (wr d1 (S w) (N.land chunk 0x00ff)) as [d2|]; [|discriminate].
      rewrite orb_true_r in E. injection E as E _ _ _. cbn [andb] in E.
      destruct (Nat.ltb_spec (w + 2) asize) as [L|L]; unfold asize in L.
      * right. left. split; auto. cbn [andb] in E. apply Nat.eqb_neq in E.
        pose proof (pinv_group _ f _ FN (NG E pad eq_refl)) as G.
        split; [exact (pinv_one _ _ G)|]. split; [|exact (pinv_in _ _ G)].
        rewrite given_snoc by assumption. rewrite app_length. cbn [length]. lia.
      * left. split; auto. split; [exact (pinv_one _ _ PI)|]. split; [lia|exact FN].
  - destruct (Nat.leb_spec (length p + length (c :: s)) (length p)) as [L|_]; [cbn in L; lia|].
    assert (RD : rd mem (length p) = Some c) by (subst mem; cbn [app]; apply rd_at).
    rewrite RD in E. cbn [option_map] in E.
    assert (STEP : forall g w2 pad2 chunk2 data2 gs,
      a_loop fuel mem (length p + length (c :: s)) (S (length p)) w2 pad2 chunk2 data2 = Done (false, w', pad', data') ->
      fields (p ++ [c]) = gs ++ [g] -> Forall hex_field gs -> hex_field g -> w2 = (2 * length (given gs))%nat ->
      (length (given gs) <= 7)%nat -> pinv gs (popt pad2) -> looser_text (p ++ c :: s)).
    { intros g w2 pad2 chunk2 data2 gs X A1 A2 A3 A4 A5 A6.
      replace (p ++ c :: s) with ((p ++ [c]) ++ s) by (rewrite <- app_assoc; reflexivity).
      refine (IH (p ++ [c]) s after w2 pad2 chunk2 data2 w' pad' data' gs g _ A1 A2 A3 A4 A5 A6).
      rewrite <- X. subst mem. f_equal; [rewrite <- app_assoc; reflexivity| |];
        rewrite app_length; cbn [length]; lia. }
    destruct (N.eqb_spec c 0x3a) as [->|C].
    + rewrite PV in E.
      destruct (if Nat.eqb (length p) 0 then Some 0x3a else rd p (length p - 1)) as [prev|] eqn:PR; [|discriminate E].
      destruct (N.eqb_spec prev 0x3a) as [->|NP].
      * apply (proj1 (fields_last _ _ _ P)) in PR. subst f.
        destruct (negb (Nat.eqb pad asize) && negb (Nat.eqb pad w)) eqn:B; [discriminate E|].
        eapply STEP; [exact E| | | | | |].
        -- rewrite fields_colon, P. reflexivity.
        -- apply Forall_app. split; auto.
        -- constructor.
        -- rewrite given_empty. exact W.
        -- rewrite given_empty. exact W7.
        -- rewrite popt_some by lia. rewrite W. apply pinv_gap with (pad := popt pad); auto.
           unfold popt. destruct (Nat.eqb_spec pad asize); [trivial|].
           cbn in B. apply negb_false_iff, Nat.eqb_eq in B. lia.
      * assert (FN : f <> []).
        { intro X. apply (proj2 (fields_last _ _ _ P)) in X. congruence. }
        destruct (wr data w (N.shiftr (N.land chunk 0xff00) 8)) as [d1|]; [|discriminate].
        destruct (wr d1 (S w) (N.land chunk 0x00ff)) as [d2|]; [|discriminate].
        destruct (Nat.leb_spec (length p + length (58 :: s)) (length p)) as [L|_]; [cbn in L; lia|].
        rewrite orb_false_r in E. cbn [andb] in E.
        destruct (Nat.leb_spec asize (w + 2)) as [L|L]; unfold asize in L.
        -- exists p, (58 :: s), fs, f. split; auto. split; auto. split; auto. split; auto.
           left. split; [eauto|]. split; [exact (pinv_one _ _ PI)|]. split; [lia|exact FN].
        -- eapply STEP; [exact E| | | | | |].
           ++ rewrite fields_colon, P. reflexivity.
           ++ apply Forall_app. split; auto.
           ++ constructor.
           ++ rewrite given_snoc by assumption. rewrite app_length. cbn [length]. lia.
           ++ rewrite given_snoc by assumption. rewrite app_length. cbn [length]. lia.
           ++ apply pinv_group; assumption.
    + destruct (hex_offset c) as [o|] eqn:HX.
      * eapply STEP; [exact E| |exact HF| |exact W|exact W7|exact PI].
        -- apply fields_tail; [|exact P]. intros [I|[]]. now apply C.
        -- exact (hex_field_snoc _ _ _ Hf HX).
      * destruct (N.eqb_spec c 0x2e) as [->|]; [|discriminate E].
        apply quad_form in E as (L & D); [|discriminate].
        exists p, (46 :: s), fs, f. split; auto. split; auto. split; auto. split; auto.
        right. right. split; [exact (dots_three _ _ Hf D)|]. split; [exact (pinv_one _ _ PI)|lia].
Qed.

Theorem assign_accepts : forall fuel t after data a,
  assign fuel (t ++ after) (length t) data = Done a -> a <> repeat 0 16 -> looser_text t.
Proof.
  intros fuel t after data a. unfold assign.
  destruct (a_loop fuel (t ++ after) (length t) 0 0 asize 0 data) as [[[[[|] w] pad] d]| |] eqn:X; try discriminate.
  - intros E N. destruct N. injection E as <-. reflexivity.
  - intros _ _. apply (a_loop_form fuel [] t after _ _ _ _ _ _ _ [] []) in X;
      [exact X|reflexivity|constructor|constructor|reflexivity|cbn; lia|intros []].
Qed.

Lemma extract_accepts_blank : forall fuel inp junk a rest,
  extract fuel inp junk = Done (Some a, rest) ->
  exists ws t, inp = ws ++ t ++ rest /\ Forall blank ws /\ loose_text t.
Proof.
  intros fuel inp junk a rest H. destruct (extract_accepts _ _ _ _ _ H) as (ws & t & E & W & L).
  exists ws, t. split; [exact E|]. split; [|exact L]. now apply ExtractProofs.blanks.
Qed.
