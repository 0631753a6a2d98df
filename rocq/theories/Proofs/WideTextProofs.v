(** Wide text in and out. *)
From Coq Require Import String List NArith ZArith Bool Arith Lia.
From Verif Require Import Model.Base Model.HttpCodec Model.Streams Model.Environment Model.Multipart Model.Curl Model.WideText
  Model.Request Model.Examples
  Spec.WireSpec Spec.EscapeSpec Spec.StreamSpec Spec.AddressSpec Spec.EnvironmentSpec Spec.RequestSpec Spec.PageSpec Spec.WideTextSpec Spec.MultipartSpec
  Proofs.UrlProofs Proofs.MultipartProofs Proofs.CurlProofs Proofs.StreamProofs Proofs.SqlProofs Proofs.RequestLifeProofs Proofs.ExampleRuns Proofs.AgreeProofs.
Import ListNotations.
Local Open Scope N_scope.

Lemma wide_in : forall strict u old, Forall scalar u -> vts_wide strict (utf8 u) old = u.
Proof. intros strict u old S. unfold vts_wide. rewrite from_bytes_ok by exact S. reflexivity. Qed.

Lemma wide_cut : forall strict u c p q old, Forall scalar u -> scalar c -> utf8_1 c = p ++ q -> p <> [] -> q <> [] ->
  vts_wide strict (utf8 u ++ p) old = u.
Proof.
  intros strict u c p q old S C E P Q. unfold vts_wide, from_bytes. assert (L := length_utf8 u).
  assert (LP : (0 < length p)%nat) by (destruct p; [congruence|cbn; lia]).
  rewrite ucs4_in_text by (auto; rewrite app_length; lia). rewrite app_length.
  destruct (length (utf8 u) + length p - length u)%nat as [|f] eqn:F; [lia|]. cbn [app ucs4_in].
  destruct p as [|x p'] eqn:PP; [congruence|]. rewrite <- PP in *.
  rewrite (read_cut strict c p q) by auto. reflexivity.
Qed.

(** * What is accepted *)
Lemma continuation_range : forall b, b < 256 -> continuation b = true -> 128 <= b /\ b < 192.
Proof.
  intros b B C.
  assert (X : forallb (fun n => implb (continuation (N.of_nat n)) ((128 <=? N.of_nat n) && (N.of_nat n <? 192))) (seq 0 256) = true) by reflexivity.
  rewrite forallb_forall in X. specialize (X (N.to_nat b)). rewrite N2Nat.id, C in X. cbn [implb] in X.
  assert (I : In (N.to_nat b) (seq 0 256)) by (apply in_seq; lia). specialize (X I). apply andb_prop in X as [X1 X2]. lia.
Qed.

Lemma digit1 : forall a d, d < 64 -> (a * 64 + d) / 64 = a /\ (a * 64 + d) mod 64 = d.
Proof.
  intros a d L. split; symmetry; [apply (N.div_unique _ 64 a d)|apply (N.mod_unique _ 64 a d)]; lia.
Qed.
Lemma digits2 : forall a b d, b < 64 -> d < 64 -> let c := (a * 64 + b) * 64 + d in
  c / 4096 = a /\ c / 64 mod 64 = b /\ c mod 64 = d.
Proof.
  intros a b d L1 L2 c. subst c. destruct (digit1 (a * 64 + b) d L2) as [Q M]. destruct (digit1 a b L1) as [Q1 M1].
  change 4096 with (64 * 64). rewrite <- N.div_div, Q, Q1, M1, M by discriminate. auto.
Qed.
Lemma digits3 : forall a b d e, b < 64 -> d < 64 -> e < 64 -> let c := ((a * 64 + b) * 64 + d) * 64 + e in
  c / 262144 = a /\ c / 4096 mod 64 = b /\ c / 64 mod 64 = d /\ c mod 64 = e.
Proof.
  intros a b d e L1 L2 L3 c. subst c. destruct (digit1 ((a * 64 + b) * 64 + d) e L3) as [Q M].
  destruct (digit1 (a * 64 + b) d L2) as [Q1 M1]. destruct (digit1 a b L1) as [Q2 M2].
  change 262144 with (64 * 64 * 64). change 4096 with (64 * 64). rewrite <- !N.div_div, Q, Q1, Q2, M1, M2, M by discriminate. auto.
Qed.

Lemma enc2 : forall a d, 2 <= a -> a < 32 -> d < 64 -> scalar (a * 64 + d) /\ utf8_1 (a * 64 + d) = [192 + a; 128 + d].
Proof.
  intros a d L U D. destruct (digit1 a d D) as [Q M]. unfold utf8_1. rewrite Q, M. clear Q M.
  split; [unfold scalar; lia|]. destruct (N.ltb_spec (a * 64 + d) 128); [lia|]. destruct (N.ltb_spec (a * 64 + d) 2048); [reflexivity|lia].
Qed.
Lemma enc3 : forall a b d, a < 16 -> b < 64 -> d < 64 -> (a = 0 -> 32 <= b) -> (a = 13 -> b < 32) ->
  scalar ((a * 64 + b) * 64 + d) /\ utf8_1 ((a * 64 + b) * 64 + d) = [224 + a; 128 + b; 128 + d].
Proof.
  intros a b d L B D E0 E13. destruct (digits2 a b d B D) as (Q & M & M1). unfold utf8_1. rewrite Q, M, M1. clear Q M M1.
  set (c := (a * 64 + b) * 64 + d) in *.
  assert (R : 2048 <= c /\ c < 65536) by (subst c; destruct (N.eq_dec a 0); lia).
  split; [unfold scalar; subst c; destruct (N.lt_trichotomy a 13) as [K|[K|K]]; lia|]. destruct (N.ltb_spec c 128); [lia|].
  destruct (N.ltb_spec c 2048); [lia|]. destruct (N.ltb_spec c 65536); [reflexivity|lia].
Qed.
Lemma enc4 : forall a b d e, a < 5 -> b < 64 -> d < 64 -> e < 64 -> (a = 0 -> 16 <= b) -> (a = 4 -> b < 16) ->
  scalar (((a * 64 + b) * 64 + d) * 64 + e) /\ utf8_1 (((a * 64 + b) * 64 + d) * 64 + e) = [240 + a; 128 + b; 128 + d; 128 + e].
Proof.
  intros a b d e L B D E E0 E4. destruct (digits3 a b d e B D E) as (Q & M & M1 & M2). unfold utf8_1. rewrite Q, M, M1, M2. clear Q M M1 M2.
  set (c := ((a * 64 + b) * 64 + d) * 64 + e) in *.
  assert (R : 65536 <= c /\ c <= 0x10ffff) by (subst c; destruct (N.eq_dec a 0); [|destruct (N.eq_dec a 4)]; lia).
  split; [unfold scalar; lia|]. destruct (N.ltb_spec c 128); [lia|].
  destruct (N.ltb_spec c 2048); [lia|]. destruct (N.ltb_spec c 65536); [lia|reflexivity].
Qed.

Lemma char_read : forall from c rest, bytes_ok from -> read_code_point true from = MbChar c rest ->
  scalar c /\ from = utf8_1 c ++ rest.
Proof.
  intros from c rest B H. destruct from as [|c1 r1]; [discriminate|]. cbn [read_code_point] in H.
  apply Forall_cons_iff in B as [B1 B]. unfold is_byte in B1.
  destruct (N.ltb_spec c1 128).
  { injection H as <- <-. split; [unfold scalar; lia|]. unfold utf8_1. destruct (N.ltb_spec c1 128); [reflexivity|lia]. }
  destruct (N.ltb_spec c1 0xc2); [discriminate|].
  destruct (N.ltb_spec c1 0xe0).
  { destruct r1 as [|c2 r2]; [discriminate|]. destruct (continuation c2) eqn:C2; [|discriminate]. cbn [negb] in H. injection H as H <-.
    apply Forall_cons_iff in B as [B2 B]. apply continuation_range in C2; [|exact B2]. rewrite N.shiftl_mul_pow2 in H. change (2 ^ 6) with 64 in H.
    destruct (enc2 (c1 - 192) (c2 - 128)) as [S E]; [lia|lia|lia|].
    replace ((c1 - 192) * 64 + (c2 - 128)) with c in S, E by lia. split; [exact S|]. rewrite E. cbn [app]. f_equal; [lia|]. f_equal. lia. }
  destruct (N.ltb_spec c1 0xf0).
  { destruct r1 as [|c2 [|c3 r3]]; try discriminate. destruct (continuation c2) eqn:C2; [|discriminate]. cbn [negb] in H.
    apply Forall_cons_iff in B as [B2 B]. apply Forall_cons_iff in B as [B3 B]. apply continuation_range in C2; [|exact B2].
    destruct ((c1 =? 0xe0) && (c2 <? 0xa0)) eqn:X1; [discriminate|]. cbn [andb] in H. destruct ((c1 =? 0xed) && (0xa0 <=? c2)) eqn:X2; [discriminate|].
    destruct (continuation c3) eqn:C3; [|discriminate]. cbn [negb] in H. injection H as H <-. apply continuation_range in C3; [|exact B3].
    rewrite !N.shiftl_mul_pow2 in H. change (2 ^ 6) with 64 in H. change (2 ^ 12) with 4096 in H.
    apply andb_false_iff in X1. apply andb_false_iff in X2. rewrite N.eqb_neq, N.ltb_ge in X1. rewrite N.eqb_neq, N.leb_gt in X2.
    destruct (enc3 (c1 - 224) (c2 - 128) (c3 - 128)) as [S E]; [lia|lia|lia|lia|lia|].
    replace (((c1 - 224) * 64 + (c2 - 128)) * 64 + (c3 - 128)) with c in S, E by lia.
    split; [exact S|]. rewrite E. cbn [app]. f_equal; [lia|]. f_equal; [lia|]. f_equal. lia. }
  destruct (N.ltb_spec c1 0xf5); [|discriminate].
  destruct r1 as [|c2 [|c3 [|c4 r4]]]; try discriminate. destruct (continuation c2) eqn:C2; [|discriminate]. cbn [negb] in H.
  apply Forall_cons_iff in B as [B2 B]. apply Forall_cons_iff in B as [B3 B]. apply Forall_cons_iff in B as [B4 B]. apply continuation_range in C2; [|exact B2].
  destruct ((c1 =? 0xf0) && (c2 <? 0x90)) eqn:X1; [discriminate|]. destruct ((c1 =? 0xf4) && (0x90 <=? c2)) eqn:X2; [discriminate|].
  destruct (continuation c3) eqn:C3; [|discriminate]. destruct (continuation c4) eqn:C4; [|discriminate]. cbn [negb] in H. injection H as H <-.
  apply continuation_range in C3; [|exact B3]. apply continuation_range in C4; [|exact B4].
  rewrite !N.shiftl_mul_pow2 in H. change (2 ^ 6) with 64 in H. change (2 ^ 12) with 4096 in H. change (2 ^ 18) with 262144 in H.
  apply andb_false_iff in X1. apply andb_false_iff in X2. rewrite N.eqb_neq, N.ltb_ge in X1. rewrite N.eqb_neq, N.leb_gt in X2.
  destruct (enc4 (c1 - 240) (c2 - 128) (c3 - 128) (c4 - 128)) as [S E]; [lia|lia|lia|lia|lia|lia|].
  replace ((((c1 - 240) * 64 + (c2 - 128)) * 64 + (c3 - 128)) * 64 + (c4 - 128)) with c in S, E by lia.
  split; [exact S|]. rewrite E. cbn [app]. f_equal; [lia|]. f_equal; [lia|]. f_equal; [lia|]. f_equal. lia.
Qed.

Lemma incomplete_short : forall strict from, read_code_point strict from = MbIncomplete -> (length from <= 3)%nat.
Proof.
  intros strict from H. destruct from as [|c1 [|c2 [|c3 [|c4 r]]]]; cbn [length]; try lia. exfalso. revert H. cbn [read_code_point].
  repeat match goal with |- context [if ?b then _ else _] => destruct b; try discriminate end.
Qed.

Lemma in_sound : forall fuel from room acc r, bytes_ok from -> (length from <= room)%nat -> ucs4_in true fuel from room acc = r ->
  match r with
  | InOk s => exists u, s = acc ++ u /\ Forall scalar u /\ from = utf8 u
  | InPartial s rest => exists u, s = acc ++ u /\ Forall scalar u /\ from = utf8 u ++ rest /\ (length rest <= 3)%nat
  | InError => True
  end.
Proof.
  induction fuel as [|f IH]; intros from room acc r B L H.
  - destruct from; cbn in H; subst r; [exists []; rewrite app_nil_r; auto|exact I].
  - destruct from as [|x from']; [cbn in H; subst r; exists []; rewrite app_nil_r; auto|].
    destruct room as [|m]; [cbn in L; lia|]. cbn [ucs4_in] in H.
    destruct (read_code_point true (x :: from')) as [c rest| |] eqn:E.
    + apply char_read in E as [S E]; [|exact B]. rewrite E in B. apply Forall_app in B as [_ B].
      assert (L' : (length rest <= m)%nat).
      { assert (L1 := utf8_1_length c). apply (f_equal (@length N)) in E. rewrite app_length in E. cbn in E, L. lia. }
      specialize (IH rest m (acc ++ [c]) r B L' H). rewrite E. destruct r as [s|s t|]; [| |exact I].
      * destruct IH as (u & -> & SU & ->). exists (c :: u). rewrite <- app_assoc. repeat split; auto.
      * destruct IH as (u & -> & SU & -> & LT). exists (c :: u). rewrite <- app_assoc. repeat split; auto. cbn [utf8 flat_map]. rewrite <- app_assoc. reflexivity.
    + subst r. exists []. rewrite app_nil_r. repeat split; auto. apply (incomplete_short _ _ E).
    + subst r. exact I.
Qed.

Lemma wide_sound : forall b old, bytes_ok b ->
  (exists tail, Forall scalar (vts_wide true b old) /\ b = utf8 (vts_wide true b old) ++ tail /\ (length tail <= 3)%nat) \/
  (vts_wide true b old = old /\ forall u, Forall scalar u -> b <> utf8 u).
Proof.
  intros b old B. unfold vts_wide, from_bytes.
  assert (H := in_sound (length b) b (length b) [] _ B (Nat.le_refl _) eq_refl).
  destruct (ucs4_in true (length b) b (length b) []) as [s|s t|] eqn:E.
  - left. destruct H as (u & -> & S & ->). exists []. cbn [app]. rewrite app_nil_r. auto with arith.
  - left. destruct H as (u & -> & S & -> & L). exists t. auto.
  - right. split; [reflexivity|]. intros u S ->. rewrite ucs4_in_whole in E; [discriminate|exact S|apply length_utf8].
Qed.

(** * Forms *)
Lemma hexval_char : forall c v, hex_char c v -> hexval c = v /\ c <> 61 /\ c <> 38 /\ c <> 59 /\ is_byte c.
Proof.
  unfold hex_char, hexval, is_byte. intros c v (L & [[A ->]|[A [-> | ->]]]).
  - replace (48 <=? 48 + v) with true by (symmetry; apply N.leb_le; lia).
    replace (48 + v <=? 57) with true by (symmetry; apply N.leb_le; lia). cbn [andb]. repeat split; lia.
  - replace (55 + v <=? 57) with false by (symmetry; apply N.leb_gt; lia). rewrite Bool.andb_false_r.
    replace (65 <=? 55 + v) with true by (symmetry; apply N.leb_le; lia).
    replace (55 + v <=? 70) with true by (symmetry; apply N.leb_le; lia). cbn [andb]. repeat split; lia.
  - replace (87 + v <=? 57) with false by (symmetry; apply N.leb_gt; lia). rewrite Bool.andb_false_r.
    replace (87 + v <=? 70) with false by (symmetry; apply N.leb_gt; lia). rewrite Bool.andb_false_r.
    replace (97 <=? 87 + v) with true by (symmetry; apply N.leb_le; lia).
    replace (87 + v <=? 102) with true by (symmetry; apply N.leb_le; lia). cbn [andb]. repeat split; lia.
Qed.

Lemma escaped_decodes : forall t b, escaped t b ->
  percent_decode t = b /\ ~ In 61 t /\ ~ In 38 t /\ ~ In 59 t /\ bytes_ok t.
Proof.
  intros t b H. induction H as [|c t b C A E (D & N1 & N2 & N3 & B)|t b E (D & N1 & N2 & N3 & B)|h l hv lv t b H L E (D & N1 & N2 & N3 & B)].
  - repeat split; auto. constructor.
  - change (lit "%+=&;") with [37; 43; 61; 38; 59] in A. cbn [In] in A. repeat split.
    + cbn [percent_decode]. destruct (N.eqb_spec c 37); [exfalso; apply A; auto|]. destruct (N.eqb_spec c 43); [exfalso; apply A; auto|].
      rewrite D. reflexivity.
    + cbn [In]. intros [-> |I]; [apply A; auto|auto].
    + cbn [In]. intros [-> |I]; [apply A; auto 6|auto].
    + cbn [In]. intros [-> |I]; [apply A; auto 8|auto].
    + constructor; assumption.
  - repeat split; try (cbn [In]; intros [X|X]; [discriminate X|auto]).
    + cbn [percent_decode]. change (43 =? 37) with false. change (43 =? 43) with true. cbn match. rewrite D. reflexivity.
    + constructor; [reflexivity|exact B].
  - destruct (hexval_char h hv H) as (H1 & H2 & H3 & H4 & H5). destruct (hexval_char l lv L) as (L1 & L2 & L3 & L4 & L5). repeat split.
    + cbn [percent_decode]. change (37 =? 37) with true. cbn match. rewrite H1, L1, D. reflexivity.
    + cbn [In]. intros [X|[X|[X|X]]]; [discriminate X|auto|auto|auto].
    + cbn [In]. intros [X|[X|[X|X]]]; [discriminate X|auto|auto|auto].
    + cbn [In]. intros [X|[X|[X|X]]]; [discriminate X|auto|auto|auto].
    + constructor; [reflexivity|]. constructor; [exact H5|]. constructor; assumption.
Qed.

Lemma form_text_fields : forall h sep t fs k, In h [38; 59] -> form_text (h :: sep) t fs -> (length t < k)%nat ->
  form_fields k (h :: sep) t = fs.
Proof.
  intros h sep t fs k Hh F. revert k. induction F as [|tn tv n v EN EV|tn tv n v t fs EN EV NE F IH]; intros k K.
  - destruct k; reflexivity.
  - destruct k as [|k]; [lia|]. apply escaped_decodes in EN as (DN & N1 & _). apply escaped_decodes in EV as (DV & _ & V2 & V3 & _).
    cbn [form_fields app]. rewrite cut_char_hit by assumption. rewrite cut_sep_end; [rewrite DN, DV; reflexivity|].
    destruct Hh as [<- |[<- |[]]]; assumption.
  - destruct k as [|k]; [lia|]. apply escaped_decodes in EN as (DN & N1 & _). apply escaped_decodes in EV as (DV & _ & V2 & V3 & _).
    change (tn ++ [61] ++ tv ++ (h :: sep) ++ t) with (tn ++ 61 :: tv ++ (h :: sep) ++ t) in *.
    cbn [form_fields]. rewrite cut_char_hit by assumption. rewrite cut_sep_hit; [|destruct Hh as [<- |[<- |[]]]; assumption].
    rewrite DN, DV. f_equal. apply IH. repeat (rewrite app_length in K; cbn [length] in K). lia.
Qed.

Lemma form_text_bytes : forall sep t fs, bytes_ok sep -> form_text sep t fs -> bytes_ok t.
Proof.
  intros sep t fs S F. induction F as [|tn tv n v EN EV|tn tv n v t fs EN EV NE F IH]; [constructor| |];
    apply escaped_decodes in EN as (_ & _ & _ & _ & BN); apply escaped_decodes in EV as (_ & _ & _ & _ & BV).
  - apply Forall_app. split; [exact BN|]. constructor; [reflexivity|exact BV].
  - apply Forall_app. split; [exact BN|]. constructor; [reflexivity|]. apply Forall_app. split; [exact BV|]. apply Forall_app. split; assumption.
Qed.

Lemma form_any : forall vts fuel junk h sep t fs, In h [38; 59] -> bytes_ok (h :: sep) -> form_text (h :: sep) t fs ->
  (length t <= length junk)%nat -> (length t + 1 <= fuel)%nat ->
  decodeUrlEncoded vts fuel junk (h :: sep) t = Done (map (fun f => (vts (fst f) [], vts (snd f) [])) fs).
Proof.
  intros vts fuel junk h sep t fs H B F L1 L2.
  rewrite decode_url_fields with (k := S (length t)); auto; [|discriminate|exact (form_text_bytes _ _ _ B F)].
  rewrite (form_text_fields h sep t fs) by (auto; lia). reflexivity.
Qed.

Lemma wide_form : forall strict fuel junk h sep t fs, In h [38; 59] -> bytes_ok (h :: sep) ->
  Forall (fun f => Forall scalar (fst f) /\ Forall scalar (snd f)) fs -> form_text (h :: sep) t (map pair_utf8 fs) ->
  (length t <= length junk)%nat -> (length t + 1 <= fuel)%nat ->
  decodeUrlEncoded (vts_wide strict) fuel junk (h :: sep) t = Done fs.
Proof.
  intros strict fuel junk h sep t fs H B S F L1 L2. rewrite (form_any _ _ _ _ _ _ _ H B F L1 L2).
  f_equal. rewrite map_map. rewrite <- (map_id fs) at 2. apply map_ext_in. intros f I. rewrite Forall_forall in S. destruct (S f I) as [S1 S2].
  cbn [pair_utf8 fst snd]. rewrite !wide_in by assumption. destruct f; reflexivity.
Qed.

Lemma wide_round : forall junk http_time strict cfg address_of,
  (forall n, length (junk n) = n) ->
  (forall t a, address_text t a -> ~ compat_text t -> address_of t = a) ->
  forall rs ms4 m4 bodies ms5 m5 name value, c_id cfg < 65536 -> c_role cfg = 1 \/ c_role cfg = 2 ->
  Forall2 params_message rs ms4 -> is_message 4 [] m4 -> Forall2 (is_message 5) bodies ms5 ->
  Forall (fun c => c <> []) bodies -> is_message 5 [] m5 ->
  let e0 := describe (vts_wide strict) http_time address_of env_init (concat (map p_params rs)) in
  e_contentLength e0 <= c_maxPost cfg -> len (concat bodies) <= e_contentLength e0 ->
  e_contentType e0 = lit "application/x-www-form-urlencoded" ->
  Forall scalar name -> Forall scalar value ->
  form_text (lit "&") (concat bodies) [(utf8 name, utf8 value)] ->
  answered (vts_wide strict) junk http_time (Wide strict) (page_app show_ops) cfg tt (ms4 ++ [m4] ++ ms5 ++ [m5]) 0
    (utf8 name ++ lit ": " ++ utf8 value).
Proof.
  intros junk http_time strict cfg address_of J AD rs ms4 m4 bodies ms5 m5 name value ID R P4 M4 P5 NE M5 e0 L1 L2 CT SN SV BO.
  assert (EP : e_posts e0 = []) by (unfold e0; reflexivity).
  pose (e := set_posts [(name, value)] (set_postBuffer (concat bodies) e0)).
  assert (PB : parsePostBuffer (vts_wide strict) junk (set_postBuffer (concat bodies) e0) = Done (true, e)).
  { unfold parsePostBuffer. cbn [set_postBuffer e_postBuffer e_contentType]. rewrite CT.
    transitivity (run_bind (parsePostsUrlEncoded (vts_wide strict) junk (set_postBuffer (concat bodies) e0)) (fun e' => Done (true, e'))).
    { assert (NB : concat bodies <> []).
      { intro C. rewrite C in BO. inversion BO as [|tn tv n v _ _ X|? ? ? ? ? ? ? ? ? ? X]; destruct tn; discriminate. }
      clear BO. destruct (concat bodies); [congruence|reflexivity]. }
    unfold parsePostsUrlEncoded. cbn [set_postBuffer e_postBuffer].
    change [(utf8 name, utf8 value)] with (map pair_utf8 [(name, value)]) in BO. change (lit "&") with [38] in *.
    rewrite (wide_form _ _ _ _ _ _ [(name, value)]); [|left; reflexivity|repeat constructor|repeat constructor; assumption|exact BO|rewrite J; lia|lia].
    cbn [run_bind]. unfold e. cbn [set_postBuffer e_posts]. rewrite EP. reflexivity. }
  assert (A := page_answer (vts_wide strict) junk http_time (Wide strict) cfg show_ops address_of J AD rs ms4 m4 bodies ms5 m5 e
    ID R P4 M4 P5 NE M5 L1 L2 PB).
  change (show_ops (set_postBuffer [] e)) with [OpWrite name; OpWrite (lit ": "); OpWrite value] in A.
  cbn [text_of encode escape app] in A. rewrite app_nil_r in A.
  apply A. repeat constructor; assumption.
Qed.

(** * Bytes that are no text *)
Lemma invalid_form : forall strict,
  decodeUrlEncoded (vts_wide strict) 8 (repeat 0 8) (lit "&") (lit "a=x%FFy") = Done [(lit "a", [])] /\
  decodeUrlEncoded (vts_wide strict) 8 (repeat 0 8) (lit "&") (lit "%FF=x") = Done [([], lit "x")].
Proof. intros []; split; reflexivity. Qed.

Lemma invalid_keeps : forall strict u old, Forall scalar u -> vts_wide strict (utf8 u ++ [255]) old = old.
Proof.
  intros strict u old S. unfold vts_wide, from_bytes. assert (L := length_utf8 u).
  rewrite ucs4_in_text by (auto; rewrite app_length; cbn; lia). rewrite app_length. cbn [length].
  destruct (length (utf8 u) + 1 - length u)%nat as [|f] eqn:F; [lia|]. reflexivity.
Qed.

Lemma surrogate_in : vts_wide false [237; 160; 128] [] = [0xd800] /\ ~ scalar 0xd800 /\ vts_wide true [237; 160; 128] [] = [].
Proof. split; [reflexivity|]. split; [unfold scalar; lia|reflexivity]. Qed.

Definition euro_body : list (list N) := [lit "%C3%"; lit "a9="].
Lemma euro_case :
  let e0 := describe (vts_wide true) (fun _ => 0%Z) (fun t => t) env_init (concat (map p_params [demo_record])) in
  e_contentLength e0 = 7 /\ len (concat euro_body) = 7 /\ e_contentType e0 = lit "application/x-www-form-urlencoded" /\
  Forall scalar [233] /\ Forall scalar [] /\ form_text (lit "&") (concat euro_body) [(utf8 [233], utf8 [])] /\
  utf8 [233] ++ lit ": " ++ utf8 [] = [195; 169; 58; 32].
Proof.
  split; [reflexivity|]. split; [reflexivity|]. split; [reflexivity|]. split; [repeat constructor; unfold scalar; lia|]. split; [constructor|].
  split; [|reflexivity].
  apply (ft_one (lit "&") (lit "%C3%a9") [] [195; 169] []); [|constructor].
  apply (esc_hex 67 51 12 3 (lit "%a9") [169]); [unfold hex_char; lia|unfold hex_char; lia|].
  apply (esc_hex 97 57 10 9 [] []); [unfold hex_char; lia|unfold hex_char; lia|constructor].
Qed.
Lemma form_text_case : form_text (lit "&") (lit "%c3%A9=a+b%20&=1") (map pair_utf8 [([233], lit "a b "); ([], lit "1")]).
Proof.
  apply (ft_more (lit "&") (lit "%c3%A9") (lit "a+b%20") [195; 169] (lit "a b ") (lit "=1") [([], lit "1")]).
  - apply (esc_hex 99 51 12 3 (lit "%A9") [169]); [unfold hex_char; lia|unfold hex_char; lia|].
    apply (esc_hex 65 57 10 9 [] []); [unfold hex_char; lia|unfold hex_char; lia|constructor].
  - apply esc_plain; [reflexivity|cbn; intuition discriminate|]. apply esc_plus. apply esc_plain; [reflexivity|cbn; intuition discriminate|].
    apply (esc_hex 50 48 2 0 [] []); [unfold hex_char; lia|unfold hex_char; lia|constructor].
  - discriminate.
  - apply (ft_one (lit "&") [] (lit "1") [] (lit "1")); [constructor|]. apply esc_plain; [reflexivity|cbn; intuition discriminate|constructor].
Qed.

Lemma wide_texts : forall strict ps, Forall part_text ps ->
  conv_texts (fun l => vts_wide strict l []) (texts (map part_utf8 ps)) = texts ps.
Proof.
  intros strict ps S. induction S as [|p ps P S IH]; [reflexivity|]. destruct p as [n b|n f t b]; [|exact IH].
  cbn [part_text] in P. destruct P as [P1 P2].
  change ((vts_wide strict (utf8 n) [], vts_wide strict (utf8 b) []) :: conv_texts (fun l => vts_wide strict l []) (texts (map part_utf8 ps)) = (n, b) :: texts ps).
  rewrite IH, !wide_in by assumption. reflexivity.
Qed.
Lemma wide_uploads : forall strict ps, Forall part_text ps ->
  conv_uploads (fun l => vts_wide strict l []) (uploads (map part_utf8 ps)) = conv_uploads (fun l => l) (uploads ps).
Proof.
  intros strict ps S. induction S as [|p ps P S IH]; [reflexivity|]. destruct p as [n b|n f t b]; [exact IH|].
  cbn [part_text] in P. destruct P as (P1 & P2 & P3).
  change ((vts_wide strict (utf8 n) [], (match option_map utf8 f with Some f => vts_wide strict f [] | None => [] end, vts_wide strict (utf8 t) [], b))
    :: conv_uploads (fun l => vts_wide strict l []) (uploads (map part_utf8 ps))
    = (n, (match f with Some f => f | None => [] end, t, b)) :: conv_uploads (fun l => l) (uploads ps)).
  rewrite IH, !wide_in by assumption. destruct f; cbn [option_map]; [rewrite wide_in by assumption|]; reflexivity.
Qed.
Lemma wide_multipart : forall strict e ps, boundary_ok (e_boundary e) -> Forall part_text ps ->
  Forall (part_ok (e_boundary e)) (map part_utf8 ps) -> e_postBuffer e = multipart (e_boundary e) (map part_utf8 ps) ->
  parsePostsMultipart (vts_wide strict) e =
  Done (set_files (e_files e ++ conv_uploads (fun l => l) (uploads ps)) (set_posts (e_posts e ++ texts ps) e)).
Proof.
  intros strict e ps B S P M. rewrite (multipart_parse (vts_wide strict) e (map part_utf8 ps) B P M), wide_texts, wide_uploads by exact S. reflexivity.
Qed.

Definition wide_parts : list part := [TextPart [233] [8364]; FilePart [97] (Some [233]) (lit "t") [255]].
Lemma b_bounded : forall body, ~ In 66 body -> bounded_by (lit "B") body.
Proof.
  intros body N. apply bounded_if; [cbn; intuition discriminate|cbn; intuition discriminate|left; discriminate|].
  intros p s E. apply N. rewrite E. apply in_or_app. right. left. reflexivity.
Qed.
Lemma wide_parts_ok :
  let e := set_postBuffer (multipart (lit "B") (map part_utf8 wide_parts))
             (describe (vts_wide true) (fun _ => 0%Z) (fun t => t) env_init [(lit "CONTENT_TYPE", lit "multipart/form-data; boundary=B")]) in
  boundary_ok (e_boundary e) /\ Forall part_text wide_parts /\ Forall (part_ok (e_boundary e)) (map part_utf8 wide_parts) /\
  e_postBuffer e = multipart (e_boundary e) (map part_utf8 wide_parts) /\
  conv_uploads (fun l => l) (uploads wide_parts) = [(lit "a", ([233], lit "t", [255]))] /\ texts wide_parts = [([233], [8364])].
Proof.
  cbv zeta. split; [repeat split; cbn; [discriminate| | |]; intuition discriminate|].
  split; [repeat constructor; unfold scalar; lia|].
  split; [|split; [reflexivity|split; reflexivity]].
  apply Forall_cons; [|apply Forall_cons; [|apply Forall_nil]].
  - split; [apply b_bounded; cbn; intuition discriminate|cbn; intuition discriminate].
  - split; [apply b_bounded; cbn; intuition discriminate|]. cbn. intuition discriminate.
Qed.
