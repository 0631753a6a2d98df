(** What a visitor's request says. *)
From Coq Require Import String List NArith ZArith Bool Arith Lia.
From Verif Require Import Model.Base Model.HttpCodec Model.Environment Model.WideText
  Spec.WireSpec Spec.EscapeSpec Spec.StreamSpec Spec.AddressSpec Spec.EnvironmentSpec Spec.RequestSpec Spec.WideTextSpec Spec.VisitSpec
  Proofs.UrlProofs Proofs.EnvironmentProofs Proofs.FillProofs Proofs.StreamProofs Proofs.SqlProofs Proofs.WideTextProofs.
Import ListNotations.
Local Open Scope N_scope.

Section Visit.
Variables (vts : list N -> list N -> list N) (junk : nat -> list N) (http_time : list N -> Z) (address_of : list N -> list N).
Hypothesis J : forall n, length (junk n) = n.
Hypothesis AD : forall t a, address_text t a -> ~ compat_text t -> address_of t = a.
Variables (rs : list params_record) (e : env).
Hypothesis OK : Forall params_record_ok rs.
Hypothesis F : fill_all vts junk http_time (map record_memory rs) env_init = Done e.
Let ps := concat (map p_params rs).

Lemma visit_env : e = describe vts http_time address_of env_init ps.
Proof. rewrite (fill_all_ok vts junk http_time address_of J AD rs env_init OK eq_refl eq_refl) in F. injection F as <-. reflexivity. Qed.

Lemma visit_fields : forall h sep t fs, In h [38; 59] -> form_text (h :: sep) t fs ->
  text_fields vts (h :: sep) t = map (fun f => (vts (fst f) [], vts (snd f) [])) fs.
Proof. intros h sep t fs H T. unfold text_fields, fields. rewrite (form_text_fields h sep t fs _ H T) by lia. reflexivity. Qed.

Lemma visit_query : forall t fs, values "QUERY_STRING" ps = [t] -> form_text (lit "&") t fs ->
  e_gets e = map (fun f => (vts (fst f) [], vts (snd f) [])) fs.
Proof.
  intros t fs V T. rewrite visit_env. cbn [describe e_gets]. rewrite V. cbn [flat_map env_init e_gets app]. rewrite app_nil_r.
  change (lit "&") with [38] in *. apply visit_fields; [left; reflexivity|exact T].
Qed.

Lemma visit_cookies : forall t fs, values "HTTP_COOKIE" ps = [t] -> form_text (lit "; ") t fs ->
  e_cookies e = map (fun f => (vts (fst f) [], vts (snd f) [])) fs.
Proof.
  intros t fs V T. rewrite visit_env. cbn [describe e_cookies]. rewrite V. cbn [flat_map env_init e_cookies app]. rewrite app_nil_r.
  change (lit "; ") with (59 :: [32]) in *. apply visit_fields; [right; left; reflexivity|exact T].
Qed.

Lemma visit_text : forall nm f b, In (nm, f) plain_texts -> values nm ps = [b] -> f e = vts b [].
Proof.
  intros nm f b I V. rewrite visit_env. cbn [In plain_texts] in I.
  repeat (destruct I as [I|I]; [injection I as <- <-; cbn [describe e_host e_origin e_userAgent e_acceptContentTypes e_acceptCharsets
    e_authorization e_referer e_root e_scriptName e_requestUri]; unfold text; rewrite V; reflexivity|]). destruct I.
Qed.

Lemma decode_plain : forall n, ~ In 37 n -> ~ In 43 n -> percent_decode n = n.
Proof.
  induction n as [|c n IH]; intros P Q; [reflexivity|]. cbn [percent_decode].
  destruct (N.eqb_spec c 37) as [-> |]; [exfalso; apply P; left; reflexivity|].
  destruct (N.eqb_spec c 43) as [-> |]; [exfalso; apply Q; left; reflexivity|]. f_equal. apply IH; intro X; [apply P|apply Q]; right; exact X.
Qed.

Lemma path_parts : forall names, Forall (fun n => n <> [] /\ ~ In 47 n) names -> names <> [] ->
  filter nonempty (split_on 47 (tl (path_of names))) = names.
Proof.
  intros names N NE. destruct names as [|n names]; [congruence|]. clear NE. apply Forall_cons_iff in N as [[N1 N2] N].
  cbn [path_of flat_map app tl]. revert n N1 N2. induction N as [|m names [M1 M2] N IH]; intros n N1 N2.
  - cbn [flat_map]. rewrite app_nil_r, split_none by exact N2. cbn [filter]. destruct n; [congruence|reflexivity].
  - cbn [flat_map app]. rewrite split_app by exact N2. cbn [filter]. destruct n as [|x n]; [congruence|]. cbn [nonempty]. f_equal.
    apply IH; assumption.
Qed.

Lemma visit_path : forall names, values "PATH_INFO" ps = [path_of names] ->
  Forall (fun n => n <> [] /\ ~ In 47 n /\ ~ In 37 n /\ ~ In 43 n) names -> names <> [] ->
  e_pathInfo e = map (fun n => vts n []) names.
Proof.
  intros names V N NE. rewrite visit_env. cbn [describe e_pathInfo]. rewrite V. cbn [flat_map env_init e_pathInfo app]. rewrite app_nil_r.
  unfold path_segments. rewrite path_parts; [|revert N; apply Forall_impl; tauto|exact NE].
  rewrite map_map. apply map_ext_in. intros n I. rewrite Forall_forall in N. destruct (N n I) as (_ & _ & P & Q). rewrite decode_plain by assumption. reflexivity.
Qed.
End Visit.

Lemma wide_pairs : forall strict fs, fields_text fs ->
  map (fun f => (vts_wide strict (fst f) [], vts_wide strict (snd f) [])) (map pair_utf8 fs) = fs.
Proof.
  intros strict fs S. rewrite map_map. rewrite <- (map_id fs) at 2. apply map_ext_in. intros f I. unfold fields_text in S. rewrite Forall_forall in S.
  destruct (S f I) as [S1 S2]. cbn [pair_utf8 fst snd]. rewrite !wide_in by assumption. destruct f; reflexivity.
Qed.

Lemma utf8_1_ascii : forall c x, scalar c -> In x (utf8_1 c) -> x < 128 -> x = c.
Proof.
  intros c x S I L. unfold utf8_1 in I. destruct (c <? 128); [destruct I as [<- |[]]; reflexivity|].
  destruct (c <? 2048); [|destruct (c <? 65536)]; cbn [In] in I; exfalso; repeat (destruct I as [<- |I]; [lia|]); destruct I.
Qed.
Lemma utf8_in : forall n x, Forall scalar n -> x < 128 -> In x (utf8 n) -> In x n.
Proof.
  intros n x S L I. apply in_flat_map in I as (c & I1 & I2). rewrite Forall_forall in S. rewrite (utf8_1_ascii c x (S c I1) I2 L). exact I1.
Qed.

Lemma visit_wide : forall strict junk http_time address_of, (forall n, length (junk n) = n) ->
  (forall t a, address_text t a -> ~ compat_text t -> address_of t = a) ->
  forall rs e, Forall params_record_ok rs -> fill_all (vts_wide strict) junk http_time (map record_memory rs) env_init = Done e ->
  let ps := concat (map p_params rs) in
  (forall t fs, fields_text fs -> values "QUERY_STRING" ps = [t] -> form_text (lit "&") t (map pair_utf8 fs) -> e_gets e = fs) /\
  (forall t fs, fields_text fs -> values "HTTP_COOKIE" ps = [t] -> form_text (lit "; ") t (map pair_utf8 fs) -> e_cookies e = fs) /\
  (forall nm f u, Forall scalar u -> In (nm, f) plain_texts -> values nm ps = [utf8 u] -> f e = u) /\
  (forall names, Forall (fun n => Forall scalar n /\ n <> [] /\ ~ In 47 n /\ ~ In 37 n /\ ~ In 43 n) names -> names <> [] ->
    values "PATH_INFO" ps = [path_of (map utf8 names)] -> e_pathInfo e = names).
Proof.
  intros strict junk http_time address_of J AD rs e OK F ps. split; [|split; [|split]].
  - intros t fs S V T. rewrite (visit_query _ _ _ _ J AD rs e OK F t _ V T). apply wide_pairs. exact S.
  - intros t fs S V T. rewrite (visit_cookies _ _ _ _ J AD rs e OK F t _ V T). apply wide_pairs. exact S.
  - intros nm f u S I V. rewrite (visit_text _ _ _ _ J AD rs e OK F nm f _ I V). apply wide_in. exact S.
  - intros names N NE V. rewrite (visit_path _ _ _ _ J AD rs e OK F (map utf8 names) V).
    + rewrite map_map. rewrite <- (map_id names) at 2. apply map_ext_in. intros n I. rewrite Forall_forall in N. apply wide_in. apply (N n I).
    + apply Forall_map. revert N. apply Forall_impl. intros n (S & N1 & N2 & N3 & N4). split.
      { intro X. apply N1. destruct n as [|c n]; [reflexivity|]. exfalso. assert (L := utf8_1_length c). cbn [utf8 flat_map] in X.
        apply app_eq_nil in X as [X _]. rewrite X in L. cbn in L. lia. }
      repeat split; intro X; apply (utf8_in n _ S) in X; auto; reflexivity.
    + destruct names; [congruence|discriminate].
Qed.

(** * What is mixed up *)
Lemma path_twice : forall vts junk http_time, (forall n, length (junk n) = n) ->
  forall r1 r2 r3 e1 e2 e3,
  params_record_ok r1 -> p_params r1 = [(lit "PATH_INFO", lit "/a+b")] -> fill_all vts junk http_time [record_memory r1] env_init = Done e1 ->
  params_record_ok r2 -> p_params r2 = [(lit "PATH_INFO", lit "/a b")] -> fill_all vts junk http_time [record_memory r2] env_init = Done e2 ->
  params_record_ok r3 -> p_params r3 = [(lit "PATH_INFO", lit "/a%20b")] -> fill_all vts junk http_time [record_memory r3] env_init = Done e3 ->
  e1 = e2 /\ e2 = e3.
Proof.
  intros vts junk http_time J r1 r2 r3 e1 e2 e3 O1 P1 F1 O2 P2 F2 O3 P3 F3.
  assert (A := visit_env vts junk http_time text_address J text_address_ok).
  rewrite (A [r1] e1 (Forall_cons _ O1 (Forall_nil _)) F1), (A [r2] e2 (Forall_cons _ O2 (Forall_nil _)) F2), (A [r3] e3 (Forall_cons _ O3 (Forall_nil _)) F3).
  cbn [map concat app]. rewrite P1, P2, P3. split; reflexivity.
Qed.

Lemma names_merge : forall strict junk http_time u c p q v w, (forall n, length (junk n) = n) ->
  Forall scalar u -> scalar c -> utf8_1 c = p ++ q -> p <> [] -> q <> [] -> Forall scalar v -> Forall scalar w ->
  is_known (utf8 u) = false -> is_known (utf8 u ++ p) = false ->
  forall rs e, Forall params_record_ok rs -> concat (map p_params rs) = [(utf8 u, utf8 v); (utf8 u ++ p, utf8 w)] ->
  fill_all (vts_wide strict) junk http_time (map record_memory rs) env_init = Done e -> e_others e = [(u, w)].
Proof.
  intros strict junk http_time u c p q v w J SU SC E P Q SV SW K1 K2 rs e OK PS F.
  rewrite (visit_env _ junk http_time text_address J text_address_ok rs e OK F). cbn [describe e_others]. rewrite PS.
  cbn [filter fst]. rewrite K1, K2. cbn [negb fold_left fst snd]. rewrite (wide_cut strict u c p q) by auto. rewrite !wide_in by assumption.
  cbn [env_init e_others assoc_set]. rewrite (proj2 (list_eqb_eq u u) eq_refl). reflexivity.
Qed.

(** * Records *)
Definition enc_pair (p : list N * list N) : list N :=
  [N.of_nat (length (fst p)); N.of_nat (length (snd p))] ++ fst p ++ snd p.
Definition one_record (ps : list (list N * list N)) : params_record :=
  mkParams [1; 4; 0; 1; 0; N.of_nat (length (flat_map enc_pair ps)); 8; 0] ps (flat_map enc_pair ps) (repeat 0 8).

Lemma enc_pair_ok : forall p, (length (fst p) <= 127)%nat -> (length (snd p) <= 127)%nat -> pair_encoding (fst p) (snd p) (enc_pair p).
Proof.
  intros [a b] L1 L2. cbn [fst snd] in *. exists [N.of_nat (length a)], [N.of_nat (length b)].
  split; [constructor; unfold len; lia|]. split; [constructor; unfold len; lia|]. reflexivity.
Qed.

Lemma one_record_ok : forall ps, forallb (fun p => Nat.leb (length (fst p)) 127 && Nat.leb (length (snd p)) 127
    && negb (existsb (fun s => list_eqb (fst p) (lit s)) (numeric_names ++ address_names))) ps = true ->
  Nat.leb (length (flat_map enc_pair ps)) 255 = true -> forallb (fun p => forallb (fun c => c <? 256) (fst p ++ snd p)) ps = true ->
  params_record_ok (one_record ps).
Proof.
  intros ps K L B. split; [|split; [|reflexivity]].
  - cbn [p_padding p_params p_content one_record]. clear L B. generalize (repeat 0 8) as tail, (eq_refl : length (repeat 0 8) = 8%nat). intros tail LT.
    induction ps as [|[n v] ps IH]; [constructor|]. cbn [forallb fst snd] in K. apply andb_prop in K as [K KS]. apply andb_prop in K as [K KN].
    apply andb_prop in K as [K1 K2]. apply Nat.leb_le in K1. apply Nat.leb_le in K2. cbn [flat_map]. constructor.
    + apply (enc_pair_ok (n, v)); assumption.
    + assert (NN : forall s, In s (numeric_names ++ address_names) -> n <> lit s).
      { intros s I X. apply negb_true_iff in KN. rewrite <- not_true_iff_false in KN. apply KN. apply existsb_exists. exists s.
        split; [exact I|]. apply list_eqb_eq. exact X. }
      split; [|split].
      * intros s I X. exfalso. apply (NN s); [apply in_or_app; left; exact I|exact X].
      * intros _ X. apply app_eq_nil in X as [_ X]. rewrite X in LT. discriminate.
      * intros s I X. exfalso. apply (NN s); [apply in_or_app; right; exact I|exact X].
    + apply IH. exact KS.
  - cbn [p_header p_content p_padding one_record]. apply Nat.leb_le in L. repeat (constructor; [reflexivity|]).
    constructor; [unfold is_byte; lia|]. constructor; [reflexivity|]. constructor; [reflexivity|].
    apply Forall_app. split; [|repeat constructor]. clear L. apply Forall_flat_map. rewrite Forall_forall. intros [n v] I.
    rewrite forallb_forall in B, K. specialize (B _ I). specialize (K _ I). cbn [fst snd] in *. apply andb_prop in K as [K _].
    apply andb_prop in K as [K1 K2]. apply Nat.leb_le in K1. apply Nat.leb_le in K2.
    constructor; [unfold is_byte; cbn [fst]; lia|]. constructor; [unfold is_byte; cbn [snd]; lia|].
    rewrite forallb_forall in B. apply Forall_forall. intros c C. apply N.ltb_lt. apply B. exact C.
Qed.

Definition visit_params : list (list N * list N) :=
  [(lit "QUERY_STRING", lit "%c3%A9=a+b%20&=1"); (lit "HTTP_COOKIE", lit "a=1; b=2"); (lit "HTTP_HOST", utf8 [233; 46; 8364]);
   (lit "PATH_INFO", path_of (map utf8 [[97]; [8364; 233]]))].
Lemma visit_case :
  Forall params_record_ok [one_record visit_params] /\
  exists e, fill_all (vts_wide true) (repeat 7) (fun _ => 0%Z) (map record_memory [one_record visit_params]) env_init = Done e /\
    e_gets e = [([233], lit "a b "); ([], lit "1")] /\ e_cookies e = [(lit "a", lit "1"); (lit "b", lit "2")] /\
    e_host e = [233; 46; 8364] /\ e_pathInfo e = [[97]; [8364; 233]].
Proof.
  split; [constructor; [|constructor]; apply one_record_ok; reflexivity|].
  eexists. split; [vm_compute; reflexivity|]. repeat split; reflexivity.
Qed.
Lemma path_case :
  Forall params_record_ok (map (fun t => one_record [(lit "PATH_INFO", lit t)]) ["/a+b"; "/a b"; "/a%20b"]%string) /\
  Forall (fun r => exists e, fill_all (fun b _ => b) (repeat 7) (fun _ => 0%Z) [record_memory r] env_init = Done e /\ e_pathInfo e = [lit "a b"])
    (map (fun t => one_record [(lit "PATH_INFO", lit t)]) ["/a+b"; "/a b"; "/a%20b"]%string).
Proof.
  cbn [map]. split.
  - repeat (apply Forall_cons; [apply one_record_ok; reflexivity|]). apply Forall_nil.
  - repeat (apply Forall_cons; [eexists; split; [vm_compute; reflexivity|reflexivity]|]). apply Forall_nil.
Qed.
Definition merge_params : list (list N * list N) := [(lit "X_USER", lit "bob"); (lit "X_USER" ++ [226; 130], lit "eve")].
Lemma merge_case :
  params_record_ok (one_record merge_params) /\ utf8_1 8364 = [226; 130] ++ [172] /\ is_known (lit "X_USER") = false /\ is_known (lit "X_USER" ++ [226; 130]) = false /\
  exists e, fill_all (vts_wide true) (repeat 7) (fun _ => 0%Z) [record_memory (one_record merge_params)] env_init = Done e /\
    e_others e = [(lit "X_USER", lit "eve")].
Proof.
  split; [apply one_record_ok; reflexivity|]. split; [reflexivity|]. split; [reflexivity|]. split; [reflexivity|].
  eexists. split; [vm_compute; reflexivity|reflexivity].
Qed.
