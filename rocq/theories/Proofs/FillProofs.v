(** Proofs about filling the environment, continued. *)
From Coq Require Import String List NArith ZArith Bool Lia ZifyBool ZifyNat ZifyN.
From Verif Require Import Model.Base Model.Protocol Model.HttpCodec Model.Address Model.Environment
  Spec.WireSpec Spec.EscapeSpec Spec.AddressSpec Spec.EnvironmentSpec
  Proofs.ProtocolProofs Proofs.PercentProofs Proofs.UrlProofs Proofs.AddressProofs
  Proofs.EnvironmentProofs.
Import ListNotations.
Local Open Scope N_scope.

(* ------------------------------------------------------------------ *)
(** * Paths *)

Lemma path_main : forall vts rest p done seg after f buffer acc,
  bytes_ok (p ++ done ++ seg ++ rest ++ after) -> after <> [] -> ~ In 47 seg ->
  (length seg + length rest <= length buffer)%nat -> (length rest + 1 <= f)%nat ->
  path_loop vts f (p ++ done ++ seg ++ rest ++ after) (length p + length done + length seg)
    (length p + length done + length seg + length rest) (Z.of_nat (length seg)) buffer acc
  = Done (acc ++ map (fun s => vts s []) (map percent_decode (filter nonempty (split_on 47 (seg ++ rest))))).
Proof.
  intros vts. induction rest as [|x rest IH]; intros p done seg after f buffer acc B NE NI LB LF.
  - destruct f as [|f]; [cbn in LF; lia|]. destruct after as [|c after]; [congruence|].
    cbn [path_loop length app]. rewrite Nat.add_0_r, Nat.leb_refl.
    replace (rd (p ++ done ++ seg ++ c :: after) (length p + length done + length seg)) with (Some c).
    2:{ replace (p ++ done ++ seg ++ c :: after) with ((p ++ done ++ seg) ++ c :: after) by now rewrite <- !app_assoc.
        symmetry. apply ProtocolProofs.rd_at. rewrite !app_length. lia. }
    rewrite Nat.eqb_refl, orb_true_r, app_nil_r, split_none by auto. cbn [filter].
    destruct seg as [|y seg].
    + cbn [length Z.of_nat Z.ltb Z.compare nonempty map]. rewrite app_nil_r.
      destruct f; cbn [path_loop];
      replace (S (length p + length done + 0) <=? length p + length done + 0)%nat with false by (symmetry; apply Nat.leb_gt; lia); reflexivity.
    + cbn [nonempty]. replace (0 <? Z.of_nat (length (y :: seg)))%Z with true by (cbn; lia).
      set (sg := y :: seg) in *. rewrite Nat2Z.id.
      replace (slice _ _ _) with sg.
      2:{ symmetry. replace (p ++ done ++ sg ++ c :: after) with ((p ++ done) ++ sg ++ c :: after) by now rewrite <- !app_assoc.
          apply slice_at; rewrite app_length; lia. }
      destruct (percent_total_frame sg buffer) as (d' & E & F & _ & _ & LD).
      { unfold bytes_ok in *. rewrite !Forall_app in B. tauto. }
      { lia. }
      rewrite E, F. cbn [map app].
      destruct f; cbn [path_loop];
      replace (S (length p + length done + length sg) <=? length p + length done + length sg)%nat with false by (symmetry; apply Nat.leb_gt; lia); reflexivity.
  - destruct f as [|f]; [cbn in LF; lia|]. cbn [path_loop].
    replace (length p + length done + length seg <=? length p + length done + length seg + length (x :: rest))%nat
      with true by (symmetry; apply Nat.leb_le; lia).
    replace (rd (p ++ done ++ seg ++ (x :: rest) ++ after) (length p + length done + length seg)) with (Some x).
    2:{ replace (p ++ done ++ seg ++ (x :: rest) ++ after) with ((p ++ done ++ seg) ++ x :: rest ++ after)
          by (now rewrite <- !app_assoc).
        symmetry. apply ProtocolProofs.rd_at. rewrite !app_length. lia. }
    replace (length p + length done + length seg =? length p + length done + length seg + length (x :: rest))%nat
      with false by (symmetry; apply Nat.eqb_neq; cbn; lia).
    rewrite orb_false_r. destruct (N.eqb_spec x 47) as [->|NX].
    + rewrite split_app by auto. cbn [filter].
      set (done' := done ++ seg ++ [47]).
      assert (M : p ++ done ++ seg ++ (47 :: rest) ++ after = p ++ done' ++ [] ++ rest ++ after)
        by (unfold done'; now rewrite <- !app_assoc).
      assert (L : length done' = (length done + length seg + 1)%nat) by (unfold done'; rewrite !app_length; cbn; lia).
      destruct seg as [|y seg].
      * cbn [nonempty length Z.of_nat Z.ltb Z.compare]. rewrite M in *.
        specialize (IH p done' [] after f buffer acc B NE ltac:(auto) ltac:(cbn in *; lia) ltac:(cbn in *; lia)).
        cbn [length Z.of_nat] in *. rewrite L in IH.
        replace (S (length p + length done + 0))%nat with (length p + (length done + 0 + 1) + 0)%nat by lia.
        replace (length p + length done + 0 + S (length rest))%nat with (length p + (length done + 0 + 1) + 0 + length rest)%nat by lia.
        exact IH.
      * cbn [nonempty]. replace (0 <? Z.of_nat (length (y :: seg)))%Z with true by (cbn; lia).
        set (sg := y :: seg) in *. rewrite Nat2Z.id.
        replace (slice _ _ _) with sg.
        2:{ symmetry. replace (p ++ done ++ sg ++ (47 :: rest) ++ after) with ((p ++ done) ++ sg ++ (47 :: rest) ++ after) by now rewrite <- !app_assoc.
            apply slice_at; rewrite app_length; lia. }
        destruct (percent_total_frame sg buffer) as (d' & E & F & _ & _ & LD).
        { unfold bytes_ok in *. rewrite !Forall_app in B. tauto. }
        { cbn [length] in LB. lia. }
        rewrite E, F. cbn [map app].
        rewrite M in *.
        specialize (IH p done' [] after f d' (acc ++ [vts (percent_decode sg) []]) B NE ltac:(auto) ltac:(cbn in *; lia) ltac:(cbn in *; lia)).
        rewrite <- app_assoc in IH. cbn [length Z.of_nat app map] in *. rewrite L in IH.
        replace (S (length p + length done + length sg))%nat with (length p + (length done + length sg + 1) + 0)%nat by lia.
        replace (length p + length done + length sg + S (length rest))%nat with (length p + (length done + length sg + 1) + 0 + length rest)%nat by lia.
        rewrite M. exact IH.
    + assert (M : p ++ done ++ seg ++ (x :: rest) ++ after = p ++ done ++ (seg ++ [x]) ++ rest ++ after)
        by (now rewrite <- !app_assoc).
      rewrite M in *.
      specialize (IH p done (seg ++ [x]) after f buffer acc B NE).
      rewrite app_length, <- !app_assoc in IH. rewrite <- !app_assoc. cbn [length app] in *.
      replace (Z.of_nat (length seg) + 1)%Z with (Z.of_nat (length seg + 1)) by lia.
      replace (S (length p + length done + length seg))%nat with (length p + length done + (length seg + 1))%nat by lia.
      replace (length p + length done + length seg + S (length rest))%nat with (length p + length done + (length seg + 1) + length rest)%nat by lia.
      apply IH; try lia. intro I. apply in_app_or in I as [I|[I|[]]]; auto.
Qed.

Lemma path_ok : forall vts v p after f buffer acc,
  bytes_ok (p ++ v ++ after) -> after <> [] -> (length v <= length buffer)%nat -> (length v + 1 <= f)%nat ->
  path_loop vts f (p ++ v ++ after) (length p) (length p + length v) (-1) buffer acc
  = Done (acc ++ map (fun s => vts s []) (path_segments v)).
Proof.
  intros vts v p after f buffer acc B NE LB LF. unfold path_segments.
  destruct f as [|f]; [lia|]. destruct v as [|x v].
  - cbn [path_loop length app tl split_on filter nonempty map]. rewrite Nat.add_0_r, Nat.leb_refl, app_nil_r.
    destruct after as [|c after]; [congruence|]. rewrite ProtocolProofs.rd_at by auto.
    rewrite Nat.eqb_refl, orb_true_r. cbn [Z.ltb Z.compare].
    destruct f; cbn [path_loop]; replace (S (length p) <=? length p)%nat with false by (symmetry; apply Nat.leb_gt; lia); reflexivity.
  - cbn [path_loop]. 
    replace (length p <=? length p + length (x :: v))%nat with true by (symmetry; apply Nat.leb_le; lia).
    cbn [app]. rewrite ProtocolProofs.rd_at by auto.
    replace (length p =? length p + length (x :: v))%nat with false by (symmetry; apply Nat.eqb_neq; cbn; lia).
    rewrite orb_false_r.
    pose proof (path_main vts v p [x] [] after f buffer acc B NE ltac:(auto)) as Q.
    cbn [length app Z.of_nat tl] in *.
    replace (length p + 1 + 0)%nat with (S (length p)) in Q by lia.
    replace (S (length p) + length v)%nat with (length p + S (length v))%nat in Q by lia.
    rewrite <- Q by lia. now destruct (x =? 47).
Qed.

(* ------------------------------------------------------------------ *)
(** * One pair *)

Lemma values_app : forall nm a b, values nm (a ++ b) = values nm a ++ values nm b.
Proof. intros. unfold values. now rewrite filter_app, map_app. Qed.

Lemma describe_app : forall vts ht ad e a b,
  describe vts ht ad (describe vts ht ad e a) b = describe vts ht ad e (a ++ b).
Proof.
  intros. unfold describe, text, last_value.
  cbn [e_host e_origin e_userAgent e_acceptContentTypes e_acceptLanguages e_acceptCharsets e_authorization
    e_referer e_contentType e_root e_scriptName e_requestMethod e_requestUri e_pathInfo e_etag e_keepAlive
    e_contentLength e_serverAddress e_remoteAddress e_serverPort e_remotePort e_ifModifiedSince e_others
    e_cookies e_gets e_posts e_files e_boundary e_postBuffer].
  rewrite !values_app, !flat_map_app, !fold_left_app, filter_app, fold_left_app, !map_app, !app_assoc.
  reflexivity.
Qed.

Lemma describe_nil : forall vts ht ad e, describe vts ht ad e [] = e.
Proof.
  intros. destruct e. unfold describe, text, last_value, values. cbn. now rewrite !app_nil_r.
Qed.

Ltac lits :=
  repeat match goal with
  | |- context [list_eqb (lit ?a) (lit ?b)] =>
      let r := eval vm_compute in (list_eqb (lit a) (lit b)) in
      change (list_eqb (lit a) (lit b)) with r
  | |- context [is_known (lit ?a)] =>
      let r := eval vm_compute in (is_known (lit a)) in change (is_known (lit a)) with r
  | |- context [length (lit ?a)] =>
      let r := eval vm_compute in (length (lit a)) in change (length (lit a)) with r
  end; cbv iota.

Section Pair.
Variable vts : list N -> list N -> list N.
Variable junk : nat -> list N.
Variable ht : list N -> Z.
Variable ad : list N -> list N.
Hypothesis JUNK : forall n, length (junk n) = n.
Hypothesis AD : forall t a, address_text t a -> ~ compat_text t -> ad t = a.

Lemma unknown_values : forall n v s, is_known n = false -> In s known_names -> values s [(n, v)] = [].
Proof.
  intros n v s K I. unfold values. cbn. unfold is_known in K.
  destruct (list_eqb n (lit s)) eqn:E; auto. exfalso.
  assert (existsb (fun s => list_eqb n (lit s)) known_names = true); [|congruence].
  apply existsb_exists. eauto.
Qed.

Lemma describe_unknown : forall n v e, is_known n = false ->
  describe vts ht ad e [(n, v)] = set_others (assoc_set (vts n []) (vts v []) (e_others e)) e.
Proof.
  intros n v e K. unfold describe, text, last_value.
  rewrite !(unknown_values n v) by (auto; cbn; tauto).
  cbn [filter fst]. rewrite K. cbn. unfold set_others. now rewrite !app_nil_r.
Qed.

(** The unknown case of the model. *)
Lemma fill_unknown : forall fuel mem name value end_ e,
  is_known (slice mem name value) = false ->
  fill_pair vts junk ht fuel mem name value end_ e
  = Done (set_others (assoc_set (vts (slice mem name value) []) (vts (slice mem value end_) []) (e_others e)) e).
Proof.
  intros fuel mem name value end_ e K. unfold fill_pair. cbv zeta.
  unfold is_known, known_names in K. cbn [existsb] in K.
  repeat match type of K with _ || _ = false => apply orb_false_elim in K as [? K] end.
  repeat match goal with H : list_eqb _ _ = false |- _ => rewrite H; clear H end.
  do 23 (destruct (length (slice mem name value)) as [|n]; [reflexivity|]; generalize n; clear n; intro n) || idtac.
  all: repeat (destruct n as [|n]; [reflexivity|]). all: reflexivity.
Qed.

Lemma run_bind_done : forall (A B : Type) (a : A) (f : A -> run B), run_bind (Done a) f = f a.
Proof. reflexivity. Qed.

Lemma decode_text : forall fuel sep v, sep <> [] -> bytes_ok v -> (length v + 1 <= fuel)%nat ->
  decodeUrlEncoded vts fuel (junk (length v)) sep v = Done (text_fields vts sep v).
Proof.
  intros fuel sep v NE B L. rewrite (decode_url_fields vts fuel (junk (length v)) sep v (S (length v))); auto.
  now rewrite JUNK.
Qed.

(** One pair does what it describes. *)
Lemma fill_pair_ok : forall fuel p n v after e,
  bytes_ok (p ++ n ++ v ++ after) -> var_ok n v after -> (length v + 5 <= fuel)%nat ->
  length (e_serverAddress e) = 16%nat -> length (e_remoteAddress e) = 16%nat ->
  fill_pair vts junk ht fuel (p ++ n ++ v ++ after) (length p) (length p + length n)
    (length p + length n + length v) e = Done (describe vts ht ad e [(n, v)]) /\
  length (e_serverAddress (describe vts ht ad e [(n, v)])) = 16%nat /\
  length (e_remoteAddress (describe vts ht ad e [(n, v)])) = 16%nat.
Proof.
  intros fuel p n v after e B (OKN & OKP & OKA) LF LS LR.
  assert (SN : slice (p ++ n ++ v ++ after) (length p) (length p + length n) = n) by (apply slice_at; lia).
  assert (SV : slice (p ++ n ++ v ++ after) (length p + length n) (length p + length n + length v) = v).
  { replace (p ++ n ++ v ++ after) with ((p ++ n) ++ v ++ after) by now rewrite <- app_assoc.
    apply slice_at; rewrite app_length; lia. }
  assert (BV : bytes_ok v) by (unfold bytes_ok in *; rewrite !Forall_app in B; tauto).
  destruct (is_known n) eqn:K.
  2:{ rewrite fill_unknown by now rewrite SN. rewrite SN, SV, describe_unknown by auto. auto. }
  assert (ATOI : (exists s, In s numeric_names /\ n = lit s) ->
    atoi fuel 32 (p ++ n ++ v ++ after) (length p + length n) (length p + length n + length v) = Done (leading_int v)).
  { intros (s & I & E). destruct (OKN s I E) as [M R].
    replace (p ++ n ++ v ++ after) with ((p ++ n) ++ v ++ after) by now rewrite <- app_assoc.
    rewrite <- app_length. apply atoi_env; auto. lia. }
  assert (ADDR : forall old, length old = 16%nat -> (exists s, In s address_names /\ n = lit s) ->
    assign fuel (skipn (length p + length n) (p ++ n ++ v ++ after)) (length p + length n + length v - (length p + length n)) old
     = Done (ad v) /\ length (ad v) = 16%nat).
  { intros old LO (s & I & E). destruct (OKA s I E) as (a & T & NC & NE & NX).
    replace (p ++ n ++ v ++ after) with ((p ++ n) ++ v ++ after) by now rewrite <- app_assoc.
    rewrite skipn_at by now rewrite app_length.
    replace (length p + length n + length v - (length p + length n))%nat with (length v) by lia.
    rewrite (AD v a T NC). destruct after as [|c after]; [congruence|].
    split; [|eapply address_text_length; eauto]. apply assign_any; auto. lia. }
  assert (PATH : n = lit "PATH_INFO" ->
    path_loop vts fuel (p ++ n ++ v ++ after) (length p + length n) (length p + length n + length v) (-1)
      (junk (length p + length n + length v - (length p + length n))) (e_pathInfo e)
    = Done (e_pathInfo e ++ map (fun s => vts s []) (path_segments v))).
  { intro E. replace (length p + length n + length v - (length p + length n))%nat with (length v) by lia.
    replace (p ++ n ++ v ++ after) with ((p ++ n) ++ v ++ after) in * by now rewrite <- app_assoc.
    rewrite <- app_length. apply path_ok; auto; [rewrite JUNK|]; lia. }
  assert (DEC : forall sep, sep <> [] -> decodeUrlEncoded vts fuel (junk (length v)) sep v = Done (text_fields vts sep v)).
  { intros. apply decode_text; auto. lia. }
  assert (LANG : lang_loop fuel v (e_acceptLanguages e) = Done (e_acceptLanguages e ++ languages v)).
  { apply lang_loop_ok. lia. }
  unfold fill_pair. cbv zeta. rewrite SN, SV. clear SN SV OKN OKP OKA B.
  set (mem := p ++ n ++ v ++ after) in *. clearbody mem.
  set (val := (length p + length n)%nat) in *. clearbody val.
  set (end_ := (val + length v)%nat) in *. clearbody end_.
  apply existsb_exists in K as (s & I & E). apply list_eqb_eq in E.
  cbn [In known_names] in I.
  repeat match type of I with _ \/ _ => destruct I as [I|I] end; try tauto; subst s n.
  all: try (rewrite ATOI by (eexists; split; [|reflexivity]; cbn; tauto)).
  all: try (rewrite PATH by reflexivity).
  all: try (destruct (ADDR (e_serverAddress e) LS ltac:(eexists; split; [|reflexivity]; cbn; tauto)) as [A1 A2]; rewrite A1).
  all: try (destruct (ADDR (e_remoteAddress e) LR ltac:(eexists; split; [|reflexivity]; cbn; tauto)) as [A1' A2']; rewrite A1').
  all: rewrite ?DEC by discriminate.
  all: rewrite ?LANG.
  all: clear ATOI PATH ADDR DEC LANG.
  all: unfold describe, text, last_value, values.
  all: cbn [filter map fst snd].
  all: lits.
  all: cbn [filter map fst snd negb fold_left flat_map].
  all: rewrite ?app_nil_r.
  all: cbn [run_bind e_serverAddress e_remoteAddress].
  all: unfold set_host, set_origin, set_userAgent, set_acceptContentTypes, set_acceptLanguages, set_acceptCharsets,
    set_authorization, set_referer, set_contentType, set_root, set_scriptName, set_requestMethod, set_requestUri,
    set_pathInfo, set_etag, set_keepAlive, set_contentLength, set_serverAddress, set_remoteAddress, set_serverPort,
    set_remotePort, set_ifModifiedSince, set_others, set_cookies, set_gets, set_boundary.
  all: try (split; [reflexivity|split; assumption]).
  - (* CONTENT_TYPE *) split; [|split; assumption]. unfold before, boundary_of. rewrite find_char_cut.
    destruct (cut_char 59 v) as [[a b]|]; [|reflexivity].
    rewrite find_char_cut. cbn [cut_char]. change (59 =? 61) with false. cbv iota.
    destruct (cut_char 61 b) as [[x y]|]; reflexivity.
  - (* REQUEST_METHOD *) rewrite method_ok. split; [reflexivity|split; assumption].
Qed.

Lemma enc_length : forall n v enc, pair_encoding n v enc -> (2 + length n + length v <= length enc)%nat.
Proof.
  intros n v enc (ln & lv & H1 & H2 & ->). rewrite !app_length.
  assert (forall k l, len_encoding k l -> (1 <= length l)%nat).
  { intros k l H. destruct H; [cbn; lia|]. rewrite EndianProofs.be_digits_length. lia. }
  pose proof (H _ _ H1). pose proof (H _ _ H2). lia.
Qed.

Lemma param_end : forall mem d, bytes_ok mem -> d <= len mem -> processParamHeader mem d d = Val None.
Proof.
  intros mem d B L. apply param_none_iff; auto; try lia.
  intros name value enc rest P E. apply enc_length in P.
  unfold slice in E. rewrite Nat.sub_diag in E. cbn in E. destruct enc; [cbn in P; lia|discriminate].
Qed.

Lemma fill_loop_ok : forall tail ps bytes, params_encoding tail ps bytes ->
  forall pre fuel inner e, bytes_ok (pre ++ bytes ++ tail) ->
  (length ps <= fuel)%nat -> (length bytes + 5 <= inner)%nat ->
  length (e_serverAddress e) = 16%nat -> length (e_remoteAddress e) = 16%nat ->
  fill_loop vts junk ht fuel inner (pre ++ bytes ++ tail) (len pre) (len pre + len bytes) e
    = Done (describe vts ht ad e ps) /\
  length (e_serverAddress (describe vts ht ad e ps)) = 16%nat /\
  length (e_remoteAddress (describe vts ht ad e ps)) = 16%nat.
Proof.
  intros tail ps bytes H. induction H as [|n v enc ps bytes P OK H IH]; intros pre fuel inner e B LF LI LS LR.
  - rewrite describe_nil. split; auto. 
    replace (len pre + len []) with (len pre) by (unfold len; cbn; lia).
    destruct fuel; cbn [fill_loop]; rewrite param_end; auto; unfold len; rewrite app_length; lia.
  - destruct (param_complete pre n v enc (bytes ++ tail) (len pre + len (enc ++ bytes)) P) as (a & b & c & E & EN & EV & EC & EO).
    { rewrite len_app. lia. }
    rewrite <- app_assoc in *. cbn [length] in LF. destruct fuel as [|fuel]; [lia|].
    cbn [fill_loop]. rewrite E.
    pose proof (enc_length _ _ _ P) as LE. rewrite app_length in LI.
    (* the memory around the pair *)
    assert (M : pre ++ enc ++ bytes ++ tail = firstn (N.to_nat a) (pre ++ enc ++ bytes ++ tail) ++ n ++ v ++ (bytes ++ tail)).
    { set (mem := pre ++ enc ++ bytes ++ tail) in *.
      replace (bytes ++ tail) with (skipn (N.to_nat c) mem).
      2:{ unfold mem. rewrite app_assoc. apply skipn_at. rewrite app_length. unfold len in EC. lia. }
      rewrite <- EN, <- EV. unfold slice.
      rewrite <- (firstn_skipn (N.to_nat a) mem) at 1. f_equal.
      rewrite <- (firstn_skipn (N.to_nat b - N.to_nat a) (skipn (N.to_nat a) mem)) at 1. f_equal.
      rewrite <- skipn_add. replace (N.to_nat a + (N.to_nat b - N.to_nat a))%nat with (N.to_nat b) by lia.
      rewrite <- (firstn_skipn (N.to_nat c - N.to_nat b) (skipn (N.to_nat b) mem)) at 1. f_equal.
      rewrite <- skipn_add. f_equal. lia. }
    assert (CL : c <= len (pre ++ enc ++ bytes ++ tail)) by (rewrite !len_app; lia).
    assert (LN : length n = (N.to_nat b - N.to_nat a)%nat).
    { rewrite <- EN. apply slice_length. unfold len in CL. lia. }
    assert (LV : length v = (N.to_nat c - N.to_nat b)%nat).
    { rewrite <- EV. apply slice_length. unfold len in CL. lia. }
    set (p := firstn (N.to_nat a) (pre ++ enc ++ bytes ++ tail)) in *.
    assert (LP : length p = N.to_nat a).
    { unfold p. rewrite firstn_length. unfold len in CL. lia. }
    destruct (fill_pair_ok inner p n v (bytes ++ tail) e) as (F & S1 & S2); auto; try lia.
    { rewrite <- M. exact B. }
    rewrite <- M in F. 
    replace (N.to_nat a) with (length p) by auto.
    replace (N.to_nat b) with (length p + length n)%nat by lia.
    replace (N.to_nat c) with (length p + length n + length v)%nat by lia.
    rewrite F. cbn [run_bind].
    destruct (IH (pre ++ enc) fuel inner (describe vts ht ad e [(n, v)])) as (G & G1 & G2); auto; try lia.
    { now rewrite <- app_assoc. }
    rewrite describe_app in *. cbn [app] in *. rewrite <- app_assoc in G.
    rewrite EC, len_app in *. rewrite <- G. split; [f_equal; lia|auto].
Qed.

Lemma params_length : forall tail ps bytes, params_encoding tail ps bytes -> (length ps <= length bytes)%nat.
Proof.
  intros tail ps bytes H. induction H as [|n v enc ps bytes P OK H IH]; auto.
  apply enc_length in P. rewrite app_length. cbn. lia.
Qed.

Lemma fill_ok : forall tail ps bytes pre fuel e, params_encoding tail ps bytes ->
  bytes_ok (pre ++ bytes ++ tail) -> (length bytes + 5 <= fuel)%nat ->
  length (e_serverAddress e) = 16%nat -> length (e_remoteAddress e) = 16%nat ->
  fill vts junk ht fuel (pre ++ bytes ++ tail) (len pre) (len pre + len bytes) e
    = Done (describe vts ht ad e ps) /\
  length (e_serverAddress (describe vts ht ad e ps)) = 16%nat /\
  length (e_remoteAddress (describe vts ht ad e ps)) = 16%nat.
Proof.
  intros. apply params_length in H as L. apply fill_loop_ok; auto. lia.
Qed.

(** Any split into records at pair boundaries. *)
Lemma fill_all_ok : forall rs e,
  Forall params_record_ok rs ->
  length (e_serverAddress e) = 16%nat -> length (e_remoteAddress e) = 16%nat ->
  fill_all vts junk ht (map record_memory rs) e
  = Done (describe vts ht ad e (concat (map p_params rs))).
Proof.
  induction rs as [|r rs IH]; intros e F LS LR.
  - cbn. now rewrite describe_nil.
  - inversion F as [|? ? (P & B & H8) F']; subst. cbn [map fill_all record_memory].
    destruct (fill_ok (p_padding r) (p_params r) (p_content r) (p_header r)
      (length (p_header r ++ p_content r ++ p_padding r) + 5) e P B) as (E & L1 & L2); auto.
    { rewrite !app_length. lia. }
    replace (len (p_header r)) with 8 in E by (unfold len; rewrite H8; reflexivity).
    rewrite E. cbn [run_bind]. rewrite IH by auto. now rewrite describe_app.
Qed.

End Pair.

(** A pair that does not fit its record is not seen. *)
Lemma fill_truncated : forall vts junk ht n v enc q r pre tail fuel e,
  pair_encoding n v enc -> enc = q ++ r -> r <> [] -> bytes_ok (pre ++ q ++ tail) ->
  fill vts junk ht fuel (pre ++ q ++ tail) (len pre) (len pre + len q) e = Done e.
Proof.
  intros vts junk ht n v enc q r pre tail fuel e P E NR B.
  assert (X : processParamHeader (pre ++ q ++ tail) (len pre) (len pre + len q) = Val None).
  { apply param_none_iff; auto; try lia.
    - rewrite !len_app. lia.
    - intros name value enc' rest P' S.
      rewrite (slice_at pre q tail) in S by (unfold len; lia). subst q.
      rewrite <- app_assoc in E.
      pose proof (pair_encoding_prefix_free _ _ _ _ _ _ _ P' P E) as Q.
      destruct rest; [|discriminate]. cbn in Q. congruence. }
  unfold fill. destruct fuel; cbn [fill_loop]; rewrite X; reflexivity.
Qed.


(** ** Other variables: the last value wins *)
Lemma assoc_get_set : forall m k v k0,
  assoc_get k0 (assoc_set k v m) = if list_eqb k0 k then Some v else assoc_get k0 m.
Proof.
  assert (SY : forall a b, list_eqb a b = list_eqb b a).
  { intros a b. apply eq_true_iff_eq. rewrite !list_eqb_eq. split; auto. }
  induction m as [|[k' v'] m IH]; intros k v k0; cbn [assoc_set assoc_get].
  - now rewrite SY.
  - destruct (list_eqb k' k) eqn:E.
    + apply list_eqb_eq in E. subst k'. cbn [assoc_get]. rewrite (SY k k0). now destruct (list_eqb k0 k).
    + cbn [assoc_get]. rewrite IH. destruct (list_eqb k' k0) eqn:E1; auto.
      apply list_eqb_eq in E1. subst k'. now rewrite E.
Qed.

Lemma others_last : forall ht ad e ps n v rest,
  is_known n = false ->
  (forall v', ~ In (n, v') rest) ->
  assoc_get n (e_others (describe (fun b _ => b) ht ad e (ps ++ (n, v) :: rest))) = Some v.
Proof.
  intros ht ad e ps n v rest K NI. cbn [describe e_others].
  rewrite filter_app. cbn [filter fst]. rewrite K. cbn [negb]. rewrite fold_left_app. cbn [fold_left fst snd].
  set (m := fold_left _ _ (e_others e)). clearbody m.
  assert (G : forall l m, assoc_get n m = Some v -> (forall v', ~ In (n, v') l) ->
    assoc_get n (fold_left (fun m p => assoc_set (fst p) (snd p) m) l m) = Some v).
  { induction l as [|[k w] l IH]; intros m0 G N0; cbn; auto. apply IH.
    - rewrite assoc_get_set. destruct (list_eqb n k) eqn:E; auto.
      apply list_eqb_eq in E. subst k. exfalso. apply (N0 w). now left.
    - intros v' I. apply (N0 v'). now right. }
  apply G.
  - rewrite assoc_get_set. replace (list_eqb n n) with true; auto. symmetry. now apply list_eqb_eq.
  - intros v' I. apply filter_In in I as [I _]. exact (NI v' I).
Qed.

Lemma others_absent : forall ht ad e ps n,
  (forall v', ~ In (n, v') ps) ->
  assoc_get n (e_others (describe (fun b _ => b) ht ad e ps)) = assoc_get n (e_others e).
Proof.
  intros ht ad e ps n NI. cbn [describe e_others].
  assert (G : forall l m, (forall v', ~ In (n, v') l) ->
    assoc_get n (fold_left (fun m p => assoc_set (fst p) (snd p) m) l m) = assoc_get n m).
  { induction l as [|[k w] l IH]; intros m0 N0; cbn; auto. rewrite IH.
    - rewrite assoc_get_set. destruct (list_eqb n k) eqn:E; auto.
      apply list_eqb_eq in E. subst k. exfalso. apply (N0 w). now left.
    - intros v' I. apply (N0 v'). now right. }
  apply G. intros v' I. apply filter_In in I as [I _]. exact (NI v' I).
Qed.

(* ------------------------------------------------------------------ *)
(** * Undefined cases *)

Lemma fill_pair_numeric : forall vts junk ht fuel mem name value end_ e s,
  In s numeric_names -> slice mem name value = lit s ->
  atoi fuel 32 mem value end_ = Undef ->
  fill_pair vts junk ht fuel mem name value end_ e = Undef.
Proof.
  intros vts junk ht fuel mem name value end_ e s I E A. unfold fill_pair. cbv zeta. rewrite E, A. clear E A.
  cbn [numeric_names In] in I.
  repeat match type of I with _ \/ _ => destruct I as [I|I] end; try tauto; subst s; lits; reflexivity.
Qed.

Lemma number_overflow : forall vts junk ht fuel p s v after e,
  In s numeric_names -> after <> [] -> (length v <= fuel)%nat -> 2 ^ 31 <= magnitude v ->
  fill_pair vts junk ht fuel (p ++ lit s ++ v ++ after) (length p) (length p + length (lit s))
    (length p + length (lit s) + length v) e = Undef.
Proof.
  intros vts junk ht fuel p s v after e I NE LF M. apply (fill_pair_numeric _ _ _ _ _ _ _ _ _ s); auto.
  - apply slice_at; lia.
  - replace (p ++ lit s ++ v ++ after) with ((p ++ lit s) ++ v ++ after) by now rewrite <- app_assoc.
    rewrite <- app_length. now apply atoi_overflow.
Qed.

Lemma atoi_loop_past : forall v p f acc, (length v <= f)%nat ->
  Forall (fun c => 48 <= c <= 57) v ->
  atoi_loop f 32 (p ++ v) (length p) (length p + length v) (Z.of_N acc) = Undef.
Proof.
  induction v as [|x v IH]; intros p f acc LF D.
  - rewrite app_nil_r. 
    assert (X : rd p (length p) = None) by (apply nth_error_None; lia).
    destruct f; cbn [atoi_loop]; now rewrite X.
  - inversion D as [|? ? DX DV]; subst. cbn [length] in *. destruct f as [|f]; [lia|]. cbn [atoi_loop].
    rewrite ProtocolProofs.rd_at by auto.
    replace (length p <? length p + S (length v))%nat with true by (symmetry; apply Nat.ltb_lt; lia).
    replace ((48 <=? x) && (x <=? 57)) with true by lia. cbn [andb].
    rewrite land_digit by lia.
    destruct (_ <=? _)%Z; auto.
    replace (Z.of_N acc * 10 + Z.of_N (x - 48))%Z with (Z.of_N (10 * acc + (x - 48))) by lia.
    specialize (IH (p ++ [x]) f (10 * acc + (x - 48)) ltac:(lia) DV).
    rewrite <- app_assoc, app_length in IH. cbn [app length] in IH.
    replace (length p + 1)%nat with (S (length p)) in IH by lia.
    replace (S (length p) + length v)%nat with (length p + S (length v))%nat in IH by lia. exact IH.
Qed.

(** A number at the very end of the memory is read beyond it. *)
Lemma number_past_end : forall vts junk ht fuel p s v e,
  In s numeric_names -> (length v <= fuel)%nat -> Forall (fun c => 48 <= c <= 57) v ->
  fill_pair vts junk ht fuel (p ++ lit s ++ v) (length p) (length p + length (lit s))
    (length p + length (lit s) + length v) e = Undef.
Proof.
  intros vts junk ht fuel p s v e I LF D. apply (fill_pair_numeric _ _ _ _ _ _ _ _ _ s); auto.
  - apply slice_at; lia.
  - rewrite app_assoc, <- app_length. unfold atoi. destruct v as [|x v].
    + rewrite app_nil_r. unfold rd.
      replace (nth_error (p ++ lit s) (length (p ++ lit s))) with (@None N); auto.
      symmetry. apply nth_error_None. lia.
    + rewrite ProtocolProofs.rd_at by auto. inversion D; subst.
      replace (x =? 0x2d) with false by lia.
      change 0%Z with (Z.of_N 0). now rewrite atoi_loop_past.
Qed.

(* ------------------------------------------------------------------ *)
(** * The address a standard text stands for exists *)

Definition text_address (t : list N) : list N :=
  match assign (length t + 4) (t ++ [0]) (length t) (repeat 0 16) with Done a => a | _ => [] end.

Lemma text_address_ok : forall t a, address_text t a -> ~ compat_text t -> text_address t = a.
Proof.
  intros t a T NC. unfold text_address. rewrite (assign_text t a 0 []); auto. discriminate.
Qed.

Lemma same_params : forall vts junk ht,
  (forall n, length (junk n) = n) ->
  forall rs1 rs2 e, Forall params_record_ok rs1 -> Forall params_record_ok rs2 ->
  length (e_serverAddress e) = 16%nat -> length (e_remoteAddress e) = 16%nat ->
  concat (map p_params rs1) = concat (map p_params rs2) ->
  fill_all vts junk ht (map record_memory rs1) e = fill_all vts junk ht (map record_memory rs2) e.
Proof.
  intros vts junk ht J rs1 rs2 e F1 F2 LS LR E.
  rewrite !(fill_all_ok vts junk ht text_address J text_address_ok) by auto. now rewrite E.
Qed.

Lemma straddling_witness :
  exists name value enc r1 r2,
    pair_encoding name value enc /\ r1 ++ r2 = enc /\
    fill_all (fun b _ => b) (repeat 0) (fun _ => 0%Z)
      [([1;4;0;1;0;4;4;0] ++ r1 ++ [0;0;0;0], len r1); ([1;4;0;1;0;14;2;0] ++ r2 ++ [0;0], len r2)] env_init
    = Done (set_others [(lit "REMOTE_USER", lit "r")] env_init).
Proof.
  exists (lit "Q1"), ([11; 1] ++ lit "REMOTE_USERr"), ([2; 14] ++ lit "Q1" ++ [11; 1] ++ lit "REMOTE_USERr"),
    ([2; 14] ++ lit "Q1"), ([11; 1] ++ lit "REMOTE_USERr").
  split; [|split; [reflexivity|vm_compute; reflexivity]].
  exists [2], [14]. split; [constructor; discriminate|]. split; [constructor; discriminate|reflexivity].
Qed.

(** What no parameter was sent for is blank. *)
Lemma fill_absent : forall vts junk http_time address_of,
  (forall n, length (junk n) = n) ->
  (forall t a, address_text t a -> ~ compat_text t -> address_of t = a) ->
  forall rs e, Forall params_record_ok rs ->
  fill_all vts junk http_time (map record_memory rs) env_init = Done e ->
  let ps := concat (map p_params rs) in
  (not_sent "HTTP_HOST" ps -> e_host e = []) /\ (not_sent "HTTP_ORIGIN" ps -> e_origin e = []) /\
  (not_sent "HTTP_USER_AGENT" ps -> e_userAgent e = []) /\ (not_sent "HTTP_ACCEPT" ps -> e_acceptContentTypes e = []) /\
  (not_sent "HTTP_ACCEPT_LANGUAGE" ps -> e_acceptLanguages e = []) /\ (not_sent "HTTP_ACCEPT_CHARSET" ps -> e_acceptCharsets e = []) /\
  (not_sent "HTTP_AUTHORIZATION" ps -> e_authorization e = []) /\ (not_sent "HTTP_REFERER" ps -> e_referer e = []) /\
  (not_sent "CONTENT_TYPE" ps -> e_contentType e = [] /\ e_boundary e = []) /\ (not_sent "DOCUMENT_ROOT" ps -> e_root e = []) /\
  (not_sent "SCRIPT_NAME" ps -> e_scriptName e = []) /\ (not_sent "REQUEST_METHOD" ps -> e_requestMethod e = 0) /\
  (not_sent "REQUEST_URI" ps -> e_requestUri e = []) /\ (not_sent "PATH_INFO" ps -> e_pathInfo e = []) /\
  (not_sent "HTTP_IF_NONE_MATCH" ps -> e_etag e = 0) /\ (not_sent "HTTP_KEEP_ALIVE" ps -> e_keepAlive e = 0) /\
  (not_sent "CONTENT_LENGTH" ps -> e_contentLength e = 0) /\
  (not_sent "SERVER_ADDR" ps -> e_serverAddress e = repeat 0 16) /\ (not_sent "REMOTE_ADDR" ps -> e_remoteAddress e = repeat 0 16) /\
  (not_sent "SERVER_PORT" ps -> e_serverPort e = 0) /\ (not_sent "REMOTE_PORT" ps -> e_remotePort e = 0) /\
  (not_sent "HTTP_IF_MODIFIED_SINCE" ps -> e_ifModifiedSince e = 0%Z) /\ (not_sent "HTTP_COOKIE" ps -> e_cookies e = []) /\
  (not_sent "QUERY_STRING" ps -> e_gets e = []) /\ e_posts e = [] /\ e_files e = [] /\ e_postBuffer e = [].
Proof.
  intros vts junk http_time address_of J AO rs e R H.
  rewrite (fill_all_ok vts junk http_time address_of J AO rs env_init R eq_refl eq_refl) in H. injection H as <-.
  cbn zeta. unfold describe, text, last_value, not_sent.
  cbn [e_host e_origin e_userAgent e_acceptContentTypes e_acceptLanguages e_acceptCharsets e_authorization e_referer e_contentType e_boundary
    e_root e_scriptName e_requestMethod e_requestUri e_pathInfo e_etag e_keepAlive e_contentLength e_serverAddress e_remoteAddress
    e_serverPort e_remotePort e_ifModifiedSince e_cookies e_gets e_posts e_files e_postBuffer].
  repeat match goal with |- _ /\ _ => split end; try (intros ->; reflexivity); try reflexivity.
  intros ->. split; reflexivity.
Qed.
