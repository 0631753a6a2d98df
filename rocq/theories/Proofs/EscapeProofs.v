From Coq Require Import String List NArith ZArith Lia ZifyBool ZifyNat ZifyN Bool.
From Verif Require Import Model.Base Model.WebMaps Model.Protocol Model.HttpCodec Model.Streams Spec.WireSpec
  Spec.EscapeSpec Spec.StreamSpec Proofs.Arith Proofs.ProtocolProofs Proofs.PercentProofs Proofs.StreamProofs.
Import ListNotations.
Local Open Scope N_scope.

(** ** UTF-8 is decodable *)
Ltac Zify.zify_post_hook ::= Z.div_mod_to_equations.

Lemma utf8_decode_1 : forall c r, scalar c ->
  utf8_decode (utf8_1 c ++ r) = match utf8_decode r with Some l => Some (c :: l) | None => None end.
Proof.
  intros c r Hc. unfold scalar in Hc. unfold utf8_1.
  destruct (N.ltb_spec c 128).
  { cbn [app utf8_decode]. destruct (N.ltb_spec c 128); [reflexivity|lia]. }
  destruct (N.ltb_spec c 2048).
  { cbn [app utf8_decode].
    assert (E1 : (192 + c / 64 <? 128) = false) by lia.
    assert (E2 : (192 <=? 192 + c / 64) && (192 + c / 64 <? 224) = true) by lia.
    assert (E3 : (128 <=? 128 + c mod 64) && (128 + c mod 64 <? 192) = true) by lia.
    rewrite E1, E2, E3. replace ((192 + c / 64 - 192) * 64 + (128 + c mod 64 - 128)) with c by lia.
    reflexivity. }
  destruct (N.ltb_spec c 65536).
  { cbn [app utf8_decode].
    assert (E1 : (224 + c / 4096 <? 128) = false) by lia.
    assert (E2 : (192 <=? 224 + c / 4096) && (224 + c / 4096 <? 224) = false) by lia.
    assert (E3 : (224 <=? 224 + c / 4096) && (224 + c / 4096 <? 240) = true) by lia.
    assert (E4 : (128 <=? 128 + c / 64 mod 64) && (128 + c / 64 mod 64 <? 192)
       && (128 <=? 128 + c mod 64) && (128 + c mod 64 <? 192) = true) by lia.
    rewrite E1, E2, E3, E4.
    replace ((224 + c / 4096 - 224) * 4096 + (128 + c / 64 mod 64 - 128) * 64 + (128 + c mod 64 - 128))
      with c by lia.
    reflexivity. }
  cbn [app utf8_decode].
  assert (E1 : (240 + c / 262144 <? 128) = false) by lia.
  assert (E2 : (192 <=? 240 + c / 262144) && (240 + c / 262144 <? 224) = false) by lia.
  assert (E3 : (224 <=? 240 + c / 262144) && (240 + c / 262144 <? 240) = false) by lia.
  assert (E4 : (240 <=? 240 + c / 262144) && (240 + c / 262144 <? 248) = true) by lia.
  assert (E5 : (128 <=? 128 + c / 4096 mod 64) && (128 + c / 4096 mod 64 <? 192)
     && (128 <=? 128 + c / 64 mod 64) && (128 + c / 64 mod 64 <? 192)
     && (128 <=? 128 + c mod 64) && (128 + c mod 64 <? 192) = true) by lia.
  rewrite E1, E2, E3, E4, E5.
  replace ((240 + c / 262144 - 240) * 262144 + (128 + c / 4096 mod 64 - 128) * 4096
     + (128 + c / 64 mod 64 - 128) * 64 + (128 + c mod 64 - 128)) with c by lia.
  reflexivity.
Qed.
Ltac Zify.zify_post_hook ::= idtac.

Lemma utf8_round_trip : forall s, Forall scalar s -> utf8_decode (utf8 s) = Some s.
Proof.
  induction 1 as [|c s Hc H IH]; [reflexivity|].
  cbn [utf8 flat_map]. rewrite utf8_decode_1 by assumption. fold (utf8 s). now rewrite IH.
Qed.

(** ** HTML *)
Lemma html_unescape_1 : forall c r, html_unescape (html_escape1 c ++ r) = c :: html_unescape r.
Proof.
  intros c r. unfold html_escape1.
  destruct (N.eqb_spec c 38); [subst; reflexivity|].
  destruct (N.eqb_spec c 60); [subst; reflexivity|].
  destruct (N.eqb_spec c 62); [subst; reflexivity|].
  destruct (N.eqb_spec c 34); [subst; reflexivity|].
  destruct (N.eqb_spec c 39); [subst; reflexivity|].
  cbn [app html_unescape]. destruct (N.eqb_spec c 38); [congruence|reflexivity].
Qed.

Lemma html_round_trip : forall s, html_unescape (html_escape s) = s.
Proof.
  induction s as [|c s IH]; [reflexivity|]. cbn [html_escape flat_map].
  rewrite html_unescape_1. fold (html_escape s). now rewrite IH.
Qed.

Lemma html_clean : forall s c, In c (html_escape s) -> ~ In c [60; 62; 34; 39].
Proof.
  intros s c H. unfold html_escape in H. apply in_flat_map in H as (x & _ & H).
  unfold html_escape1 in H.
  destruct (N.eqb_spec x 38); [cbn in *; lia|].
  destruct (N.eqb_spec x 60); [cbn in *; lia|].
  destruct (N.eqb_spec x 62); [cbn in *; lia|].
  destruct (N.eqb_spec x 34); [cbn in *; lia|].
  destruct (N.eqb_spec x 39); [cbn in *; lia|]. cbn in *. lia.
Qed.

(** ** URL *)
Lemma url_clean : forall s c, In c (url_escape s) -> c = 37 \/ ~ In c url_reserved.
Proof.
  intros s c H. unfold url_escape in H. apply in_flat_map in H as (x & _ & H).
  unfold url_escape1 in H. destruct (existsb (N.eqb x) url_reserved) eqn:E.
  - assert (K : forallb (fun x => forallb (fun c => (c =? 37) || negb (existsb (N.eqb c) url_reserved))
       [37; hexdigit (x / 16); hexdigit (x mod 16)]) url_reserved = true) by reflexivity.
    apply existsb_exists in E as (y & I & Y). apply N.eqb_eq in Y. subst y.
    rewrite forallb_forall in K. apply K in I. rewrite forallb_forall in I. apply I in H.
    apply orb_true_iff in H as [H|H]; [left; lia|right]. intro J.
    apply negb_true_iff in H. assert (existsb (N.eqb c) url_reserved = true)
      by (apply existsb_exists; exists c; split; auto; apply N.eqb_refl). congruence.
  - cbn in H. destruct H as [<-|[]]. right. intro J.
    assert (existsb (N.eqb x) url_reserved = true)
      by (apply existsb_exists; exists x; split; auto; apply N.eqb_refl). congruence.
Qed.

(** ** Through the streams *)
Lemma text_of_enc : forall conv pre e e' os,
  text_of conv e (pre ++ OpEnc e' :: os) = text_of conv e pre ++ text_of conv e' os.
Proof.
  intros conv. induction pre as [|o pre IH]; intros e e' os; [reflexivity|].
  destruct o; cbn [app text_of]; rewrite ?IH, ?app_assoc; reflexivity.
Qed.

Lemma char_written : forall type id pre e s, type < 256 -> id < 65536 ->
  Forall char_op_ok pre -> bytes_ok s ->
  exists w contents,
    char_ops type id (pre ++ [OpEnc e; OpWrite s; OpFlush]) = Done w /\
    Forall2 (carries type id) (w_dev w) contents /\
    concat contents = text_of (fun s => s) E_NONE pre ++ escape e s.
Proof.
  intros type id pre e s Ht Hi HP HS.
  destruct (char_stream type id (pre ++ [OpEnc e; OpWrite s; OpFlush]) Ht Hi) as (w & cs & E & F & T & Z).
  { apply Forall_app. split; auto. repeat constructor. exact HS. }
  exists w, cs. split; auto. split; auto.
  rewrite (Z (pre ++ [OpEnc e; OpWrite s])) in T by now rewrite <- app_assoc.
  rewrite app_nil_r in T. rewrite T, text_of_enc. cbn [text_of]. now rewrite app_nil_r.
Qed.

Lemma wide_written : forall strict type id pre e s, type < 256 -> id < 65536 ->
  Forall wide_op_ok pre -> Forall scalar s ->
  exists w contents,
    wide_ops strict type id (pre ++ [OpEnc e; OpWrite s; OpFlush]) = Done w /\
    Forall2 (carries type id) (w_dev w) contents /\
    concat contents = text_of utf8 E_NONE pre ++ utf8 (escape e s).
Proof.
  intros strict type id pre e s Ht Hi HP HS.
  destruct (wide_stream strict type id (pre ++ [OpEnc e; OpWrite s; OpFlush]) Ht Hi) as (w & cs & E & F & T & Z).
  { apply Forall_app. split; auto. repeat constructor. exact HS. }
  exists w, cs. split; auto. split; auto.
  rewrite (Z (pre ++ [OpEnc e; OpWrite s])) in T by now rewrite <- app_assoc.
  rewrite app_nil_r in T. rewrite T, text_of_enc. cbn [text_of]. now rewrite app_nil_r.
Qed.

Lemma html_char : forall type id pre s, type < 256 -> id < 65536 ->
  Forall char_op_ok pre -> bytes_ok s ->
  exists w contents e,
    char_ops type id (pre ++ [OpEnc E_HTML; OpWrite s; OpFlush]) = Done w /\
    Forall2 (carries type id) (w_dev w) contents /\
    concat contents = text_of (fun s => s) E_NONE pre ++ e /\
    e = flat_map html_escape1 s /\ html_unescape e = s /\ (forall c, In c e -> ~ In c [60; 62; 34; 39]).
Proof.
  intros type id pre s Ht Hi HP HS.
  destruct (char_written type id pre E_HTML s) as (w & cs & E & F & T); auto.
  exists w, cs, (html_escape s). repeat split; auto; [apply html_round_trip|apply html_clean].
Qed.

Lemma html_wide : forall strict type id pre s, type < 256 -> id < 65536 ->
  Forall wide_op_ok pre -> Forall scalar s ->
  exists w contents e,
    wide_ops strict type id (pre ++ [OpEnc E_HTML; OpWrite s; OpFlush]) = Done w /\
    Forall2 (carries type id) (w_dev w) contents /\
    concat contents = text_of utf8 E_NONE pre ++ utf8 e /\
    e = flat_map html_escape1 s /\ html_unescape e = s /\ (forall c, In c e -> ~ In c [60; 62; 34; 39]).
Proof.
  intros strict type id pre s Ht Hi HP HS.
  destruct (wide_written strict type id pre E_HTML s) as (w & cs & E & F & T); auto.
  exists w, cs, (html_escape s). repeat split; auto; [apply html_round_trip|apply html_clean].
Qed.

Lemma url_char : forall type id pre s, type < 256 -> id < 65536 ->
  Forall char_op_ok pre -> bytes_ok s ->
  exists w contents e,
    char_ops type id (pre ++ [OpEnc E_URL; OpWrite s; OpFlush]) = Done w /\
    Forall2 (carries type id) (w_dev w) contents /\
    concat contents = text_of (fun s => s) E_NONE pre ++ e /\
    (forall c, In c e -> c = 37 \/ ~ In c url_reserved) /\
    (forall dst, (length e <= length dst)%nat ->
       exists dst', percentEscapedToRealBytes e dst = Val (dst', length s) /\ firstn (length s) dst' = s).
Proof.
  intros type id pre s Ht Hi HP HS.
  destruct (char_written type id pre E_URL s) as (w & cs & E & F & T); auto.
  exists w, cs, (url_escape s). split; [exact E|]. split; [exact F|]. split; [exact T|].
  split; [apply url_clean|].
  intros dst HL.
  destruct (percent_total_frame (url_escape s) dst (bytes_url_escape s HS) HL) as (dst' & E1 & E2 & _).
  rewrite decode_escape in E1, E2 by assumption. eauto.
Qed.

Lemma put_bypasses : forall type id pre e c, type < 256 -> id < 65536 ->
  Forall char_op_ok pre -> is_byte c ->
  exists w contents,
    char_ops type id (pre ++ [OpEnc e; OpPut c; OpFlush]) = Done w /\
    Forall2 (carries type id) (w_dev w) contents /\
    concat contents = text_of (fun s => s) E_NONE pre ++ [c].
Proof.
  intros type id pre e c Ht Hi HP HS.
  destruct (char_stream type id (pre ++ [OpEnc e; OpPut c; OpFlush]) Ht Hi) as (w & cs & E & F & T & Z).
  { apply Forall_app. split; auto. repeat constructor. exact HS. }
  exists w, cs. split; auto. split; auto.
  rewrite (Z (pre ++ [OpEnc e; OpPut c])) in T by now rewrite <- app_assoc.
  rewrite app_nil_r in T. rewrite T, text_of_enc. cbn [text_of]. reflexivity.
Qed.

(** ** Determinedness *)
Lemma stream_record_undetermined : forall type id size content,
  In None (stream_record type id size content).
Proof.
  intros. unfold stream_record, header_bytes. apply in_or_app. left. apply in_or_app. right. now left.
Qed.

(** ** Flushing a wide stream in any reachable state *)
Lemma stream_ops_app : forall eb eof type id a b w,
  stream_ops eb eof type id (a ++ b) w =
  match stream_ops eb eof type id a w with
  | Done w' => stream_ops eb eof type id b w'
  | Spin => Spin
  | Undef => Undef
  end.
Proof.
  intros eb eof type id. induction a as [|o a IH]; intros b w; [reflexivity|].
  cbn [app stream_ops]. destruct (stream_op eb eof type id o w); auto.
Qed.

Lemma wide_flush : forall strict type id os, type < 256 -> id < 65536 -> Forall any_op_ok os ->
  exists w w', wide_ops strict type id os = Done w /\
    wide_ops strict type id (os ++ [OpFlush]) = Done w' /\ w_pend w' = [] /\
    if existsb (refused strict) (w_pend w) then w_dev w' = w_dev w
    else exists rs, w_dev w' = w_dev w ++ rs /\
         match w_pend w with
         | [] => rs = []
         | p => exists r, rs = [r] /\ carries type id r (utf8 p)
         end.
Proof.
  intros strict type id os Ht Hi HO.
  destruct (ops_winv type id strict Ht Hi os (fresh s_buffSize)) as (w & E & (C & L & F)); auto.
  { repeat split; cbn; [lia|constructor]. }
  pose proof buffSize_val as BV.
  exists w. unfold wide_ops. rewrite stream_ops_app, E. cbn [stream_ops stream_op].
  unfold emptyBuffer_wide. rewrite empty_wide_exact by lia.
  destruct (w_pend w) as [|c p] eqn:EP.
  - eexists. split; [reflexivity|]. split; [reflexivity|]. split; [reflexivity|]. cbn.
    exists []. split; auto. now rewrite app_nil_r.
  - destruct (existsb (refused strict) (c :: p)) eqn:R.
    + eexists. split; [reflexivity|]. split; [reflexivity|]. split; reflexivity.
    + eexists. split; [reflexivity|]. split; [reflexivity|]. split; [reflexivity|].
      eexists. split; [reflexivity|]. eexists. split; [reflexivity|].
      apply wide_record_carries with strict; auto; [discriminate|lia].
Qed.
