From Coq Require Import String List NArith ZArith Lia ZifyBool ZifyNat ZifyN Bool.
From Verif Require Import Model.Base Model.Endian Model.WebMaps Model.Protocol Model.Streams Spec.EndianSpec Spec.WireSpec
  Spec.EscapeSpec Spec.StreamSpec Proofs.Arith Proofs.EndianProofs Proofs.ProtocolProofs.
Import ListNotations.
Local Open Scope N_scope.

Lemma maxContent_val : N.of_nat maxContent = 65535.
Proof. unfold maxContent. apply N2Nat.id. Qed.
Lemma buffSize_val : N.of_nat s_buffSize = 8192.
Proof. unfold s_buffSize. apply N2Nat.id. Qed.
Global Opaque maxContent s_buffSize.

(** ** One record *)

Lemma may_be_app : forall a b bytes, may_be (a ++ b) bytes ->
  exists x y, bytes = x ++ y /\ may_be a x /\ may_be b y.
Proof. intros a b bytes H. apply Forall2_app_inv_l in H as (x & y & H1 & H2 & ->). eauto. Qed.

Lemma may_be_known : forall l x, may_be (known l) x -> x = l.
Proof.
  induction l as [|a l IH]; intros x H; inversion H; subst; auto.
  destruct H2 as [_ ->]. f_equal. now apply IH.
Qed.

Lemma known_may_be : forall l, bytes_ok l -> may_be (known l) l.
Proof. induction 1; constructor; auto. Qed.

Lemma may_be_none : forall n x, may_be (repeat None n) x -> length x = n.
Proof.
  induction n; intros x H; inversion H; subst; auto. cbn. f_equal. auto.
Qed.

Lemma none_may_be : forall n, may_be (repeat None n) (repeat 0 n).
Proof. induction n; constructor; auto. split; [lia|auto]. Qed.

Lemma may_be_join : forall a b x y, may_be a x -> may_be b y -> may_be (a ++ b) (x ++ y).
Proof. intros. now apply Forall2_app. Qed.

Lemma may_be_length : forall a x, may_be a x -> length x = length a.
Proof. induction 1; cbn; congruence. Qed.

Lemma getRecordSize_facts : forall n, 8 + N.min n 65535 <= getRecordSize n /\
  getRecordSize n - (8 + N.min n 65535) < 8 /\ (8 | getRecordSize n).
Proof. intros n. destruct (record_size n) as (A & B & _ & C). auto. Qed.

Lemma record_carries : forall type id n content,
  type < 256 -> id < 65536 -> bytes_ok content -> content <> [] ->
  N.of_nat (length content) = N.min n 65535 ->
  carries type id (stream_record type id (getRecordSize n) content) content.
Proof.
  intros type id n content Ht Hi HB HN HL.
  destruct (getRecordSize_facts n) as (F1 & F2 & F3). rewrite <- HL in F1, F2.
  unfold carries, stream_record, header_bytes; cbv zeta.
  set (cl := N.of_nat (length content)) in *.
  set (pad := getRecordSize n - cl - headerSize).
  assert (P : pad < 8) by (unfold pad, headerSize; lia).
  assert (C : cl < 65536) by lia.
  rewrite !trunc_small with (w := 16) by (change (2 ^ 16) with 65536; lia).
  rewrite !trunc_small with (w := 8) by (change (2 ^ 8) with 256; lia).
  rewrite !to16_digits by (change (2 ^ 16) with 65536; lia).
  split; [exact HN|]. split; [|split].
  - rewrite !app_length. unfold known. rewrite !map_length, !repeat_length, !app_length, !be_digits_length.
    cbn [length]. replace (N.of_nat _) with (getRecordSize n); auto.
    unfold pad, headerSize, cl in *. lia.
  - exists (([fcgi_version; type] ++ be_digits 2 id ++ be_digits 2 cl ++ [pad]) ++ [0] ++ content
        ++ repeat 0 (N.to_nat pad)).
    rewrite <- app_assoc. apply may_be_join; [apply known_may_be|].
    + apply Forall_app. split; [repeat constructor; unfold is_byte, fcgi_version; lia|].
      apply Forall_app. split; [apply be_digits_bytes|]. apply Forall_app. split; [apply be_digits_bytes|].
      constructor; [unfold is_byte; lia|constructor].
    + apply may_be_join; [apply (none_may_be 1)|]. apply may_be_join; [now apply known_may_be|apply none_may_be].
  - intros bytes H. rewrite <- app_assoc in H.
    apply may_be_app in H as (h & r1 & -> & H1 & H).
    apply may_be_app in H as (z & r2 & -> & H2 & H).
    apply may_be_app in H as (c & p & -> & H3 & H4).
    apply may_be_known in H1, H3. subst h c.
    apply (may_be_none 1) in H2. destruct z as [|r [|]]; try discriminate.
    apply may_be_none in H4.
    split; [unfold len; fold cl; lia|].
    exists p, r. split; [unfold len; lia|].
    unfold record_bytes, len. rewrite H4, N2Nat.id. fold cl.
    rewrite <- !app_assoc. reflexivity.
Qed.

(** [dev] holds records carrying the text [t]. *)
Definition emitted (type id : N) (dev : records) (t : list N) : Prop :=
  exists contents, Forall2 (carries type id) dev contents /\ concat contents = t.

Lemma emitted_snoc : forall type id dev t r c,
  emitted type id dev t -> carries type id r c -> emitted type id (dev ++ [r]) (t ++ c).
Proof.
  intros type id dev t r c (cs & F & <-) H. exists (cs ++ [c]). split.
  - apply Forall2_app; auto.
  - rewrite concat_app. cbn. now rewrite app_nil_r.
Qed.

Lemma emitted_nil : forall type id, emitted type id [] [].
Proof. exists []. split; auto. Qed.

Lemma send_loop_ok : forall type id fuel data out t,
  type < 256 -> id < 65536 -> bytes_ok data -> (length data <= fuel)%nat ->
  emitted type id out t ->
  exists out', send_loop maxContent fuel type id data out = Done out' /\
    emitted type id out' (t ++ data).
Proof.
  intros type id. induction fuel as [|f IH]; intros data out t Ht Hi HB HF HE.
  - destruct data; [|cbn in HF; lia]. exists out. rewrite app_nil_r. auto.
  - destruct data as [|b data]; [exists out; rewrite app_nil_r; auto|].
    remember (b :: data) as d eqn:Ed. cbn [send_loop]. rewrite Ed. rewrite <- Ed.
    assert (HL : (1 <= length d)%nat) by (subst; cbn; lia).
    pose proof maxContent_val as MV.
    assert (LF : N.of_nat (length (firstn maxContent d)) = N.min (N.of_nat (length d)) 65535)
      by (rewrite firstn_length; lia).
    destruct (IH (skipn maxContent d)
       (out ++ [stream_record type id (getRecordSize (N.of_nat (length d))) (firstn maxContent d)])
       (t ++ firstn maxContent d)) as (out' & E & HE'); auto.
    { now apply bytes_skipn. }
    { rewrite skipn_length. lia. }
    { apply emitted_snoc; auto. apply record_carries; auto. { now apply bytes_firstn. }
      intro X. rewrite X in LF. cbn in LF. lia. }
    exists out'. split; auto. rewrite <- app_assoc, firstn_skipn in HE'. exact HE'.
Qed.

Lemma dump_reads_ok : forall type id reads out t,
  type < 256 -> id < 65536 ->
  Forall (fun r => bytes_ok r /\ N.of_nat (length r) <= 65535) reads ->
  emitted type id out t ->
  emitted type id (dump_reads type id reads out) (t ++ stream_data reads).
Proof.
  intros type id. induction reads as [|r reads IH]; intros out t Ht Hi HR HE.
  - cbn. now rewrite app_nil_r.
  - inversion HR as [|? ? [HB HL] HR']; subst. destruct r as [|b r]; cbn [dump_reads stream_data].
    + now rewrite app_nil_r.
    + rewrite app_assoc. apply IH; auto. apply emitted_snoc; auto.
      apply record_carries; auto; [discriminate|]. lia.
Qed.

(** ** Character maps are the escaping functions *)

Definition escape1 (e : encoding) (c : N) : list N :=
  match e with E_NONE => [c] | E_HTML => html_escape1 c | E_URL => url_escape1 c end.

Lemma flat_map_single : forall s : list N, flat_map (fun c => [c]) s = s.
Proof. induction s; cbn; congruence. Qed.

Lemma escape_flat : forall e s, escape e s = flat_map (escape1 e) s.
Proof. destruct e; intros; cbn [escape]; [symmetry; apply flat_map_single|reflexivity|reflexivity]. Qed.

Lemma table_escape : forall e c,
  match map_find (enc_table e) c with Some m => m | None => [c] end = escape1 e c.
Proof.
  intros e c. destruct e; [reflexivity| |].
  - unfold enc_table, escape1, html_escape1, htmlCharacters. cbn [map_find].
    change (chr ">") with 62. change (chr "<") with 60. change (chr "&") with 38.
    change 0x27 with 39. rewrite !(N.eqb_sym _ c).
    destruct (N.eqb_spec c 34); [subst; reflexivity|].
    destruct (N.eqb_spec c 62); [subst; reflexivity|].
    destruct (N.eqb_spec c 60); [subst; reflexivity|].
    destruct (N.eqb_spec c 38); [subst; reflexivity|].
    destruct (N.eqb_spec c 39); [subst; reflexivity|]. reflexivity.
  - unfold enc_table, escape1, url_escape1.
    destruct (existsb (N.eqb c) url_reserved) eqn:E.
    + apply existsb_exists in E as (x & I & X). apply N.eqb_eq in X. subst x.
      revert c I. apply (proj1 (Forall_forall (fun c =>
        match map_find urlCharacters c with Some m => m | None => [c] end
        = [37; hexdigit (c / 16); hexdigit (c mod 16)]) url_reserved)).
      repeat constructor.
    + replace (map_find urlCharacters c) with (@None (list N)); auto.
      symmetry. unfold urlCharacters. cbn [map_find].
      repeat match goal with
      | |- (if ?a =? c then _ else _) = None =>
          destruct (N.eqb_spec a c) as [X|_];
          [exfalso; subst c; vm_compute in E; discriminate|]
      end. reflexivity.
Qed.

Lemma escape1_length : forall e c, (1 <= length (escape1 e c) <= 6)%nat.
Proof.
  intros e c. destruct e; cbn; [lia| |].
  - unfold html_escape1. repeat (destruct (_ =? _); [cbn; lia|]). cbn; lia.
  - unfold url_escape1. destruct (existsb _ _); cbn; lia.
Qed.

Lemma put_mapped_ok : forall e s pend cap s' pend',
  put_mapped (enc_table e) s pend cap = (s', pend') -> (length pend <= cap)%nat ->
  exists taken, s = taken ++ s' /\ pend' = pend ++ flat_map (escape1 e) taken /\
    (length pend' <= cap)%nat /\
    ((6 <= cap - length pend)%nat -> s <> [] -> taken <> []).
Proof.
  intros e. induction s as [|c s IH]; intros pend cap s' pend' H HL.
  - cbn in H. injection H as <- <-. exists []. cbn. rewrite app_nil_r. repeat split; auto.
  - cbn [put_mapped] in H. pose proof (table_escape e c) as TE.
    assert (G : forall m, m = escape1 e c -> (if Nat.ltb (cap - length pend) (length m) then (c :: s, pend)
          else put_mapped (enc_table e) s (pend ++ m) cap) = (s', pend') ->
        exists taken, c :: s = taken ++ s' /\ pend' = pend ++ flat_map (escape1 e) taken /\
          (length pend' <= cap)%nat /\ ((6 <= cap - length pend)%nat -> c :: s <> [] -> taken <> [])).
    { intros m -> G. pose proof (escape1_length e c) as L.
      destruct (Nat.ltb_spec (cap - length pend) (length (escape1 e c))).
      - injection G as <- <-. exists []. cbn. rewrite app_nil_r. repeat split; auto. lia.
      - apply IH in G as (taken & -> & -> & L' & _); [|rewrite app_length; lia].
        exists (c :: taken). cbn [flat_map app]. rewrite <- app_assoc in *. repeat split; auto. discriminate. }
    destruct (map_find (enc_table e) c) as [m|]; eapply G; eauto.
Qed.

Lemma put_pass_ok : forall Dev s (w : wsb Dev) s' w', put_pass s w = (s', w') ->
  (length (w_pend w) <= w_cap w)%nat ->
  exists taken, s = taken ++ s' /\ w_pend w' = w_pend w ++ escape (w_enc w) taken /\
    (length (w_pend w') <= w_cap w)%nat /\
    w_cap w' = w_cap w /\ w_enc w' = w_enc w /\ w_dev w' = w_dev w /\
    ((6 <= w_cap w - length (w_pend w))%nat -> s <> [] -> taken <> []).
Proof.
  intros Dev s w s' w' H HL. unfold put_pass in H. rewrite <- (firstn_skipn 0 s) in *.
  destruct (w_enc w) eqn:E.
  - cbn [firstn skipn app] in *.
    injection H as <- <-.
    set (a := Nat.min (length s) (w_cap w - length (w_pend w))) in *.
    exists (firstn a s). rewrite firstn_skipn. cbn [w_pend w_cap w_enc w_dev escape].
    repeat split; auto.
    + rewrite app_length, firstn_length. lia.
    + intros H1 H2 H3. assert (L : length (firstn a s) = 0%nat) by now rewrite H3.
      rewrite firstn_length in L. destruct s; [congruence|]. cbn [length] in *. lia.
  - cbn [firstn skipn app] in *.
    destruct (put_mapped (enc_table E_HTML) s (w_pend w) (w_cap w)) as [s1 p1] eqn:P. injection H as <- <-.
    apply put_mapped_ok in P as (taken & -> & -> & L & NE); auto.
    exists taken. rewrite escape_flat. cbn [w_pend w_cap w_enc w_dev]. repeat split; auto.
  - cbn [firstn skipn app] in *.
    destruct (put_mapped (enc_table E_URL) s (w_pend w) (w_cap w)) as [s1 p1] eqn:P. injection H as <- <-.
    apply put_mapped_ok in P as (taken & -> & -> & L & NE); auto.
    exists taken. rewrite escape_flat. cbn [w_pend w_cap w_enc w_dev]. repeat split; auto.
Qed.

Lemma escape_app : forall e a b, escape e (a ++ b) = escape e a ++ escape e b.
Proof. intros. rewrite !escape_flat. apply flat_map_app. Qed.

(** ** Any buffer whose emptyBuffer moves the put area to the device *)
Section Generic.
Variable eb : wsb records -> outcome (bool * wsb records).
Variable is_eof : N -> bool.
Variables type id : N.
Variable conv : list N -> list N.
Variable good : N -> Prop.          (* characters that may be written *)
Hypothesis Ht : type < 256.
Hypothesis Hi : id < 65536.
Hypothesis conv_app : forall a b, conv (a ++ b) = conv a ++ conv b.
Hypothesis good_esc : forall e c, good c -> Forall good (escape1 e c).
Hypothesis good_eof : forall c, good c -> is_eof c = false.
Hypothesis eb_ok : forall w t, Forall good (w_pend w) -> w_cap w = s_buffSize ->
  (length (w_pend w) <= w_cap w)%nat -> emitted type id (w_dev w) t ->
  exists dev', eb w = Val (true, mkW [] (w_cap w) (w_enc w) dev') /\
    emitted type id dev' (t ++ conv (w_pend w)).

Record inv (w : wsb records) (t : list N) : Prop := {
  i_good : Forall good (w_pend w);
  i_cap : w_cap w = s_buffSize;
  i_len : (length (w_pend w) <= w_cap w)%nat;
  i_text : exists u, emitted type id (w_dev w) u /\ t = u ++ conv (w_pend w)
}.

Lemma conv_nil : conv [] = [].
Proof. pose proof (conv_app [] []) as H. cbn in H. destruct (conv []); auto.
  apply (f_equal (@length N)) in H. rewrite app_length in H. cbn in H. lia. Qed.

Lemma eb_inv : forall w t, inv w t ->
  exists w', eb w = Val (true, w') /\ inv w' t /\ w_enc w' = w_enc w /\ w_pend w' = [].
Proof.
  intros w t [G C L (u & E & ->)]. destruct (eb_ok w u G C L E) as (dev' & H1 & H2).
  eexists. split; [exact H1|]. split; [|auto]. split; cbn [w_pend w_cap w_dev]; auto; [cbn; lia|].
  exists (u ++ conv (w_pend w)). split; auto. now rewrite conv_nil, app_nil_r.
Qed.

Lemma good_escape : forall e s, Forall good s -> Forall good (escape e s).
Proof.
  intros e s H. rewrite escape_flat. induction H; cbn; [constructor|].
  apply Forall_app. auto.
Qed.

Lemma xsputn_ok : forall fuel s w t, inv w t -> Forall good s ->
  (length s + (if Nat.leb 6 (w_cap w - length (w_pend w)) then 1 else 2) <= fuel)%nat ->
  exists w', xsputn eb fuel s w = Done w' /\ inv w' (t ++ conv (escape (w_enc w) s)) /\
    w_enc w' = w_enc w.
Proof.
  pose proof buffSize_val as BV.
  induction fuel as [|f IH]; intros s w t HI HG HF.
  { destruct (Nat.leb _ _); lia. }
  cbn [xsputn]. destruct (put_pass s w) as [s1 w1] eqn:P.
  destruct HI as [G C L (u & E & ->)].
  apply put_pass_ok in P as (taken & -> & P1 & P2 & P3 & P4 & P5 & P6); auto.
  apply Forall_app in HG as [HG1 HG2].
  assert (I1 : inv w1 ((u ++ conv (w_pend w)) ++ conv (escape (w_enc w) taken))).
  { split; try congruence.
    - rewrite P1. apply Forall_app. split; auto. now apply good_escape.
    - exists u. rewrite P5, P1, conv_app, app_assoc. auto. }
  destruct s1 as [|c s1].
  - exists w1. rewrite app_nil_r. auto.
  - destruct (eb_inv w1 _ I1) as (w2 & E2 & I2 & E3 & E4). rewrite E2.
    destruct (IH (c :: s1) w2 _ I2) as (w3 & R1 & R2 & R3); auto.
    { rewrite E4. cbn [length]. rewrite (i_cap _ _ I2).
      destruct (Nat.leb_spec 6 (s_buffSize - 0)); [|lia].
      rewrite app_length in HF. cbn [length] in HF.
      destruct (Nat.leb_spec 6 (w_cap w - length (w_pend w))); [|lia].
      assert (taken <> []) by (apply P6; auto; destruct taken; discriminate).
      destruct taken; [congruence|]. cbn [length] in HF. lia. }
    exists w3. split; auto. split; [|congruence].
    rewrite E3, P4 in R2. rewrite escape_app, conv_app, app_assoc. exact R2.
Qed.

Lemma sputc_ok : forall c w t, inv w t -> good c ->
  exists w' b, sputc eb is_eof 2 c w = Done (b, w') /\ inv w' (t ++ conv [c]) /\ w_enc w' = w_enc w.
Proof.
  pose proof buffSize_val as BV.
  intros c w t HI HC.
  assert (A : forall w t, inv w t -> (length (w_pend w) < w_cap w)%nat ->
     inv (mkW (w_pend w ++ [c]) (w_cap w) (w_enc w) (w_dev w)) (t ++ conv [c])).
  { intros w0 t0 [G C L (u & E & ->)] HL. split; cbn [w_pend w_cap w_dev]; auto.
    - apply Forall_app; auto.
    - rewrite app_length. cbn. lia.
    - exists u. rewrite conv_app, app_assoc. auto. }
  cbn [sputc]. destruct (Nat.ltb_spec (length (w_pend w)) (w_cap w)).
  - eexists. eexists. split; [reflexivity|]. split; [now apply A|reflexivity].
  - destruct (eb_inv w t HI) as (w2 & E2 & I2 & E3 & E4). rewrite E2, good_eof by assumption.
    rewrite E4. cbn [length]. rewrite (i_cap _ _ I2).
    destruct (Nat.ltb_spec 0 s_buffSize); [|lia].
    pose proof (A w2 t I2) as A2. rewrite E4, (i_cap _ _ I2) in A2. cbn [length] in A2.
    eexists. eexists. split; [reflexivity|]. split; [|exact E3]. apply A2. lia.
Qed.

Definition op_ok (o : sop) : Prop :=
  match o with
  | OpWrite s => Forall good s
  | OpPut c => good c
  | OpDump d => bytes_ok d
  | OpDumpStream reads => Forall (fun r => bytes_ok r /\ N.of_nat (length r) <= 65535) reads
  | _ => True
  end.

Lemma op_step : forall o w t, inv w t -> op_ok o ->
  exists w1, stream_op eb is_eof type id o w = Done w1 /\
    inv w1 (t ++ text_of conv (w_enc w) [o]) /\
    w_enc w1 = match o with OpEnc e => e | _ => w_enc w end /\
    (o = OpFlush -> w_pend w1 = []).
Proof.
  intros o w t HI HO1.
  destruct o as [s|c|e|d|reads|]; cbn [stream_op text_of op_ok] in *; rewrite ?app_nil_r.
    - destruct (xsputn_ok (length s + 2) s w t HI HO1) as (w1 & E1 & E2 & E3).
      { destruct (Nat.leb _ _); lia. }
      exists w1. split; [exact E1|]. split; [exact E2|]. split; [exact E3|discriminate].
    - destruct (sputc_ok c w t HI HO1) as (w1 & b & E1 & E2 & E3).
      rewrite E1. exists w1. split; [reflexivity|]. split; [exact E2|]. split; [exact E3|discriminate].
    - exists (mkW (w_pend w) (w_cap w) e (w_dev w)). cbn [w_enc app].
      split; [reflexivity|]. split; [destruct HI; split; auto|]. split; [reflexivity|discriminate].
    - destruct (eb_inv w t HI) as (w2 & E2 & I2 & E3 & E4). rewrite E2.
      destruct I2 as [G C L (u & E & HU)].
      destruct (send_loop_ok type id (length d) d (w_dev w2) u Ht Hi HO1) as (out' & R1 & R2); auto.
      rewrite R1. eexists. split; [reflexivity|]. cbn [w_enc w_pend w_cap w_dev].
      split; [|split; [exact E3|discriminate]].
      split; cbn [w_pend w_cap w_dev]; auto. exists (u ++ d). split; auto.
      rewrite HU, E4, conv_nil, !app_nil_r. reflexivity.
    - destruct (eb_inv w t HI) as (w2 & E2 & I2 & E3 & E4). rewrite E2.
      destruct I2 as [G C L (u & E & HU)].
      pose proof (dump_reads_ok type id reads (w_dev w2) u Ht Hi HO1 E) as R2.
      eexists. split; [reflexivity|]. cbn [w_enc w_pend w_cap w_dev].
      split; [|split; [exact E3|discriminate]].
      split; cbn [w_pend w_cap w_dev]; auto. exists (u ++ stream_data reads). split; auto.
      rewrite HU, E4, conv_nil, !app_nil_r. reflexivity.
    - destruct (eb_inv w t HI) as (w2 & E2 & I2 & E3 & E4). rewrite E2.
      exists w2. split; [reflexivity|]. split; [exact I2|]. split; [exact E3|]. intros _. exact E4.
Qed.

Lemma ops_ok : forall os w t, inv w t -> Forall op_ok os ->
  exists w', stream_ops eb is_eof type id os w = Done w' /\
    inv w' (t ++ text_of conv (w_enc w) os) /\
    (forall pre, os = pre ++ [OpFlush] -> w_pend w' = []).
Proof.
  induction os as [|o os IH]; intros w t HI HO.
  { exists w. cbn. rewrite app_nil_r. split; auto. split; auto. intros pre H. destruct pre; discriminate. }
  inversion HO as [|? ? HO1 HO2]; subst.
  destruct (op_step o w t HI HO1) as (w1 & E1 & I1 & EE & F).
  assert (E2 : text_of conv (w_enc w) [o] ++ text_of conv (w_enc w1) os = text_of conv (w_enc w) (o :: os)).
  { rewrite EE. destruct o; cbn [text_of]; rewrite ?app_nil_r; reflexivity. }
  cbn [stream_ops]. rewrite E1.
  destruct (IH w1 _ I1 HO2) as (w2 & R1 & R2 & R3).
  exists w2. split; auto. split.
  - rewrite <- E2, app_assoc. exact R2.
  - intros pre H. destruct pre as [|p pre].
    + cbn [app] in H. injection H as -> ->. cbn in R1. injection R1 as <-. now apply F.
    + cbn [app] in H. injection H as -> ->. now apply (R3 pre).
Qed.

Lemma fresh_inv : inv (fresh s_buffSize) [].
Proof.
  split; cbn; auto; [lia|]. exists []. split; [apply emitted_nil|]. now rewrite conv_nil.
Qed.
End Generic.

(** ** The narrow stream *)

Lemma escape1_bytes : forall e c, c < 256 -> Forall is_byte (escape1 e c).
Proof.
  intros e c Hc.
  assert (K : forallb (fun x => x <? 256) (escape1 e c) = true).
  { destruct e; cbn [escape1 forallb]; [lia| |].
    - unfold html_escape1. repeat (destruct (c =? _); [reflexivity|]). cbn. lia.
    - unfold url_escape1. destruct (existsb _ _); cbn [forallb]; [|lia].
      unfold hexdigit. rewrite !andb_true_iff. repeat split; try reflexivity;
      (assert (c / 16 < 16) by (apply N.div_lt_upper_bound; lia);
       assert (c mod 16 < 16) by (apply N.mod_lt; lia);
       destruct (_ <? 10); lia). }
  rewrite forallb_forall in K. apply Forall_forall. intros x Hx. apply K in Hx. unfold is_byte. lia.
Qed.

Lemma eb_char_ok : forall type id, type < 256 -> id < 65536 -> forall w t,
  Forall is_byte (w_pend w) -> w_cap w = s_buffSize ->
  (length (w_pend w) <= w_cap w)%nat -> emitted type id (w_dev w) t ->
  exists dev', emptyBuffer_char type id w = Val (true, mkW [] (w_cap w) (w_enc w) dev') /\
    emitted type id dev' (t ++ w_pend w).
Proof.
  intros type id Ht Hi w t HB HC HL HE. unfold emptyBuffer_char.
  destruct (send_loop_ok type id (length (w_pend w)) (w_pend w) (w_dev w) t Ht Hi HB) as (o & E1 & E2); auto.
  rewrite E1. eauto.
Qed.

(** Well-formed histories: bytes written, reads of at most 65535 bytes. *)
Definition char_op_ok : sop -> Prop := op_ok is_byte.

Lemma char_stream : forall type id os, type < 256 -> id < 65536 -> Forall char_op_ok os ->
  exists w contents,
    char_ops type id os = Done w /\
    Forall2 (carries type id) (w_dev w) contents /\
    concat contents ++ w_pend w = text_of (fun s => s) E_NONE os /\
    (forall pre, os = pre ++ [OpFlush] -> w_pend w = []).
Proof.
  intros type id os Ht Hi HO. unfold char_ops.
  destruct (ops_ok (emptyBuffer_char type id) (fun _ => false) type id (fun s => s) is_byte Ht Hi
    ltac:(auto) escape1_bytes ltac:(auto) (eb_char_ok type id Ht Hi) os (fresh s_buffSize) []
    (fresh_inv (emptyBuffer_char type id) (fun _ => false) type id (fun s => s) is_byte Ht Hi
    ltac:(auto) escape1_bytes ltac:(auto) (eb_char_ok type id Ht Hi)) HO) as (w & E & [G C L (u & (cs & F & <-) & T)] & R).
  exists w, cs. repeat split; auto.
Qed.

(** ** UTF-8 *)
Ltac Zify.zify_post_hook ::= Z.div_mod_to_equations.

Lemma utf8_write_spec : forall c, utf8_write c = utf8_1 c.
Proof.
  intros c. unfold utf8_write, utf8_1.
  assert (M : forall v, N.land v 0x3f = v mod 64)
    by (intros; change 0x3f with (N.ones 6); now rewrite N.land_ones).
  rewrite !M, !N.shiftr_div_pow2.
  change (2 ^ 6) with 64. change (2 ^ 12) with 4096. change (2 ^ 18) with 262144.
  destruct (N.ltb_spec c 128); [reflexivity|].
  destruct (N.leb_spec c 0x7ff); destruct (N.ltb_spec c 2048); try lia.
  { f_equal; [lia|]. f_equal. lia. }
  destruct (N.leb_spec c 0xffff); destruct (N.ltb_spec c 65536); try lia.
  { f_equal; [lia|]. f_equal; [lia|]. f_equal. lia. }
  f_equal; [lia|]. f_equal; [lia|]. f_equal; [lia|]. f_equal. lia.
Qed.

Lemma utf8_1_facts : forall c, c <= 0x10ffff ->
  Forall is_byte (utf8_1 c) /\ (1 <= length (utf8_1 c) <= 4)%nat.
Proof.
  intros c Hc. unfold utf8_1.
  destruct (N.ltb_spec c 128); [split; [repeat constructor; unfold is_byte; lia|cbn; lia]|].
  destruct (N.ltb_spec c 2048); [split; [repeat constructor; unfold is_byte; lia|cbn; lia]|].
  destruct (N.ltb_spec c 65536); (split; [repeat constructor; unfold is_byte; lia|cbn; lia]).
Qed.

Lemma utf8_1_length : forall c, (1 <= length (utf8_1 c) <= 4)%nat.
Proof.
  intros c. unfold utf8_1. repeat (destruct (_ <? _); [cbn; lia|]). cbn; lia.
Qed.

Ltac Zify.zify_post_hook ::= idtac.

Lemma utf8_length : forall s, (length s <= length (utf8 s) <= 4 * length s)%nat.
Proof.
  induction s as [|c s IH]; cbn [utf8 flat_map length]; [lia|].
  rewrite app_length. fold (utf8 s). pose proof (utf8_1_length c). lia.
Qed.

Lemma conv_out : forall strict s room limit acc,
  N.of_nat (4 * length s) <= limit -> limit <= room -> room < 2 ^ 64 ->
  ucs4_out strict s room limit acc
  = if existsb (refused strict) s then CvError else CvOk (acc ++ utf8 s).
Proof.
  intros strict. induction s as [|c s IH]; intros room limit acc H1 H2 H3.
  - cbn. now rewrite app_nil_r.
  - cbn [ucs4_out existsb]. destruct (refused strict c) eqn:R; [reflexivity|]. cbn [orb].
    rewrite utf8_write_spec. pose proof (utf8_1_length c) as L. cbn [length] in H1.
    destruct (N.ltb_spec room (N.of_nat (length (utf8_1 c)))); [lia|].
    destruct (N.ltb_spec limit (N.of_nat (length (utf8_1 c)))); [lia|].
    assert (T : trunc 64 (room + 2 ^ 64 - N.of_nat (length (utf8_1 c))) = room - N.of_nat (length (utf8_1 c))).
    { unfold trunc. replace (room + 2 ^ 64 - N.of_nat (length (utf8_1 c)))
        with (room - N.of_nat (length (utf8_1 c)) + 1 * 2 ^ 64) by lia.
      rewrite N.mod_add by discriminate. apply N.mod_small. lia. }
    rewrite T, IH by lia. destruct (existsb _ s); auto. cbn [utf8 flat_map]. now rewrite <- app_assoc.
Qed.

(** The exact effect of emptying a wide buffer. *)
Lemma empty_wide_exact : forall strict type id pend out,
  N.of_nat (length pend) <= 8192 ->
  empty_wide strict (length pend) type id pend out
  = Val (match pend with
         | [] => (true, out)
         | _ => if existsb (refused strict) pend then (false, out)
                else (true, out ++ [stream_record type id
                        (getRecordSize (N.of_nat (length (utf8 pend)))) (utf8 pend)])
         end).
Proof.
  intros strict type id pend out HL. destruct pend as [|c pend]; [reflexivity|].
  remember (c :: pend) as p eqn:Ep.
  assert (1 <= length p)%nat by (subst; cbn; lia).
  destruct (length p) as [|f] eqn:Ef; [lia|]. cbn [empty_wide]. rewrite Ep. rewrite <- Ep, Ef.
  rewrite conv_out.
  - destruct (existsb (refused strict) p); [reflexivity|]. cbn [app].
    rewrite trunc_small; [reflexivity|]. pose proof (utf8_length p). change (2 ^ 16) with 65536. lia.
  - destruct (getRecordSize_facts (N.of_nat (S f) * 4)) as (F & _ & _). unfold headerSize. lia.
  - destruct (getRecordSize_facts (N.of_nat (S f) * 4)) as (F1 & F2 & _). unfold headerSize.
    change (2 ^ 64) with 18446744073709551616. lia.
  - reflexivity.
Qed.

Lemma refused_bound : forall strict s, existsb (refused strict) s = false ->
  Forall (fun c => c <= 0x10ffff) s.
Proof.
  intros strict s H. apply Forall_forall. intros c Hc.
  destruct (N.leb_spec c 0x10ffff); auto. exfalso.
  assert (existsb (refused strict) s = true).
  { apply existsb_exists. exists c. split; auto. unfold refused.
    destruct (N.ltb_spec 0x10ffff c); [reflexivity|lia]. }
  congruence.
Qed.

Lemma utf8_bytes : forall s, Forall (fun c => c <= 0x10ffff) s -> bytes_ok (utf8 s).
Proof.
  induction 1; cbn; [constructor|]. apply Forall_app. split; auto. now apply utf8_1_facts.
Qed.

Lemma utf8_nonempty : forall s, s <> [] -> utf8 s <> [].
Proof.
  intros [|c s] H X; [congruence|]. pose proof (utf8_length (c :: s)) as L. rewrite X in L. cbn in L. lia.
Qed.

Lemma scalar_not_refused : forall strict s, Forall scalar s -> existsb (refused strict) s = false.
Proof.
  intros strict s H. induction H as [|c s Hc H IH]; [reflexivity|]. cbn [existsb]. rewrite IH, orb_false_r.
  unfold refused. unfold scalar in Hc. destruct strict; lia.
Qed.

Lemma wide_record_carries : forall strict type id p, type < 256 -> id < 65536 ->
  p <> [] -> N.of_nat (length p) <= 8192 -> existsb (refused strict) p = false ->
  carries type id (stream_record type id (getRecordSize (N.of_nat (length (utf8 p)))) (utf8 p)) (utf8 p).
Proof.
  intros strict type id p Ht Hi HN HL HR. apply record_carries; auto.
  - apply utf8_bytes. now apply refused_bound with strict.
  - now apply utf8_nonempty.
  - pose proof (utf8_length p). lia.
Qed.

Lemma eb_wide_ok : forall strict type id, type < 256 -> id < 65536 -> forall w t,
  Forall scalar (w_pend w) -> w_cap w = s_buffSize ->
  (length (w_pend w) <= w_cap w)%nat -> emitted type id (w_dev w) t ->
  exists dev', emptyBuffer_wide strict type id w = Val (true, mkW [] (w_cap w) (w_enc w) dev') /\
    emitted type id dev' (t ++ utf8 (w_pend w)).
Proof.
  intros strict type id Ht Hi w t HG HC HL HE. unfold emptyBuffer_wide.
  pose proof buffSize_val as BV.
  rewrite empty_wide_exact by lia.
  destruct (w_pend w) as [|c p] eqn:EP.
  - eexists. split; [reflexivity|]. cbn. now rewrite app_nil_r.
  - rewrite scalar_not_refused by assumption.
    eexists. split; [reflexivity|].
    apply emitted_snoc; auto. apply wide_record_carries with strict; auto.
    + discriminate.
    + lia.
    + now apply scalar_not_refused.
Qed.

Lemma escape1_scalar : forall e c, scalar c -> Forall scalar (escape1 e c).
Proof.
  intros e c Hc. destruct (N.lt_ge_cases c 256) as [L|L].
  - eapply Forall_impl; [|apply escape1_bytes; exact L]. intros x Hx. unfold is_byte in Hx. left. lia.
  - assert (E : escape1 e c = [c]).
    { rewrite <- table_escape. destruct e; [reflexivity| |].
      - unfold enc_table, htmlCharacters. cbn [map_find].
        change (chr ">") with 62. change (chr "<") with 60. change (chr "&") with 38. change 0x27 with 39.
        repeat match goal with |- context [?a =? c] => destruct (N.eqb_spec a c); [lia|] end. reflexivity.
      - unfold enc_table. pose proof (table_escape E_URL c) as T. unfold enc_table, escape1, url_escape1 in T.
        destruct (existsb (N.eqb c) url_reserved) eqn:X.
        + apply existsb_exists in X as (x & I & X). apply N.eqb_eq in X. subst x.
          exfalso. assert (Forall (fun x => x < 256) url_reserved) as F by (repeat constructor).
          rewrite Forall_forall in F. apply F in I. lia.
        + exact T. }
    rewrite E. constructor; auto.
Qed.

Definition wide_op_ok : sop -> Prop := op_ok scalar.

Lemma utf8_app : forall a b, utf8 (a ++ b) = utf8 a ++ utf8 b.
Proof. intros. apply flat_map_app. Qed.

Lemma wide_stream : forall strict type id os, type < 256 -> id < 65536 -> Forall wide_op_ok os ->
  exists w contents,
    wide_ops strict type id os = Done w /\
    Forall2 (carries type id) (w_dev w) contents /\
    concat contents ++ utf8 (w_pend w) = text_of utf8 E_NONE os /\
    (forall pre, os = pre ++ [OpFlush] -> w_pend w = []).
Proof.
  intros strict type id os Ht Hi HO. unfold wide_ops.
  assert (EOFH : forall c, scalar c -> (c =? 0xffffffff) = false) by (unfold scalar; intros; lia).
  destruct (ops_ok (emptyBuffer_wide strict type id) (fun c => c =? 0xffffffff) type id utf8 scalar Ht Hi
    utf8_app escape1_scalar EOFH (eb_wide_ok strict type id Ht Hi) os (fresh s_buffSize) []
    (fresh_inv (emptyBuffer_wide strict type id) (fun c => c =? 0xffffffff) type id utf8 scalar Ht Hi
    utf8_app escape1_scalar EOFH (eb_wide_ok strict type id Ht Hi)) HO) as (w & E & [G C L (u & (cs & F & <-) & T)] & R).
  exists w, cs. repeat split; auto.
Qed.

(** A failing conversion: nothing is emitted, everything buffered is dropped. *)
Lemma wide_failure : forall strict type id w,
  (length (w_pend w) <= s_buffSize)%nat ->
  existsb (refused strict) (w_pend w) = true ->
  emptyBuffer_wide strict type id w = Val (false, mkW [] (w_cap w) (w_enc w) (w_dev w)).
Proof.
  intros strict type id w HL HR. unfold emptyBuffer_wide. pose proof buffSize_val as BV.
  rewrite empty_wide_exact by lia.
  destruct (w_pend w) as [|c p] eqn:EP; [discriminate|]. now rewrite HR.
Qed.

(** ** Well-formedness of records for every character whatsoever *)
Definition all_carry (type id : N) (dev : records) : Prop :=
  Forall (fun r => exists c, carries type id r c) dev.

Section AnyChars.
Variables type id : N.
Variable strict : bool.
Hypothesis Ht : type < 256.
Hypothesis Hi : id < 65536.

Definition winv (w : wsb records) : Prop :=
  w_cap w = s_buffSize /\ (length (w_pend w) <= s_buffSize)%nat /\ all_carry type id (w_dev w).

Lemma eb_winv : forall w, winv w ->
  exists b w', emptyBuffer_wide strict type id w = Val (b, w') /\ winv w' /\ w_pend w' = [].
Proof.
  intros w (C & L & F). unfold emptyBuffer_wide. pose proof buffSize_val as BV.
  rewrite empty_wide_exact by lia.
  destruct (w_pend w) as [|c p] eqn:EP.
  - eexists. eexists. split; [reflexivity|]. repeat split; auto; cbn; lia.
  - destruct (existsb (refused strict) (c :: p)) eqn:R.
    + eexists. eexists. split; [reflexivity|]. repeat split; auto; cbn; lia.
    + eexists. eexists. split; [reflexivity|]. split; [|reflexivity]. split; [exact C|]. split; [cbn; lia|].
      cbn [w_dev]. apply Forall_app. split; auto. constructor; [|constructor].
      exists (utf8 (c :: p)). apply wide_record_carries with strict; auto; [discriminate|lia].
Qed.

Lemma xsputn_winv : forall fuel s w, winv w ->
  (length s + (if Nat.leb 6 (w_cap w - length (w_pend w)) then 1 else 2) <= fuel)%nat ->
  exists w', xsputn (emptyBuffer_wide strict type id) fuel s w = Done w' /\ winv w'.
Proof.
  pose proof buffSize_val as BV.
  induction fuel as [|f IH]; intros s w HI HF. { destruct (Nat.leb _ _); lia. }
  cbn [xsputn]. destruct (put_pass s w) as [s1 w1] eqn:P. destruct HI as (C & L & F).
  apply put_pass_ok in P as (taken & -> & P1 & P2 & P3 & P4 & P5 & P6); [|congruence].
  assert (I1 : winv w1) by (repeat split; congruence).
  destruct s1 as [|c s1]; [eauto|].
  destruct (eb_winv w1 I1) as (b & w2 & E2 & I2 & E4). rewrite E2.
  apply IH; auto. rewrite E4. cbn [length]. destruct I2 as (C2 & _). rewrite C2.
  destruct (Nat.leb_spec 6 (s_buffSize - 0)); [|lia].
  rewrite app_length in HF. cbn [length] in HF.
  destruct (Nat.leb_spec 6 (w_cap w - length (w_pend w))); [|lia].
  assert (taken <> []) by (apply P6; auto; destruct taken; discriminate).
  destruct taken; [congruence|]. cbn [length] in HF. lia.
Qed.

Definition any_op_ok : sop -> Prop := op_ok (fun _ => True).

Lemma all_carry_emitted : forall dev, all_carry type id dev <-> exists t, emitted type id dev t.
Proof.
  intros dev. split.
  - induction 1 as [|r dev (c & Hc) H (t & cs & F & E)].
    + exists []. apply emitted_nil.
    + exists (c ++ t). exists (c :: cs). split; [constructor; auto|]. cbn. now rewrite E.
  - intros (t & cs & F & _). induction F; constructor; eauto.
Qed.

Lemma op_winv : forall o w, winv w -> any_op_ok o ->
  exists w', stream_op (emptyBuffer_wide strict type id) (fun c => c =? 0xffffffff) type id o w = Done w'
   /\ winv w'.
Proof.
  pose proof buffSize_val as BV.
  intros o w HI HO. destruct o as [s|c|e|d|reads|]; cbn [stream_op any_op_ok op_ok] in *.
  - apply xsputn_winv; auto. destruct (Nat.leb _ _); lia.
  - assert (A : forall w, winv w -> (length (w_pend w) < w_cap w)%nat ->
       winv (mkW (w_pend w ++ [c]) (w_cap w) (w_enc w) (w_dev w))).
    { intros w0 (C & L & F) HL. repeat split; auto. cbn [w_pend]. rewrite app_length. cbn. lia. }
    cbn [sputc]. destruct (Nat.ltb_spec (length (w_pend w)) (w_cap w)); [eauto|].
    destruct (eb_winv w HI) as (b & w2 & E2 & I2 & E4). rewrite E2. destruct b; [|eauto].
    destruct (c =? 4294967295); [eauto|].
    destruct I2 as (C2 & L2 & F2). rewrite E4, C2. cbn [length].
    destruct (Nat.ltb_spec 0 s_buffSize); [|lia]. eexists. split; [reflexivity|].
    repeat split; auto; cbn; lia.
  - eexists. split; [reflexivity|]. destruct HI as (C & L & F). repeat split; auto.
  - destruct (eb_winv w HI) as (b & w2 & E2 & (C2 & L2 & F2) & E4). rewrite E2.
    apply all_carry_emitted in F2 as (t & F2).
    destruct (send_loop_ok type id (length d) d (w_dev w2) t Ht Hi HO) as (out' & R1 & R2); auto.
    rewrite R1. eexists. split; [reflexivity|]. repeat split; auto.
    cbn. apply all_carry_emitted. eauto.
  - destruct (eb_winv w HI) as (b & w2 & E2 & (C2 & L2 & F2) & E4). rewrite E2.
    apply all_carry_emitted in F2 as (t & F2). eexists. split; [reflexivity|].
    repeat split; auto. cbn. apply all_carry_emitted.
    exists (t ++ stream_data reads). now apply dump_reads_ok.
  - destruct (eb_winv w HI) as (b & w2 & E2 & I2 & E4). rewrite E2. eauto.
Qed.

Lemma ops_winv : forall os w, winv w -> Forall any_op_ok os ->
  exists w', stream_ops (emptyBuffer_wide strict type id) (fun c => c =? 0xffffffff) type id os w = Done w'
   /\ winv w'.
Proof.
  induction os as [|o os IH]; intros w HI HO; [cbn; eauto|].
  inversion HO; subst. cbn [stream_ops].
  destruct (op_winv o w) as (w1 & -> & I1); auto.
Qed.
End AnyChars.

Lemma wide_records_wf : forall strict type id os, type < 256 -> id < 65536 -> Forall any_op_ok os ->
  exists w, wide_ops strict type id os = Done w /\
    forall r, In r (w_dev w) -> exists c, carries type id r c.
Proof.
  intros strict type id os Ht Hi HO.
  destruct (ops_winv type id strict Ht Hi os (fresh s_buffSize)) as (w & E & (_ & _ & F)); auto.
  { repeat split; cbn; [lia|constructor]. }
  exists w. split; [exact E|]. unfold all_carry in F. rewrite Forall_forall in F. exact F.
Qed.

Lemma char_records_wf : forall type id os, type < 256 -> id < 65536 -> Forall char_op_ok os ->
  exists w, char_ops type id os = Done w /\
    forall r, In r (w_dev w) -> exists c, carries type id r c.
Proof.
  intros type id os Ht Hi HO.
  destruct (char_stream type id os Ht Hi HO) as (w & cs & E & F & _).
  exists w. split; auto. intros r Hr. clear -F Hr. induction F; [destruct Hr|].
  destruct Hr as [<-|Hr]; eauto.
Qed.
