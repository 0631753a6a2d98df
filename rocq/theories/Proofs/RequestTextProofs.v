(** What the application writes is what the records carry. *)
From Coq Require Import String List NArith ZArith Bool Lia ZifyBool ZifyNat ZifyN.
From Verif Require Import Model.Base Model.Endian Model.Protocol Model.WebMaps Model.Streams
  Model.Environment Model.Multipart Model.Request
  Spec.EndianSpec Spec.WireSpec Spec.StreamSpec Spec.EnvironmentSpec Spec.RequestSpec
  Proofs.EndianProofs Proofs.StreamProofs Proofs.RequestProofs.
Import ListNotations.
Local Open Scope N_scope.

Lemma text_nil : forall type id rs, stream_text type id [] rs -> rs = [].
Proof. intros type id rs H. inversion H; auto. Qed.

Lemma text_app : forall type id a t b u, stream_text type id a t -> stream_text type id b u ->
  stream_text type id (a ++ b) (t ++ u).
Proof.
  intros type id a t b u H HB. induction H; cbn [app]; auto.
  - rewrite <- app_assoc. now constructor.
  - now constructor.
Qed.

Lemma text_emitted : forall type id dev t, emitted type id dev t -> stream_text type id dev t.
Proof.
  intros type id dev t (cs & F & <-). induction F; cbn; [constructor|]. now constructor.
Qed.

Lemma text_other : forall type type' id dev t, type <> type' -> emitted type' id dev t ->
  stream_text type id dev [].
Proof.
  intros type type' id dev t N (cs & F & _). induction F as [|r c dev cs H F IH]; [constructor|].
  constructor; auto. intros bytes M. destruct H as (_ & _ & _ & H). apply H in M as (_ & p & z & _ & ->).
  cbn. congruence.
Qed.

Fixpoint enc_after (e : encoding) (os : list sop) : encoding :=
  match os with
  | [] => e
  | OpEnc e' :: os' => enc_after e' os'
  | _ :: os' => enc_after e os'
  end.

Lemma text_of_app : forall conv a e b, text_of conv e (a ++ b)
  = text_of conv e a ++ text_of conv (enc_after e a) b.
Proof.
  intros conv. induction a as [|o a IH]; intros e b; [reflexivity|].
  destruct o; cbn [app text_of enc_after]; rewrite IH; rewrite ?app_assoc; reflexivity.
Qed.

Lemma enc_after_app : forall a e b, enc_after e (a ++ b) = enc_after (enc_after e a) b.
Proof. induction a as [|o a IH]; intros e b; [reflexivity|]. destruct o; cbn; apply IH. Qed.

Lemma ops_on_app : forall b l x, ops_on b (l ++ [x])
  = ops_on b l ++ (if Bool.eqb (fst x) b then [snd x] else []).
Proof.
  intros b l x. unfold ops_on. rewrite filter_app, map_app. cbn [filter].
  destruct (Bool.eqb (fst x) b); reflexivity.
Qed.

(** One operation on a buffer with an empty device. *)
Lemma op_text : forall k type id o (w : wsb records), type < 256 -> id < 65536 ->
  Forall (real_char k) (w_pend w) -> w_cap w = s_buffSize -> (length (w_pend w) <= w_cap w)%nat ->
  w_dev w = [] -> op_chars (real_char k) o ->
  exists w' u, stream_op (eb k type id) (eof_of k) type id o w = Done w' /\
    Forall (real_char k) (w_pend w') /\ w_cap w' = s_buffSize /\ (length (w_pend w') <= w_cap w')%nat /\
    emitted type id (w_dev w') u /\
    u ++ encode k (w_pend w') = encode k (w_pend w) ++ text_of (encode k) (w_enc w) [o] /\
    w_enc w' = enc_after (w_enc w) [o] /\ (o = OpFlush -> w_pend w' = []).
Proof.
  intros k type id o w Ht Hi G C L D HO. destruct k as [|strict]; cbn [eb eof_of].
  - destruct (op_step (emptyBuffer_char type id) (fun _ => false) type id (fun s => s) is_byte Ht Hi
       (fun _ _ => eq_refl) escape1_bytes char_eof (eb_char_ok type id Ht Hi) o w (w_pend w))
      as (w1 & E1 & [G1 C1 L1 (u & E & HU)] & EE & FF).
    + split; [exact G|exact C|exact L|]. exists []. rewrite D. split; [apply emitted_nil|reflexivity].
    + destruct o; exact HO.
    + exists w1, u. split; [exact E1|]. split; [exact G1|]. split; [exact C1|]. split; [exact L1|].
      split; [exact E|]. split; [symmetry; exact HU|]. split; [|exact FF].
      rewrite EE. destruct o; reflexivity.
  - assert (EOFH : forall c, scalar c -> (c =? 0xffffffff) = false) by (unfold scalar; intros; lia).
    destruct (op_step (emptyBuffer_wide strict type id) (fun c => c =? 0xffffffff) type id utf8 scalar Ht Hi
    utf8_app escape1_scalar EOFH (eb_wide_ok strict type id Ht Hi) o w (utf8 (w_pend w)))
      as (w1 & E1 & [G1 C1 L1 (u & E & HU)] & EE & FF).
    + split; [exact G|exact C|exact L|]. exists []. rewrite D. split; [apply emitted_nil|reflexivity].
    + destruct o; exact HO.
    + exists w1, u. split; [exact E1|]. split; [exact G1|]. split; [exact C1|]. split; [exact L1|].
      split; [exact E|]. split; [symmetry; exact HU|]. split; [|exact FF].
      rewrite EE. destruct o; reflexivity.
Qed.

Section Text.
Variable vts : list N -> list N -> list N.
Variable junk : nat -> list N.
Variable http_time : list N -> Z.
Variable k : chars.
Context {U : Type}.
Variable A : application U.
Variable cfg : config.

Notation stream_do := (@stream_do k U cfg).
Notation stream_all := (@stream_all k U cfg).
Notation invoke := (@invoke k U A cfg).
Notation complete := (@complete k U A cfg).
Notation fail_with := (@fail_with k U A cfg).
Notation respond := (@respond k U A cfg).
Notation step := (@step vts junk http_time k U A cfg).
Notation handler := (@handler vts junk http_time k U A cfg).

(** One buffer after the history [os], with the records sent so far. *)
Definition tinv (type : N) (recs : list (list obyte)) (os : list sop) (w : wsb records) : Prop :=
  Forall (real_char k) (w_pend w) /\ w_cap w = s_buffSize /\ (length (w_pend w) <= w_cap w)%nat /\
  w_dev w = [] /\ w_enc w = enc_after E_NONE os /\
  exists u, stream_text type (c_id cfg) recs u /\
    u ++ encode k (w_pend w) = text_of (encode k) E_NONE os.

Definition TI (h : list (bool * sop)) (st : rq U) : Prop :=
  exists recs, q_sent st = map (fun r => (r, false)) recs /\
    tinv T_OUT recs (ops_on false h) (q_out st) /\ tinv T_ERR recs (ops_on true h) (q_err st).

Lemma do_text : forall x h st, c_id cfg < 65536 -> TI h st -> op_chars (real_char k) (snd x) ->
  exists st', stream_do x st = Done st' /\ core st' = core st /\ TI (h ++ [x]) st' /\
    (snd x = OpFlush -> w_pend (if fst x then q_err st' else q_out st') = []) /\
    (w_pend (if fst x then q_out st' else q_err st') = w_pend (if fst x then q_out st else q_err st)).
Proof.
  intros [b o] h st Hi (recs & Q & T1 & T2) HO. unfold Request.stream_do. cbn [fst snd] in *.
  assert (TB : tinv (if b then T_ERR else T_OUT) recs (ops_on b h) (if b then q_err st else q_out st))
    by (destruct b; assumption).
  destruct TB as (G & C & L & D & EN & u & S & X).
  destruct (op_text k (if b then T_ERR else T_OUT) (c_id cfg) o (if b then q_err st else q_out st))
    as (w & v & E & G1 & C1 & L1 & EM & X1 & EN1 & FL); auto.
  { destruct b; reflexivity. }
  rewrite E. eexists. split; [reflexivity|]. split; [destruct b; reflexivity|].
  split; [|destruct b; split; auto].
  exists (recs ++ w_dev w). split.
  { rewrite map_app, Q. destruct b; reflexivity. }
  assert (HIT : tinv (if b then T_ERR else T_OUT) (recs ++ w_dev w) (ops_on b (h ++ [(b, o)]))
     (mkW (w_pend w) (w_cap w) (w_enc w) [])).
  { rewrite ops_on_app. cbn [fst snd]. rewrite eqb_reflx.
    split; [exact G1|]. split; [exact C1|]. split; [exact L1|]. split; [reflexivity|]. split.
    - cbn [w_enc]. rewrite enc_after_app, <- EN. exact EN1.
    - exists (u ++ v). split; [apply text_app; auto; now apply text_emitted|].
      cbn [w_pend]. rewrite <- app_assoc, X1, text_of_app, app_assoc, X, EN. reflexivity. }
  assert (MISS : forall t os w0, t <> (if b then T_ERR else T_OUT) -> tinv t recs os w0 ->
     tinv t (recs ++ w_dev w) os w0).
  { intros t os w0 NE (H1 & H2 & H3 & H4 & H5 & u0 & H6 & H7). repeat split; auto.
    exists u0. split; auto. rewrite <- (app_nil_r u0). apply text_app; auto.
    eapply text_other; [exact NE|exact EM]. }
  assert (OO : ops_on (negb b) (h ++ [(b, o)]) = ops_on (negb b) h).
  { rewrite ops_on_app. cbn [fst snd]. destruct b; cbn; apply app_nil_r. }
  destruct b; cbn [negb] in OO; cbn [q_out q_err]; rewrite OO; split; auto; apply MISS; auto; discriminate.
Qed.

Lemma all_text : forall l h st, c_id cfg < 65536 -> TI h st ->
  Forall (fun x => op_chars (real_char k) (snd x)) l ->
  exists st', stream_all l st = Done st' /\ core st' = core st /\ TI (h ++ l) st'.
Proof.
  induction l as [|x l IH]; intros h st Hi T F.
  - exists st. rewrite app_nil_r. auto.
  - inversion F; subst. destruct (do_text x h st) as (s1 & E1 & C1 & T1 & _); auto.
    destruct (IH (h ++ [x]) s1) as (s2 & E2 & C2 & T2); auto.
    exists s2. cbn [Request.stream_all]. rewrite E1. cbn [run_bind].
    split; [exact E2|]. split; [congruence|]. now rewrite <- app_assoc in T2.
Qed.

Lemma invoke_text : forall c st, c_id cfg < 65536 -> app_writes (real_char k) A -> TI (q_ops st) st ->
  exists st', invoke c st = Done (call_result A c st, st') /\ TI (q_ops st') st' /\
    core st' = after_call A c st.
Proof.
  intros c st Hi HA B. unfold Request.invoke, after_call, call_result.
  specialize (HA c (q_user st)). unfold writes in HA.
  destruct (a_call A c (q_user st)) as [[[u e] ops] b]. cbn [fst snd] in HA.
  destruct (all_text ops (q_ops st) (mkRq u e (q_state st) (q_status st) (q_out st) (q_err st) (q_sent st)
                                 (q_calls st ++ [c]) (q_ops st ++ ops)))
    as (s1 & E1 & C1 & T1); auto.
  rewrite E1. cbn [run_bind]. exists s1. unfold core in C1. cbn [q_ops] in C1.
  split; [reflexivity|]. split; [|exact C1]. replace (q_ops s1) with (q_ops st ++ ops) by congruence. exact T1.
Qed.

(** The end: everything is flushed. *)
Definition full_text (st : rq U) : Prop :=
  exists recs r, q_sent st = map (fun r => (r, false)) recs ++ [(r, c_kill cfg)] /\
    is_end (c_id cfg) (q_status st) r /\
    stream_text T_OUT (c_id cfg) recs (text_of (encode k) E_NONE (ops_on false (q_ops st))) /\
    stream_text T_ERR (c_id cfg) recs (text_of (encode k) E_NONE (ops_on true (q_ops st))).

Lemma complete_text : forall st, c_id cfg < 65536 -> (forall u, a_good A u = (true, true)) ->
  q_status st < 256 -> TI (q_ops st) st ->
  exists st', complete st = Done st' /\ core st' = core st /\ full_text st'.
Proof.
  intros st Hi HG HS T. unfold Request.complete. rewrite HG. cbn [app Request.stream_all].
  destruct (do_text (false, OpFlush) (q_ops st) st Hi T) as (s1 & E1 & C1 & T1 & P1 & _); [exact I|].
  destruct (do_text (true, OpFlush) _ s1 Hi T1) as (s2 & E2 & C2 & T2 & P2 & P3); [exact I|].
  rewrite E1. cbn [run_bind]. rewrite E2. cbn [run_bind].
  eexists. split; [reflexivity|]. cbn [fst snd] in P1, P2, P3.
  assert (CS : core s2 = core st) by congruence.
  split; [exact CS|].
  assert (O2 : q_ops s2 = q_ops st /\ q_status s2 = q_status st) by (unfold core in CS; split; congruence).
  destruct O2 as (O2 & O3). destruct T2 as (recs & Q & TO & TE).
  exists recs, (end_record (c_id cfg) (q_status s2)). cbn [q_sent q_ops q_status].
  split; [now rewrite Q|]. split; [apply end_record_is; congruence|].
  rewrite O2. rewrite !ops_on_app in TO, TE. cbn [fst snd Bool.eqb] in TO, TE. rewrite ?app_nil_r in TO, TE.
  assert (NP : encode k [] = []) by (destruct k; reflexivity).
  destruct TO as (_ & _ & _ & _ & _ & u & SO & XO). destruct TE as (_ & _ & _ & _ & _ & v & SE & XE).
  rewrite P3, (P1 eq_refl), NP, app_nil_r, text_of_app in XO. cbn [text_of] in XO. rewrite app_nil_r in XO.
  rewrite (P2 eq_refl), NP, app_nil_r, text_of_app in XE. cbn [text_of] in XE. rewrite app_nil_r in XE.
  subst u v. auto.
Qed.

Lemma fail_text : forall c st, c_id cfg < 65536 -> (forall u, a_good A u = (true, true)) ->
  q_status st < 256 -> app_writes (real_char k) A -> TI (q_ops st) st ->
  exists st', fail_with c st = Done (true, st') /\ full_text st' /\ core st' = after_call A c st.
Proof.
  intros c st Hi HG HS HA T. unfold Request.fail_with.
  destruct (invoke_text c st Hi HA T) as (s1 & E1 & T1 & C1). rewrite E1. cbn [run_bind snd].
  destruct (complete_text s1 Hi HG) as (s2 & E2 & C2 & F2); auto.
  { unfold core, after_call in C1. destruct (a_call _ _ _) as [[[u e] ops] b]. congruence. }
  rewrite E2. exists s2. split; [reflexivity|]. split; [exact F2|congruence].
Qed.

Lemma respond_text : forall m st, c_id cfg < 65536 -> (forall u, a_good A u = (true, true)) ->
  q_status st < 256 -> app_writes (real_char k) A -> TI (q_ops st) st ->
  let c := CResponse (q_env st) m in
  exists st', respond m st = Done (call_result A c st, st') /\ core st' = after_call A c st /\
    if call_result A c st then full_text st' else TI (q_ops st') st'.
Proof.
  intros m st Hi HG HS HA T c. unfold Request.respond. fold c.
  destruct (invoke_text c st Hi HA T) as (s1 & E1 & T1 & C1). rewrite E1. cbn [run_bind fst snd].
  destruct (call_result A c st); [|exists s1; auto].
  destruct (complete_text s1 Hi HG) as (s2 & E2 & C2 & F2); auto.
  { unfold core, after_call in C1. destruct (a_call _ _ _) as [[[u e] ops] b]. congruence. }
  rewrite E2. exists s2. split; [reflexivity|]. split; [congruence|exact F2].
Qed.

Lemma after_status : forall c st st', core st' = after_call A c st -> q_status st' = q_status st.
Proof.
  intros c st st' H. unfold core, after_call in H. destruct (a_call _ _ _) as [[[u e] ops] b]. congruence.
Qed.

Lemma step_text : forall m st b st', c_id cfg < 65536 -> (forall u, a_good A u = (true, true)) ->
  q_status st < 256 -> app_writes (real_char k) A -> TI (q_ops st) st ->
  step m st = Done (b, st') ->
  if b then full_text st' else q_status st' < 256 /\ TI (q_ops st') st'.
Proof.
  intros m st b st' Hi HG HS HA T H.
  assert (RS : forall st1, q_status st1 < 256 -> TI (q_ops st1) st1 -> respond m st1 = Done (b, st') ->
     if b then full_text st' else q_status st' < 256 /\ TI (q_ops st') st').
  { intros st1 S1 T1 R. destruct (respond_text m st1 Hi HG S1 HA T1) as (s & E & C & W).
    rewrite E in R. injection R as <- <-. destruct (call_result A _ st1); auto.
    split; auto. now rewrite (after_status _ _ _ C). }
  assert (FW : forall c st1, q_status st1 < 256 -> TI (q_ops st1) st1 -> fail_with c st1 = Done (b, st') ->
     if b then full_text st' else q_status st' < 256 /\ TI (q_ops st') st').
  { intros c st1 S1 T1 R. destruct (fail_text c st1 Hi HG S1 HA T1) as (s & E & F & C).
    rewrite E in R. injection R as <- <-. auto. }
  unfold Request.step in H. destruct (m_type m =? 0)%Z.
  2:{ eapply RS; eauto. }
  destruct (rd (m_data m) 1) as [type|]; [|discriminate].
  destruct (from16 _) as [cl|]; [|discriminate].
  destruct (rd (m_data m) 7) as [z|]; [|discriminate].
  destruct (type =? T_ABORT_REQUEST).
  { apply run_bind_done in H as (s1 & E1 & H). injection H as <- <-.
    destruct (complete_text st Hi HG HS T) as (s2 & E2 & C2 & F2).
    rewrite E1 in E2. injection E2 as <-. exact F2. }
  destruct (negb (type =? q_state st)). { eapply FW; eauto. }
  destruct (q_state st =? T_PARAMS).
  - destruct (negb _). { eapply FW with (st1 := set_status UNKNOWN_ROLE st); eauto. reflexivity. }
    destruct (cl =? 0).
    + destruct (_ <? _). { eapply FW; eauto. }
      injection H as <- <-. auto.
    + apply run_bind_done in H as (e & _ & H). injection H as <- <-. auto.
  - destruct (q_state st =? T_IN); [|eapply FW; eauto].
    destruct (cl =? 0).
    + apply run_bind_done in H as (p & E1 & H).
      destruct (invoke_text (CInProcessor (q_env st)) st Hi HA T) as (s1 & E2 & T1 & C1).
      rewrite E1 in E2. injection E2 as ->. cbn [fst snd] in H. apply after_status in C1.
      destruct (call_result _ _).
      * eapply RS; [| |exact H]; [now rewrite <- C1 in HS|exact T1].
      * apply run_bind_done in H as ([r e1] & _ & H). cbn [fst snd] in H. destruct r.
        -- eapply RS; [| |exact H]; [now rewrite <- C1 in HS|exact T1].
        -- eapply FW; [| |exact H]; [now rewrite <- C1 in HS|exact T1].
    + destruct (_ <? _). { eapply FW; eauto. }
      destruct (_ <? _); [discriminate|].
      apply run_bind_done in H as (p & E1 & H). injection H as <- <-.
      match type of E1 with Request.invoke _ _ _ ?c ?s = _ =>
        destruct (invoke_text c s Hi HA T) as (s1 & E2 & T1 & C1);
        rewrite E1 in E2; injection E2 as -> end.
      cbn [snd]. apply after_status in C1. cbn in C1. split; [congruence|exact T1].
Qed.

Lemma handler_text : forall ms st rest st', c_id cfg < 65536 -> (forall u, a_good A u = (true, true)) ->
  q_status st < 256 -> app_writes (real_char k) A -> TI (q_ops st) st ->
  handler ms st = Done (true, rest, st') -> full_text st'.
Proof.
  induction ms as [|m ms IH]; intros st rest st' Hi HG HS HA T H; cbn [Request.handler] in H; [discriminate|].
  apply run_bind_done in H as ([b s1] & E1 & H). cbn [fst snd] in H.
  pose proof (step_text m st b s1 Hi HG HS HA T E1) as W. destruct b.
  - injection H as _ <-. exact W.
  - destruct W as (S1 & T1). exact (IH s1 rest st' Hi HG S1 HA T1 H).
Qed.
End Text.

Lemma request_text : forall vts junk http_time k (U : Type) (A : application U) cfg u ms rest st,
  c_id cfg < 65536 -> app_writes (real_char k) A -> (forall u, a_good A u = (true, true)) ->
  handler vts junk http_time k A cfg ms (rq_init u) = Done (true, rest, st) ->
  exists recs r, q_sent st = map (fun r => (r, false)) recs ++ [(r, c_kill cfg)] /\
    is_end (c_id cfg) (q_status st) r /\
    stream_text 6 (c_id cfg) recs (text_of (encode k) E_NONE (ops_on false (q_ops st))) /\
    stream_text 7 (c_id cfg) recs (text_of (encode k) E_NONE (ops_on true (q_ops st))).
Proof.
  intros vts junk http_time k U A cfg u ms rest st Hi HA HG H.
  eapply (handler_text vts junk http_time k A cfg); [exact Hi|exact HG| |exact HA| |exact H]; [reflexivity|].
  exists []. split; [reflexivity|].
  assert (NP : encode k [] = []) by (destruct k; reflexivity).
  split; (split; [constructor|split; [reflexivity|split; [cbn; lia|split; [reflexivity|split; [reflexivity|]]]]];
    exists []; split; [constructor|exact NP]).
Qed.
