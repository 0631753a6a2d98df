(** Proofs about [Request]: the body, violations of the protocol. *)
From Coq Require Import String List NArith ZArith Bool Lia ZifyBool ZifyNat ZifyN.
From Verif Require Import Model.Base Model.Endian Model.Protocol Model.WebMaps Model.HttpCodec Model.Streams
  Model.Environment Model.Multipart Model.Request
  Spec.EndianSpec Spec.WireSpec Spec.StreamSpec Spec.AddressSpec Spec.EnvironmentSpec Spec.RequestSpec
  Proofs.EndianProofs Proofs.StreamProofs Proofs.FillProofs Proofs.RequestProofs.
Import ListNotations.
Local Open Scope N_scope.

(** ** Messages *)
Lemma message_parts : forall type content m, is_message type content m ->
  m_type m = 0%Z /\ rd (m_data m) 1 = Some type /\ from16 (skipn 4 (m_data m)) = Some (len content) /\
  (exists z, rd (m_data m) 7 = Some z) /\
  slice (m_data m) (N.to_nat headerSize) (N.to_nat (headerSize + len content)) = content /\
  headerSize + len content <= N.of_nat (length (m_data m)).
Proof.
  intros type content m (T & L & v & id & pl & z & pad & E).
  pose proof (be_digits_length 2 id) as L1. pose proof (be_digits_length 2 (len content)) as L2.
  pose proof (rt16 (len content)) as R. rewrite to16_digits in R by exact L.
  rewrite E. clear E.
  destruct (be_digits 2 id) as [|a [|b [|]]]; try discriminate.
  destruct (be_digits 2 (len content)) as [|c [|d [|]]]; try discriminate.
  split; [exact T|]. split; [reflexivity|]. split; [apply (R ([pl; z] ++ content ++ pad)); exact L|].
  split; [exists z; reflexivity|]. unfold headerSize. split.
  - unfold slice. replace (N.to_nat (8 + len content) - N.to_nat 8)%nat with (length content) by (unfold len; lia).
    change (N.to_nat 8) with 8%nat. cbn [app skipn]. rewrite firstn_app, firstn_all, Nat.sub_diag. cbn [firstn]. apply app_nil_r.
  - rewrite !app_length. cbn [length]. unfold len. lia.
Qed.

(** ** Functions that leave the raw body alone *)
Ltac dmatch H := repeat (match type of H with context [if ?b then _ else _] => destruct b end).

Lemma fill_pair_post : forall vts junk ht fuel mem n v e_ e e',
  fill_pair vts junk ht fuel mem n v e_ e = Done e' -> e_postBuffer e' = e_postBuffer e.
Proof.
  intros vts junk ht fuel mem n v e_ e e' H. unfold fill_pair in H. cbv zeta in H.
  assert (OT : forall x, Done (set_others x e) = Done e' -> e_postBuffer e' = e_postBuffer e)
    by (intros x X; injection X as <-; reflexivity).
  repeat (match type of H with context [match ?l with O => _ | S _ => _ end] => destruct l end;
    try (apply OT in H; exact H)); dmatch H; try (apply OT in H; exact H);
  try (injection H as <-; reflexivity);
  try (apply run_bind_done in H as (x & _ & H); injection H as <-; reflexivity).
  destruct (find_char _ _) as [t r]. destruct r; [injection H as <-; reflexivity|].
  destruct (snd _); injection H as <-; reflexivity.
Qed.

Lemma fill_post : forall vts junk ht fuel inner mem d de e e',
  fill_loop vts junk ht fuel inner mem d de e = Done e' -> e_postBuffer e' = e_postBuffer e.
Proof.
  intros vts junk ht. induction fuel as [|f IH]; intros inner mem d de e e' H; cbn [fill_loop] in H.
  - destruct (processParamHeader mem d de) as [[((a & b) & c)|]|]; try discriminate. now injection H as <-.
  - destruct (processParamHeader mem d de) as [[((a & b) & c)|]|]; try discriminate.
    + apply run_bind_done in H as (e1 & H1 & H2). apply fill_pair_post in H1. apply IH in H2. congruence.
    + now injection H as <-.
Qed.

Lemma parse_post : forall vts junk e b e', parsePostBuffer vts junk e = Done (b, e') ->
  e_postBuffer e' = e_postBuffer e /\ e_contentLength e' = e_contentLength e /\
  (b = false -> e' = e /\ e_postBuffer e <> []).
Proof.
  intros vts junk e b e' H. unfold parsePostBuffer in H.
  destruct (e_postBuffer e) eqn:P. { injection H as <- <-. split; [exact P|]. split; [reflexivity|]. discriminate. }
  destruct (list_eqb _ _).
  { apply run_bind_done in H as (e1 & H1 & H). injection H as <- <-. unfold parsePostsMultipart in H1.
    destruct (mp_loop _ _ _ _ _ _); try discriminate. injection H1 as <-. cbn. rewrite P.
    split; auto. split; auto. discriminate. }
  destruct (list_eqb _ _).
  { apply run_bind_done in H as (e1 & H1 & H). injection H as <- <-. unfold parsePostsUrlEncoded in H1.
    apply run_bind_done in H1 as (x & _ & H1). injection H1 as <-. cbn. rewrite P.
    split; auto. split; auto. discriminate. }
  injection H as <- <-. rewrite P. repeat split; discriminate.
Qed.

Section Body.
Variable vts : list N -> list N -> list N.
Variable junk : nat -> list N.
Variable http_time : list N -> Z.
Variable k : chars.
Context {U : Type}.
Variable A : application U.
Variable cfg : config.

Notation invoke := (@invoke k U A cfg).
Notation complete := (@complete k U A cfg).
Notation fail_with := (@fail_with k U A cfg).
Notation respond := (@respond k U A cfg).
Notation step := (@step vts junk http_time k U A cfg).
Notation handler := (@handler vts junk http_time k U A cfg).
Notation base := (base k).

Definition bounded (e : env) : Prop :=
  len (e_postBuffer e) <= e_contentLength e /\ len (e_postBuffer e) <= c_maxPost cfg.

Definition PB (st : rq U) : Prop :=
  base st /\ Forall (fun c => bounded (call_env c)) (q_calls st) /\
  ((q_state st = 4 /\ e_postBuffer (q_env st) = []) \/
   (q_state st = 5 /\ len (e_postBuffer (q_env st)) <= e_contentLength (q_env st) <= c_maxPost cfg) \/
   (q_state st = 6 /\ e_postBuffer (q_env st) = [])).

Lemma empty_bounded : forall e, e_postBuffer e = [] -> bounded e.
Proof. intros e E. unfold bounded. rewrite E. unfold len. cbn. lia. Qed.

Lemma PB_bounded : forall st, PB st -> bounded (q_env st).
Proof.
  intros st (_ & _ & [(_ & E) | [(_ & E) | (_ & E)]]); [now apply empty_bounded| |now apply empty_bounded].
  unfold bounded. lia.
Qed.

(** Calls keep it. *)
Lemma call_PB : forall c st st', app_tame A -> PB st -> base st' -> call_env c = q_env st ->
  core st' = after_call A c st -> PB st'.
Proof.
  intros c st st' HT P B E C. pose proof (PB_bounded st P) as BE. destruct P as (_ & F & P).
  specialize (HT c (q_user st)). unfold after_call, core in C.
  destruct (a_call A c (q_user st)) as [[[u e] ops] b]. cbn [fst snd] in HT.
  destruct HT as (H1 & H2). rewrite E in H1, H2. injection C as Cu Ce Cs Ct Cc Co.
  split; auto. split.
  - rewrite Cc. apply Forall_app. split; auto. constructor; auto. now rewrite E.
  - rewrite Ce, Cs, H1, H2. exact P.
Qed.

Lemma fail_PB : forall c st st' b, c_id cfg < 65536 -> app_writes (any_char k) A -> app_tame A -> PB st ->
  call_env c = q_env st -> fail_with c st = Done (b, st') -> PB st'.
Proof.
  intros c st st' b Hi HA HT P E H. destruct (fail_base k A cfg c st Hi HA (proj1 P)) as (s & E1 & B1 & C1 & _).
  rewrite H in E1. injection E1 as -> ->. eapply call_PB; eauto.
Qed.

Lemma respond_PB : forall m st st' b, c_id cfg < 65536 -> app_writes (any_char k) A -> app_tame A -> PB st ->
  respond m st = Done (b, st') -> PB st'.
Proof.
  intros m st st' b Hi HA HT P H. destruct (respond_base k A cfg m st Hi HA (proj1 P)) as (s & E1 & B1 & C1 & _).
  rewrite H in E1. injection E1 as -> ->. eapply call_PB; eauto; reflexivity.
Qed.

Lemma step_PB : forall m st st' b, c_id cfg < 65536 -> app_writes (any_char k) A -> app_tame A -> PB st ->
  step m st = Done (b, st') -> PB st'.
Proof.
  intros m st st' b Hi HA HT P H. pose proof (proj1 P) as B.
  unfold Request.step in H. destruct (m_type m =? 0)%Z.
  2:{ eapply respond_PB; eauto. }
  destruct (rd (m_data m) 1) as [type|]; [|discriminate].
  destruct (from16 _) as [cl|]; [|discriminate].
  destruct (rd (m_data m) 7) as [z|]; [|discriminate].
  destruct (type =? T_ABORT_REQUEST).
  { apply run_bind_done in H as (s1 & E1 & H). injection H as <- <-.
    destruct (complete_base k A cfg st Hi B) as (s2 & n2 & E2 & B2 & C2 & Q2 & F2).
    rewrite E1 in E2. injection E2 as <-. unfold core in C2. injection C2 as C1 C2 C3 C4 C5 C6.
    destruct P as (_ & F & P). split; auto. rewrite C5, C2, C3. auto. }
  destruct (negb (type =? q_state st)). { eapply fail_PB; eauto; reflexivity. }
  destruct (N.eqb_spec (q_state st) T_PARAMS) as [SP|SP].
  - destruct (negb _). { eapply fail_PB with (st := set_status UNKNOWN_ROLE st); eauto; try exact P; try reflexivity. }
    assert (P4 : e_postBuffer (q_env st) = []).
    { destruct P as (_ & _ & [(_ & E) | [(X & _) | (X & _)]]); [exact E| |]; rewrite SP in X; discriminate. }
    destruct (cl =? 0).
    + destruct (N.ltb_spec (c_maxPost cfg) (e_contentLength (q_env st))). { eapply fail_PB; eauto; reflexivity. }
      injection H as <- <-. destruct P as (_ & F & _). split; [exact B|]. split; [exact F|]. right. left.
      cbn. rewrite P4. unfold len. cbn. split; [reflexivity|lia].
    + apply run_bind_done in H as (e & HF & H). injection H as <- <-. destruct P as (_ & F & _).
      split; [exact B|]. split; [exact F|]. left. split; [exact SP|]. cbn. rewrite <- P4.
      eapply fill_post. exact HF.
  - destruct (N.eqb_spec (q_state st) T_IN) as [SI|SI]; [|eapply fail_PB; eauto; reflexivity].
    assert (P5 : len (e_postBuffer (q_env st)) <= e_contentLength (q_env st) <= c_maxPost cfg).
    { destruct P as (_ & _ & [(X & _) | [(_ & E) | (X & _)]]); [|exact E|]; rewrite SI in X; discriminate. }
    destruct (cl =? 0).
    + apply run_bind_done in H as (p & E1 & H).
      destruct (invoke_base k A cfg (CInProcessor (q_env st)) st Hi HA B) as (s1 & n1 & E2 & B1 & C1 & Q1 & F1).
      rewrite E1 in E2. injection E2 as ->. cbn [fst snd] in H.
      assert (PS : PB s1) by (eapply call_PB; eauto; reflexivity).
      assert (PC : forall e, PB (set_state T_OUT (set_env (clearPostBuffer e) s1))).
      { intros e. destruct PS as (B0 & F0 & _). split; [exact B0|]. split; [exact F0|]. right. right. auto. }
      destruct (call_result _ _).
      * eapply respond_PB; [exact Hi|exact HA|exact HT| |exact H]. apply PC.
      * apply run_bind_done in H as ([r e1] & EP & H). cbn [fst snd] in H. destruct r.
        -- eapply respond_PB; [exact Hi|exact HA|exact HT| |exact H].
           apply (PC e1).
        -- apply parse_post in EP as (_ & _ & EP). destruct (EP eq_refl) as (-> & _).
           eapply fail_PB; [exact Hi|exact HA|exact HT| | |exact H]; [|reflexivity].
           destruct s1; exact PS.
    + destruct (N.ltb_spec (e_contentLength (q_env st)) (N.of_nat (length (e_postBuffer (q_env st))) + cl)).
      { eapply fail_PB; eauto; reflexivity. }
      destruct (N.ltb_spec (N.of_nat (length (m_data m))) (headerSize + cl)); [discriminate|].
      apply run_bind_done in H as (p & E1 & H). injection H as <- <-.
      match type of E1 with Request.invoke _ _ _ ?c ?s = _ =>
        destruct (invoke_base k A cfg c s Hi HA B) as (s1 & n1 & E2 & B1 & C1 & Q1 & F1);
        rewrite E1 in E2; injection E2 as -> end.
      cbn [snd]. eapply call_PB; [exact HT| |exact B1| |exact C1]; [|reflexivity].
      destruct P as (_ & F & _). split; [exact B|]. split; [exact F|]. right. left.
      split; [exact SI|]. cbn [q_env set_env fillPostBuffer e_postBuffer set_postBuffer e_contentLength]. unfold len in *. rewrite app_length. unfold slice.
      rewrite firstn_length. rewrite skipn_length. unfold headerSize in *. lia.
Qed.

Lemma handler_PB : forall ms st st' d r, c_id cfg < 65536 -> app_writes (any_char k) A -> app_tame A -> PB st ->
  handler ms st = Done (d, r, st') -> PB st'.
Proof.
  induction ms as [|m ms IH]; intros st st' d r Hi HA HT P H; cbn [Request.handler] in H.
  - now injection H as _ _ <-.
  - apply run_bind_done in H as ([b s1] & E1 & H). cbn [fst snd] in H.
    assert (P1 : PB s1) by (eapply step_PB; eauto). destruct b; [now injection H as _ _ <-|eauto].
Qed.

(** ** Ways to end *)
Lemma live_facts : forall u ms st, c_id cfg < 65536 -> app_writes (any_char k) A ->
  lives_with vts junk http_time k A cfg u ms st -> base st /\ q_status st = 0.
Proof.
  intros u ms st Hi HA H. unfold lives_with in H.
  assert (G : forall ms s, base s -> q_status s = 0 -> handler ms s = Done (false, [], st) -> base st /\ q_status st = 0).
  { clear H ms. induction ms as [|m ms IH]; intros s B S H; cbn [Request.handler] in H.
    - injection H as <-. auto.
    - apply run_bind_done in H as ([b s1] & E1 & H). cbn [fst snd] in H. destruct b; [discriminate|].
      destruct (step_sent vts junk http_time k A cfg m s false s1 Hi HA B E1) as (B1 & _ & S1 & _).
      eapply IH; eauto. congruence. }
  eapply G; [| |exact H]; [split; apply sbase_fresh|reflexivity].
Qed.

Lemma one_more : forall u ms st m st', lives_with vts junk http_time k A cfg u ms st ->
  step m st = Done (true, st') -> handler (ms ++ [m]) (rq_init u) = Done (true, [], st').
Proof.
  intros u ms st m st' H S. rewrite handler_app. unfold lives_with in H. rewrite H.
  cbn [run_bind Request.handler]. rewrite S. reflexivity.
Qed.

Lemma ends_fail : forall u ms st m st1 c status, c_id cfg < 65536 -> app_writes (any_char k) A ->
  lives_with vts junk http_time k A cfg u ms st ->
  base st1 -> q_sent st1 = q_sent st -> q_calls st1 = q_calls st -> q_ops st1 = q_ops st ->
  q_user st1 = q_user st -> q_status st1 = status -> status < 256 ->
  step m st = fail_with c st1 ->
  ends_with vts junk http_time k A cfg u ms m st status [c] (writes A c (q_user st)).
Proof.
  intros u ms st m st1 c status Hi HA H B Q C O US S LS E.
  destruct (fail_base k A cfg c st1 Hi HA B) as (s & E1 & B1 & C1 & (new & Q1 & F1 & D1)).
  rewrite E1 in E. exists s, new. eexists. split; [eapply one_more; eauto|].
  split; [rewrite D1, C; reflexivity|]. split.
  { unfold core, after_call in C1. unfold writes. rewrite <- US.
    destruct (a_call A c (q_user st1)) as [[[x e] ops] b]. cbn. congruence. }
  split; [rewrite Q1, Q, S; reflexivity|]. split; [exact F1|]. now apply end_record_is.
Qed.

Lemma abort_ends : forall u ms st m content, c_id cfg < 65536 -> app_writes (any_char k) A ->
  lives_with vts junk http_time k A cfg u ms st -> is_message 2 content m ->
  ends_with vts junk http_time k A cfg u ms m st 0 [] [].
Proof.
  intros u ms st m content Hi HA H M. destruct (live_facts u ms st Hi HA H) as (B & S).
  destruct (message_parts _ _ _ M) as (T & R1 & R4 & (z & R7) & _ & _).
  destruct (complete_base k A cfg st Hi B) as (s & new & E & B1 & C & Q & F).
  exists s, new. eexists. split.
  { eapply one_more; [exact H|]. unfold Request.step. rewrite T, R1, R4, R7. cbn [Z.eqb N.eqb Pos.eqb T_ABORT_REQUEST].
    change (2 =? T_ABORT_REQUEST) with true. cbv iota. rewrite E. reflexivity. }
  unfold core in C. rewrite !app_nil_r. split; [congruence|]. split; [congruence|].
  split; [exact Q|]. split; [exact F|]. rewrite S. now apply end_record_is.
Qed.

Lemma disorder_ends : forall u ms st m type content, c_id cfg < 65536 -> app_writes (any_char k) A ->
  lives_with vts junk http_time k A cfg u ms st -> is_message type content m -> type <> 2 -> type <> q_state st ->
  ends_with vts junk http_time k A cfg u ms m st 0 [CError (q_env st)] (writes A (CError (q_env st)) (q_user st)).
Proof.
  intros u ms st m type content Hi HA H M N2 NS. destruct (live_facts u ms st Hi HA H) as (B & S).
  destruct (message_parts _ _ _ M) as (T & R1 & R4 & (z & R7) & _ & _).
  eapply (ends_fail u ms st m st); auto; [reflexivity|].
  unfold Request.step. rewrite T, R1, R4, R7. cbn [Z.eqb].
  destruct (N.eqb_spec type T_ABORT_REQUEST); [contradiction|].
  destruct (N.eqb_spec type (q_state st)); [contradiction|]. reflexivity.
Qed.

Lemma role_ends : forall u ms st m content, c_id cfg < 65536 -> app_writes (any_char k) A ->
  lives_with vts junk http_time k A cfg u ms st -> q_state st = 4 -> is_message 4 content m ->
  c_role cfg <> 1 -> c_role cfg <> 2 ->
  ends_with vts junk http_time k A cfg u ms m st 3 [CError (q_env st)] (writes A (CError (q_env st)) (q_user st)).
Proof.
  intros u ms st m content Hi HA H S4 M N1 N2. destruct (live_facts u ms st Hi HA H) as (B & S).
  destruct (message_parts _ _ _ M) as (T & R1 & R4 & (z & R7) & _ & _).
  eapply (ends_fail u ms st m (set_status UNKNOWN_ROLE st)); auto; [reflexivity|].
  unfold Request.step. rewrite T, R1, R4, R7, S4. cbn [Z.eqb].
  change (4 =? T_ABORT_REQUEST) with false. change (negb (4 =? 4)) with false. change (4 =? T_PARAMS) with true.
  cbv iota. destruct (N.eqb_spec (c_role cfg) ROLE_RESPONDER); [contradiction|].
  destruct (N.eqb_spec (c_role cfg) ROLE_AUTHORIZER); [contradiction|]. reflexivity.
Qed.

Lemma too_big_announced : forall u ms st m, c_id cfg < 65536 -> app_writes (any_char k) A ->
  lives_with vts junk http_time k A cfg u ms st -> q_state st = 4 -> is_message 4 [] m ->
  c_role cfg = 1 \/ c_role cfg = 2 -> c_maxPost cfg < e_contentLength (q_env st) ->
  ends_with vts junk http_time k A cfg u ms m st 0 [CBigPost (q_env st)] (writes A (CBigPost (q_env st)) (q_user st)).
Proof.
  intros u ms st m Hi HA H S4 M R L. destruct (live_facts u ms st Hi HA H) as (B & S).
  destruct (message_parts _ _ _ M) as (T & R1 & R4 & (z & R7) & _ & _).
  eapply (ends_fail u ms st m st); auto; [reflexivity|].
  unfold Request.step. rewrite T, R1, R4, R7, S4. cbn [Z.eqb].
  change (4 =? T_ABORT_REQUEST) with false. change (negb (4 =? 4)) with false. change (4 =? T_PARAMS) with true.
  cbv iota. replace (negb _) with false by (destruct R as [-> | ->]; reflexivity).
  change (len [] =? 0) with true. cbv iota.
  destruct (N.ltb_spec (c_maxPost cfg) (e_contentLength (q_env st))); [reflexivity|lia].
Qed.

Lemma too_much_sent : forall u ms st m content, c_id cfg < 65536 -> app_writes (any_char k) A ->
  lives_with vts junk http_time k A cfg u ms st -> q_state st = 5 -> is_message 5 content m -> content <> [] ->
  e_contentLength (q_env st) < len (e_postBuffer (q_env st)) + len content ->
  ends_with vts junk http_time k A cfg u ms m st 0 [CBigPost (q_env st)] (writes A (CBigPost (q_env st)) (q_user st)).
Proof.
  intros u ms st m content Hi HA H S5 M NC L. destruct (live_facts u ms st Hi HA H) as (B & S).
  destruct (message_parts _ _ _ M) as (T & R1 & R4 & (z & R7) & _ & _).
  eapply (ends_fail u ms st m st); auto; [reflexivity|].
  unfold Request.step. rewrite T, R1, R4, R7, S5. cbn [Z.eqb].
  change (5 =? T_ABORT_REQUEST) with false. change (negb (5 =? 5)) with false. change (5 =? T_PARAMS) with false.
  change (5 =? T_IN) with true. cbv iota.
  destruct (N.eqb_spec (len content) 0) as [Z|Z]. { destruct content; [congruence|discriminate]. }
  unfold len in L. destruct (N.ltb_spec (e_contentLength (q_env st)) (N.of_nat (length (e_postBuffer (q_env st))) + len content));
    [reflexivity|unfold len in *; lia].
Qed.

Lemma unknown_content_ends : forall u ms st m, c_id cfg < 65536 -> app_writes (any_char k) A ->
  lives_with vts junk http_time k A cfg u ms st -> q_state st = 5 -> is_message 5 [] m ->
  let c := CInProcessor (q_env st) in
  let u' := fst (fst (fst (a_call A c (q_user st)))) in
  let e' := snd (fst (fst (a_call A c (q_user st)))) in
  snd (a_call A c (q_user st)) = false ->
  e_postBuffer e' <> [] -> e_contentType e' <> lit "multipart/form-data" ->
  e_contentType e' <> lit "application/x-www-form-urlencoded" ->
  ends_with vts junk http_time k A cfg u ms m st 0 [c; CUnknownContent e']
    (writes A c (q_user st) ++ writes A (CUnknownContent e') u').
Proof.
  intros u ms st m Hi HA H S5 M c u' e' RF NP N1 N2. destruct (live_facts u ms st Hi HA H) as (B & S).
  destruct (message_parts _ _ _ M) as (T & R1 & R4 & (z & R7) & _ & _).
  destruct (invoke_base k A cfg c st Hi HA B) as (s1 & n1 & E1 & B1 & C1 & Q1 & F1).
  destruct (fail_base k A cfg (CUnknownContent e') s1 Hi HA B1) as (s2 & E2 & B2 & C2 & (n2 & Q2 & F2 & D2)).
  assert (LE : forall a b, list_eqb a b = true -> a = b).
  { induction a as [|x a IH]; intros [|y b] X; try discriminate; auto. cbn in X. apply andb_prop in X as (X1 & X2).
    apply N.eqb_eq in X1 as ->. f_equal. auto. }
  unfold call_result in E1. rewrite RF in E1.
  assert (ST : step m st = Done (true, s2)).
  { unfold Request.step. rewrite T, R1, R4, R7, S5. cbn [Z.eqb].
    change (5 =? T_ABORT_REQUEST) with false. change (negb (5 =? 5)) with false. change (5 =? T_PARAMS) with false.
    change (5 =? T_IN) with true. cbv iota. change (len [] =? 0) with true. cbv iota. fold c. rewrite E1. cbn [run_bind fst snd].
    assert (EE : q_env s1 = e').
    { unfold core, after_call in C1. unfold e'. destruct (a_call A c (q_user st)) as [[[x e] ops] b]. cbn. congruence. }
    assert (PP : parsePostBuffer vts junk (q_env s1) = Done (false, q_env s1)).
    { unfold parsePostBuffer. rewrite EE. destruct (e_postBuffer e'); [congruence|].
      destruct (list_eqb (lit "multipart/form-data") (e_contentType e')) eqn:X1; [apply LE in X1; congruence|].
      destruct (list_eqb (lit "application/x-www-form-urlencoded") (e_contentType e')) eqn:X2; [apply LE in X2; congruence|].
      reflexivity. }
    rewrite PP. cbn [run_bind fst snd]. replace (set_env (q_env s1) s1) with s1 by (destruct s1; reflexivity).
    rewrite EE. exact E2. }
  exists s2, (n1 ++ n2). eexists. split; [eapply one_more; eauto|].
  unfold core, after_call in C1, C2. unfold writes. unfold u'.
  destruct (a_call A c (q_user st)) as [[[x e] ops] b]. cbn [fst snd] in *.
  assert (UX : q_user s1 = x) by congruence. rewrite UX in C2.
  destruct (a_call A (CUnknownContent e') x) as [[[x2 e2] ops2] b2]. cbn [fst snd].
  assert (S1 : q_status s1 = 0) by congruence.
  split; [rewrite D2; replace (q_calls s1) with (q_calls st ++ [c]) by congruence; now rewrite <- app_assoc|].
  split; [replace (q_ops s2) with (q_ops s1 ++ ops2) by congruence;
          replace (q_ops s1) with (q_ops st ++ ops) by congruence; now rewrite <- app_assoc|].
  rewrite Q2, Q1. fold (streams (n1 ++ n2)). rewrite streams_app, <- !app_assoc.
  split; [reflexivity|]. split; [apply Forall_app; auto|]. rewrite S1. now apply end_record_is.
Qed.

(** ** The body arrives *)
Lemma in_step : forall m st content, c_id cfg < 65536 -> app_writes (any_char k) A ->
  (forall e n, tame_at A (CIn e n)) ->
  base st -> q_state st = 5 -> is_message 5 content m -> content <> [] ->
  len (e_postBuffer (q_env st)) + len content <= e_contentLength (q_env st) ->
  exists st' n, step m st = Done (false, st') /\ base st' /\ q_state st' = 5 /\ q_status st' = q_status st /\
    e_postBuffer (q_env st') = e_postBuffer (q_env st) ++ content /\
    e_contentLength (q_env st') = e_contentLength (q_env st) /\
    q_calls st' = q_calls st ++ [CIn (set_postBuffer (e_postBuffer (q_env st) ++ content) (q_env st)) n] /\
    n = len content /\
    (app_plain A -> q_env st' = set_postBuffer (e_postBuffer (q_env st) ++ content) (q_env st) /\
       q_user st' = q_user st).
Proof.
  intros m st content Hi HA HT B S5 M NC L.
  destruct (message_parts _ _ _ M) as (T & R1 & R4 & (z & R7) & SL & LE).
  unfold Request.step. rewrite T, R1, R4, R7, S5. cbn [Z.eqb].
  change (5 =? T_ABORT_REQUEST) with false. change (negb (5 =? 5)) with false. change (5 =? T_PARAMS) with false.
  change (5 =? T_IN) with true. cbv iota.
  destruct (N.eqb_spec (len content) 0) as [Z|Z]. { destruct content; [congruence|discriminate]. }
  destruct (N.ltb_spec (e_contentLength (q_env st)) (N.of_nat (length (e_postBuffer (q_env st))) + len content));
    [unfold len in *; lia|].
  destruct (N.ltb_spec (N.of_nat (length (m_data m))) (headerSize + len content)); [lia|].
  rewrite SL. cbv zeta.
  match goal with |- context [Request.invoke _ _ _ ?c ?s] => set (cc := c); set (ss := s) end.
  destruct (invoke_base k A cfg cc ss Hi HA B) as (s1 & n1 & E1 & B1 & C1 & Q1 & F1).
  rewrite E1. cbn [run_bind snd]. exists s1, (len content). split; [reflexivity|].
  assert (HTT : tame_at A cc) by apply HT. specialize (HTT (q_user st)). unfold core, after_call in C1.
  assert (PL : app_plain A -> a_call A cc (q_user ss) = default_call cc (q_user ss)) by (intros X; exact (X cc (q_user ss))).
  change (q_user ss) with (q_user st) in *.
  destruct (a_call A cc (q_user st)) as [[[x e] ops] b]. cbn [fst snd] in HTT. destruct HTT as (H1 & H2).
  cbn in H1, H2. injection C1 as Cu Ce Cs Ct Cc Co.
  split; [exact B1|]. split; [rewrite Cs; exact S5|]. split; [exact Ct|].
  split; [rewrite Ce, H2; reflexivity|]. split; [rewrite Ce, H1; reflexivity|].
  split; [exact Cc|]. split; [reflexivity|]. intros X. apply PL in X. cbn in X. injection X as -> -> _ _.
  rewrite Cu, Ce. auto.
Qed.

Lemma body_arrives : forall bodies ms st, c_id cfg < 65536 -> app_writes (any_char k) A ->
  (forall e n, tame_at A (CIn e n)) ->
  base st -> q_state st = 5 -> Forall2 (is_message 5) bodies ms -> Forall (fun c => c <> []) bodies ->
  len (e_postBuffer (q_env st)) + len (concat bodies) <= e_contentLength (q_env st) ->
  exists st' calls, handler ms st = Done (false, [], st') /\ base st' /\ q_state st' = 5 /\
    q_status st' = q_status st /\
    e_postBuffer (q_env st') = e_postBuffer (q_env st) ++ concat bodies /\
    e_contentLength (q_env st') = e_contentLength (q_env st) /\
    q_calls st' = q_calls st ++ calls /\ in_calls bodies calls /\
    (app_plain A -> q_env st' = set_postBuffer (e_postBuffer (q_env st) ++ concat bodies) (q_env st) /\
       q_user st' = q_user st).
Proof.
  induction bodies as [|c bodies IH]; intros ms st Hi HA HT B S5 F NE L.
  - inversion F; subst. exists st, []. cbn. rewrite !app_nil_r. repeat (split; [solve [auto; constructor]|]).
    intros _. split; auto. destruct (q_env st). reflexivity.
  - inversion F as [|? m ? ms' M F']; subst. inversion NE as [|? ? N1 NE']; subst.
    cbn [concat] in *. unfold len in L. rewrite app_length in L.
    destruct (in_step m st c) as (s1 & n & E1 & B1 & S1 & T1 & P1 & L1 & K1 & -> & PL1); auto.
    { unfold len. lia. }
    destruct (IH ms' s1) as (s2 & calls & E2 & B2 & S2 & T2 & P2 & L2 & K2 & I2 & PL2); auto.
    { rewrite P1, L1. unfold len. rewrite app_length. lia. }
    exists s2. eexists. cbn [Request.handler]. rewrite E1. cbn [run_bind fst snd].
    split; [exact E2|]. split; [exact B2|]. split; [exact S2|]. split; [congruence|].
    split; [rewrite P2, P1; now rewrite <- app_assoc|]. split; [congruence|].
    split; [rewrite K2, K1, <- app_assoc; reflexivity|]. split; [constructor; exact I2|].
    intros PA. destruct (PL1 PA) as (Q1 & Q2). destruct (PL2 PA) as (Q3 & Q4). split; [|congruence].
    rewrite Q3, Q1. cbn [e_postBuffer set_postBuffer]. rewrite <- app_assoc. destruct (q_env st). reflexivity.
Qed.

Lemma plain_tame : app_plain A -> forall e n, tame_at A (CIn e n).
Proof. intros P e n u. pose proof (P (CIn e n) u) as X. cbn in X. rewrite X. auto. Qed.

(** ** The parameters arrive *)
Definition role_ok : Prop := c_role cfg = 1 \/ c_role cfg = 2.

Lemma role_neg : role_ok -> negb ((c_role cfg =? ROLE_RESPONDER) || (c_role cfg =? ROLE_AUTHORIZER)) = false.
Proof. intros [-> | ->]; reflexivity. Qed.

Section Params.
Variable address_of : list N -> list N.
Hypothesis J : forall n, length (junk n) = n.
Hypothesis AD : forall t a, address_text t a -> ~ compat_text t -> address_of t = a.
Notation describe := (describe vts http_time address_of).

Lemma params_arrive : forall rs ms st, role_ok -> q_state st = 4 ->
  Forall2 params_message rs ms ->
  length (e_serverAddress (q_env st)) = 16%nat -> length (e_remoteAddress (q_env st)) = 16%nat ->
  handler ms st = Done (false, [], set_env (describe (q_env st) (concat (map p_params rs))) st).
Proof.
  induction rs as [|r rs IH]; intros ms st HR S4 F LS LR.
  - inversion F; subst. cbn [map concat Request.handler]. rewrite describe_nil. destruct st; reflexivity.
  - inversion F as [|? m ? ms' (RO & NE & M & DE) F']; subst. cbn [Request.handler].
    destruct (message_parts _ _ _ M) as (T & R1 & R4 & (z & R7) & SL & LE).
    destruct RO as (P & B & H8).
    destruct (fill_ok vts junk http_time address_of J AD (p_padding r) (p_params r) (p_content r) (p_header r)
      (length (m_data m) + 5) (q_env st) P B) as (E & L1 & L2); auto.
    { rewrite DE, !app_length. lia. }
    replace (len (p_header r)) with 8 in E by (unfold len; rewrite H8; reflexivity).
    assert (ST : step m st = Done (false, set_env (describe (q_env st) (p_params r)) st)).
    { unfold Request.step. rewrite T, R1, R4, R7, S4. cbn [Z.eqb].
      change (4 =? T_ABORT_REQUEST) with false. change (negb (4 =? 4)) with false. change (4 =? T_PARAMS) with true.
      cbv iota. rewrite role_neg by assumption.
      destruct (N.eqb_spec (len (p_content r)) 0) as [Z|Z]. { destruct (p_content r); [congruence|discriminate]. }
      unfold headerSize. rewrite <- DE in E. rewrite E. reflexivity. }
    rewrite ST. cbn [run_bind fst snd]. rewrite IH; auto. cbn [q_env set_env map concat].
    rewrite describe_app. reflexivity.
Qed.

Lemma params_done : forall m st, role_ok -> q_state st = 4 -> is_message 4 [] m ->
  e_contentLength (q_env st) <= c_maxPost cfg -> step m st = Done (false, set_state 5 st).
Proof.
  intros m st HR S4 M L. destruct (message_parts _ _ _ M) as (T & R1 & R4 & (z & R7) & SL & LE).
  unfold Request.step. rewrite T, R1, R4, R7, S4. cbn [Z.eqb].
  change (4 =? T_ABORT_REQUEST) with false. change (negb (4 =? 4)) with false. change (4 =? T_PARAMS) with true.
  cbv iota. rewrite role_neg by assumption. change (len [] =? 0) with true. cbv iota.
  destruct (N.ltb_spec (c_maxPost cfg) (e_contentLength (q_env st))); [lia|reflexivity].
Qed.

Lemma describe_postBuffer : forall ps e, e_postBuffer (describe e ps) = e_postBuffer e.
Proof. reflexivity. Qed.

(** ** The whole request *)
Lemma whole_before_end : forall u rs ms4 m4 bodies ms5, c_id cfg < 65536 -> app_writes (any_char k) A ->
  (forall e n, tame_at A (CIn e n)) -> role_ok ->
  Forall2 params_message rs ms4 -> is_message 4 [] m4 ->
  Forall2 (is_message 5) bodies ms5 -> Forall (fun c => c <> []) bodies ->
  let e0 := describe env_init (concat (map p_params rs)) in
  e_contentLength e0 <= c_maxPost cfg -> len (concat bodies) <= e_contentLength e0 ->
  exists st calls, handler (ms4 ++ [m4] ++ ms5) (rq_init u) = Done (false, [], st) /\
    base st /\ q_state st = 5 /\ q_status st = 0 /\ e_postBuffer (q_env st) = concat bodies /\
    q_calls st = calls /\ in_calls bodies calls /\
    (app_plain A -> q_env st = set_postBuffer (concat bodies) e0 /\ q_user st = u).
Proof.
  intros u rs ms4 m4 bodies ms5 Hi HA HT HR F4 M4 F5 NE e0 L1 L2.
  rewrite handler_app, (params_arrive rs ms4 (rq_init u)); auto. cbn [run_bind].
  change (q_env (rq_init u)) with env_init. fold e0. cbn [app Request.handler].
  rewrite params_done; auto. cbn [run_bind fst snd].
  destruct (body_arrives bodies ms5 (set_state 5 (set_env e0 (rq_init u)))) as
    (st & calls & E & B & S & T & P & CL & K & I & PL); auto.
  { split; apply sbase_fresh. }
  exists st, calls. split; [exact E|]. split; [exact B|]. split; [exact S|]. split; [exact T|].
  split; [exact P|]. split; [exact K|]. split; [exact I|]. exact PL.
Qed.

Lemma whole_body : forall u rs ms4 m4 bodies ms5 m5, c_id cfg < 65536 -> app_writes (any_char k) A ->
  (forall e n, tame_at A (CIn e n)) -> role_ok ->
  Forall2 params_message rs ms4 -> is_message 4 [] m4 ->
  Forall2 (is_message 5) bodies ms5 -> Forall (fun c => c <> []) bodies -> is_message 5 [] m5 ->
  let e0 := describe env_init (concat (map p_params rs)) in
  e_contentLength e0 <= c_maxPost cfg -> len (concat bodies) <= e_contentLength e0 ->
  exists st calls, handler (ms4 ++ [m4] ++ ms5) (rq_init u) = Done (false, [], st) /\
    q_calls st = calls /\ in_calls bodies calls /\ e_postBuffer (q_env st) = concat bodies /\
    forall done rest st', handler (ms4 ++ [m4] ++ ms5 ++ [m5]) (rq_init u) = Done (done, rest, st') ->
      exists more, q_calls st' = calls ++ CInProcessor (q_env st) :: more.
Proof.
  intros u rs ms4 m4 bodies ms5 m5 Hi HA HT HR F4 M4 F5 NE M5 e0 L1 L2.
  destruct (whole_before_end u rs ms4 m4 bodies ms5 Hi HA HT HR F4 M4 F5 NE L1 L2)
    as (st & calls & E & B & S & T & P & K & I & _).
  exists st, calls. split; [exact E|]. split; [exact K|]. split; [exact I|]. split; [exact P|].
  intros done rest st' H.
  replace (ms4 ++ [m4] ++ ms5 ++ [m5]) with ((ms4 ++ [m4] ++ ms5) ++ [m5]) in H by now rewrite <- !app_assoc.
  rewrite handler_app, E in H. cbn [run_bind Request.handler] in H.
  destruct (message_parts _ _ _ M5) as (Ty & R1 & R4 & (z & R7) & _ & _).
  unfold Request.step in H. rewrite Ty, R1, R4, R7, S in H. cbn [Z.eqb] in H.
  change (5 =? T_ABORT_REQUEST) with false in H. change (negb (5 =? 5)) with false in H.
  change (5 =? T_PARAMS) with false in H. change (5 =? T_IN) with true in H. change (len [] =? 0) with true in H. cbv iota in H.
  destruct (invoke_base k A cfg (CInProcessor (q_env st)) st Hi HA B) as (s1 & n1 & E1 & B1 & C1 & Q1 & F1).
  rewrite E1 in H. cbn [run_bind fst snd] in H.
  assert (K1 : q_calls s1 = calls ++ [CInProcessor (q_env st)]).
  { unfold core, after_call in C1. destruct (a_call _ _ _) as [[[x e] ops] b]. rewrite <- K. congruence. }
  assert (RC : forall s b s', base s -> q_calls s = q_calls s1 -> respond m5 s = Done (b, s') ->
      q_calls s' = calls ++ [CInProcessor (q_env st); CResponse (q_env s) m5]).
  { intros s b s' Bs Ks R. destruct (respond_base k A cfg m5 s Hi HA Bs) as (s2 & E2 & B2 & C2 & _).
    rewrite R in E2. injection E2 as -> ->.
    unfold core, after_call in C2. destruct (a_call _ _ _) as [[[x e] ops] b0].
    replace (q_calls s2) with (q_calls s ++ [CResponse (q_env s) m5]) by congruence.
    rewrite Ks, K1, <- app_assoc. reflexivity. }
  assert (FC : forall c s b s', base s -> q_calls s = q_calls s1 -> fail_with c s = Done (b, s') ->
      q_calls s' = calls ++ [CInProcessor (q_env st); c]).
  { intros c s b s' Bs Ks R. destruct (fail_base k A cfg c s Hi HA Bs) as (s2 & E2 & B2 & C2 & _).
    rewrite R in E2. injection E2 as -> ->.
    unfold core, after_call in C2. destruct (a_call _ _ _) as [[[x e] ops] b0].
    replace (q_calls s2) with (q_calls s ++ [c]) by congruence.
    rewrite Ks, K1, <- app_assoc. reflexivity. }
  apply run_bind_done in H as ([b s2] & H1 & H2). cbn [fst snd] in H2.
  assert (ES : s2 = st') by (destruct b; injection H2; auto). subst s2.
  destruct (call_result _ _ _).
  - eexists. eapply RC; [| |exact H1]; [exact B1|reflexivity].
  - apply run_bind_done in H1 as ([r e1] & _ & H1). cbn [fst snd] in H1. destruct r.
    + eexists. eapply RC; [| |exact H1]; [exact B1|reflexivity].
    + eexists. eapply FC; [| |exact H1]; [exact B1|reflexivity].
Qed.

Lemma whole_seen : forall u rs ms4 m4 bodies ms5 m5 e2, c_id cfg < 65536 -> app_writes (any_char k) A ->
  app_plain A -> role_ok ->
  Forall2 params_message rs ms4 -> is_message 4 [] m4 ->
  Forall2 (is_message 5) bodies ms5 -> Forall (fun c => c <> []) bodies -> is_message 5 [] m5 ->
  let e0 := describe env_init (concat (map p_params rs)) in
  e_contentLength e0 <= c_maxPost cfg -> len (concat bodies) <= e_contentLength e0 ->
  parsePostBuffer vts junk (set_postBuffer (concat bodies) e0) = Done (true, e2) ->
  exists st calls,
    handler (ms4 ++ [m4] ++ ms5 ++ [m5]) (rq_init u)
    = Done (snd (a_call A (CResponse (clearPostBuffer e2) m5) u), [], st) /\
    q_calls st = calls ++ [CInProcessor (set_postBuffer (concat bodies) e0);
                           CResponse (clearPostBuffer e2) m5] /\
    in_calls bodies calls.
Proof.
  intros u rs ms4 m4 bodies ms5 m5 e2 Hi HA HP HR F4 M4 F5 NE M5 e0 L1 L2 PP.
  destruct (whole_before_end u rs ms4 m4 bodies ms5 Hi HA (plain_tame HP) HR F4 M4 F5 NE L1 L2)
    as (st & calls & E & B & S & T & P & K & I & PL). destruct (PL HP) as (QE & QU). fold e0 in QE.
  destruct (message_parts _ _ _ M5) as (Ty & R1 & R4 & (z & R7) & _ & _).
  replace (ms4 ++ [m4] ++ ms5 ++ [m5]) with ((ms4 ++ [m4] ++ ms5) ++ [m5]) by now rewrite <- !app_assoc.
  rewrite handler_app, E. cbn [run_bind Request.handler].
  unfold Request.step. rewrite Ty, R1, R4, R7, S. cbn [Z.eqb].
  change (5 =? T_ABORT_REQUEST) with false. change (negb (5 =? 5)) with false.
  change (5 =? T_PARAMS) with false. change (5 =? T_IN) with true. change (len [] =? 0) with true. cbv iota.
  destruct (invoke_base k A cfg (CInProcessor (q_env st)) st Hi HA B) as (s1 & n1 & E1 & B1 & C1 & Q1 & F1).
  rewrite E1. cbn [run_bind fst snd].
  pose proof (HP (CInProcessor (q_env st)) (q_user st)) as PX. cbn beta iota in PX.
  unfold core, after_call in C1. unfold call_result. rewrite PX in C1 |- *. cbn [default_call snd] in *.
  injection C1 as Cu Ce Cs Ct Cc Co. cbv iota. rewrite Ce, QE, PP. cbn [run_bind fst snd].
  match goal with |- context [Request.respond _ _ _ _ ?s] => set (s3 := s) end.
  assert (B3 : base s3) by exact B1.
  destruct (respond_base k A cfg m5 s3 Hi HA B3) as (s2 & E2 & B2 & C2 & _).
  rewrite E2. cbn [run_bind fst snd]. change (q_env s3) with (clearPostBuffer e2).
  change (q_env s3) with (clearPostBuffer e2) in C2.
  unfold call_result, core, after_call in *. change (q_user s3) with (q_user s1) in *. rewrite Cu, QU in *.
  change (q_calls s3) with (q_calls s1) in C2. rewrite Cc, K, QE in C2.
  exists s2, calls. split.
  - destruct (a_call A (CResponse (clearPostBuffer e2) m5) u) as [[[x e] ops] b]. cbn [snd]. destruct b; reflexivity.
  - split; [|exact I].
    destruct (a_call A (CResponse (clearPostBuffer e2) m5) u) as [[[x e] ops] b].
    replace (q_calls s2) with ((calls ++ [CInProcessor (set_postBuffer (concat bodies) e0)]) ++ [CResponse (clearPostBuffer e2) m5])
      by congruence. now rewrite <- app_assoc.
Qed.
End Params.
End Body.
