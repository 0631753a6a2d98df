(** The pages of the default handlers. *)
From Coq Require Import String List NArith ZArith Bool Lia ZifyBool ZifyNat ZifyN.
From Verif Require Import Model.Base Model.Endian Model.Protocol Model.WebMaps Model.Streams
  Model.Environment Model.Multipart Model.Request
  Spec.EndianSpec Spec.WireSpec Spec.StreamSpec Spec.EnvironmentSpec Spec.RequestSpec Spec.PageSpec
  Proofs.RequestProofs Proofs.RequestTextProofs Proofs.RequestBodyProofs.
Import ListNotations.
Local Open Scope N_scope.

Section Page.
Variable vts : list N -> list N -> list N.
Variable junk : nat -> list N.
Variable http_time : list N -> Z.
Variable k : chars.
Context {U : Type}.
Variable A : application U.
Variable cfg : config.

Notation stream_do := (@stream_do k U cfg).
Notation stream_all := (@stream_all k U cfg).
Notation invoke := (@invoke k U A cfg).
Notation complete := (@complete k U A cfg).
Notation respond := (@respond k U A cfg).
Notation step := (@step vts junk http_time k U A cfg).
Notation handler := (@handler vts junk http_time k U A cfg).

(** What was written comes from the calls made. *)
Inductive hist : list call -> list (bool * sop) -> Prop :=
| h_nil : hist [] []
| h_more : forall cs os c u, hist cs os -> hist (cs ++ [c]) (os ++ writes A c u).

Lemma do_core : forall x st st', stream_do x st = Done st' -> core st' = core st.
Proof.
  intros x st st' H. unfold Request.stream_do in H. destruct (stream_op _ _ _ _ _ _); try discriminate.
  injection H as <-. destruct (fst x); reflexivity.
Qed.

Lemma all_core : forall l st st', stream_all l st = Done st' -> core st' = core st.
Proof.
  induction l as [|x l IH]; intros st st' H; cbn [Request.stream_all] in H.
  - injection H as <-. reflexivity.
  - apply run_bind_done in H as (s & E & H). apply do_core in E. apply IH in H. congruence.
Qed.

Lemma invoke_hist : forall c st b st', invoke c st = Done (b, st') -> hist (q_calls st) (q_ops st) ->
  hist (q_calls st') (q_ops st').
Proof.
  intros c st b st' H I. unfold Request.invoke in H.
  pose proof (h_more _ _ c (q_user st) I) as M. unfold writes in M.
  destruct (a_call A c (q_user st)) as [[[u e] ops] r]. cbn [fst snd] in M.
  apply run_bind_done in H as (s & E & H). injection H as <- <-. apply all_core in E.
  unfold core in E. cbn in E. injection E as _ _ _ _ E5 E6. now rewrite E5, E6.
Qed.

(** A step that does not end the request. *)
Lemma step_hist : forall m st st', step m st = Done (false, st') -> hist (q_calls st) (q_ops st) ->
  hist (q_calls st') (q_ops st').
Proof.
  intros m st st' H I.
  assert (RS : forall st1, hist (q_calls st1) (q_ops st1) -> respond m st1 = Done (false, st') ->
     hist (q_calls st') (q_ops st')).
  { intros st1 I1 R. unfold Request.respond in R. apply run_bind_done in R as ([b s] & E & R). cbn [fst snd] in R.
    destruct b; [apply run_bind_done in R as (? & _ & R); discriminate|]. injection R as <-.
    eapply invoke_hist; eauto. }
  assert (FW : forall c st1, Request.fail_with k A cfg c st1 = Done (false, st') -> False).
  { intros c st1 R. unfold Request.fail_with in R. apply run_bind_done in R as (? & _ & R).
    apply run_bind_done in R as (? & _ & R). discriminate. }
  unfold Request.step in H. destruct (m_type m =? 0)%Z.
  2:{ eapply RS; eauto. }
  destruct (rd (m_data m) 1) as [type|]; [|discriminate].
  destruct (from16 _) as [cl|]; [|discriminate].
  destruct (rd (m_data m) 7) as [z|]; [|discriminate].
  destruct (type =? T_ABORT_REQUEST).
  { apply run_bind_done in H as (? & _ & H). discriminate. }
  destruct (negb (type =? q_state st)). { now apply FW in H. }
  destruct (q_state st =? T_PARAMS).
  - destruct (negb _). { now apply FW in H. }
    destruct (cl =? 0).
    + destruct (_ <? _). { now apply FW in H. } injection H as <-. exact I.
    + apply run_bind_done in H as (e & _ & H). injection H as <-. exact I.
  - destruct (q_state st =? T_IN); [|now apply FW in H].
    destruct (cl =? 0).
    + apply run_bind_done in H as ([b s] & E1 & H). cbn [fst snd] in H.
      apply invoke_hist in E1; [|exact I]. destruct b.
      * eapply RS; [|exact H]. exact E1.
      * apply run_bind_done in H as ([r e1] & _ & H). cbn [fst snd] in H. destruct r.
        -- eapply RS; [|exact H]. exact E1.
        -- now apply FW in H.
    + destruct (_ <? _). { now apply FW in H. }
      destruct (_ <? _); [discriminate|].
      apply run_bind_done in H as ([b s] & E1 & H). injection H as <-.
      eapply invoke_hist; eauto.
Qed.

Lemma live_hist : forall u ms st, lives_with vts junk http_time k A cfg u ms st -> hist (q_calls st) (q_ops st).
Proof.
  intros u ms st H. unfold lives_with in H.
  assert (G : forall ms s, hist (q_calls s) (q_ops s) -> handler ms s = Done (false, [], st) ->
     hist (q_calls st) (q_ops st)).
  { clear H ms. induction ms as [|m ms IH]; intros s I H; cbn [Request.handler] in H.
    - injection H as <-. auto.
    - apply run_bind_done in H as ([b s1] & E1 & H). cbn [fst snd] in H. destruct b; [discriminate|].
      eapply IH; [|exact H]. eapply step_hist; eauto. }
  eapply G; [|exact H]. constructor.
Qed.

(** Only [CIn] and [CInProcessor] leave a request alive. *)
Definition quiet (c : call) : Prop := match c with CIn _ _ | CInProcessor _ => True | _ => False end.

Lemma quiet_ops : only_responds A -> forall cs os, hist cs os -> Forall quiet cs -> os = [].
Proof.
  intros (D & _) cs os H. induction H as [|cs os c u H IH]; intros F; auto.
  apply Forall_app in F as (F1 & F2). rewrite IH by auto. inversion F2 as [|? ? Q _]; subst.
  unfold writes. rewrite D; [destruct c; try contradiction; reflexivity|].
  intros e m ->. contradiction.
Qed.

Definition calm (st : rq U) : Prop :=
  Forall (fun c => match c with CResponse _ _ | CIn _ _ | CInProcessor _ => True | _ => False end) (q_calls st).

Lemma invoke_calls : forall c st b st', invoke c st = Done (b, st') -> q_calls st' = q_calls st ++ [c].
Proof.
  intros c st b st' H. unfold Request.invoke in H.
  destruct (a_call A c (q_user st)) as [[[u e] ops] r].
  apply run_bind_done in H as (s & E & H). injection H as <- <-. apply all_core in E.
  unfold core in E. cbn in E. congruence.
Qed.

Lemma step_calm : forall m st st', step m st = Done (false, st') -> calm st -> calm st'.
Proof.
  intros m st st' H I.
  assert (IV : forall c st1 b st2, invoke c st1 = Done (b, st2) ->
     match c with CResponse _ _ | CIn _ _ | CInProcessor _ => True | _ => False end -> calm st1 -> calm st2).
  { intros c st1 b st2 E Q C. unfold calm. rewrite (invoke_calls _ _ _ _ E). apply Forall_app. split; auto. }
  assert (RS : forall st1, calm st1 -> respond m st1 = Done (false, st') -> calm st').
  { intros st1 I1 R. unfold Request.respond in R. apply run_bind_done in R as ([b s] & E & R). cbn [fst snd] in R.
    destruct b; [apply run_bind_done in R as (? & _ & R); discriminate|]. injection R as <-.
    eapply IV; [exact E|exact Logic.I|exact I1]. }
  assert (FW : forall c st1, Request.fail_with k A cfg c st1 = Done (false, st') -> False).
  { intros c st1 R. unfold Request.fail_with in R. apply run_bind_done in R as (? & _ & R).
    apply run_bind_done in R as (? & _ & R). discriminate. }
  unfold Request.step in H. destruct (m_type m =? 0)%Z.
  2:{ eapply RS; eauto. }
  destruct (rd (m_data m) 1) as [type|]; [|discriminate].
  destruct (from16 _) as [cl|]; [|discriminate].
  destruct (rd (m_data m) 7) as [z|]; [|discriminate].
  destruct (type =? T_ABORT_REQUEST).
  { apply run_bind_done in H as (? & _ & H). discriminate. }
  destruct (negb (type =? q_state st)). { now apply FW in H. }
  destruct (q_state st =? T_PARAMS).
  - destruct (negb _). { now apply FW in H. }
    destruct (cl =? 0).
    + destruct (_ <? _). { now apply FW in H. } injection H as <-. exact I.
    + apply run_bind_done in H as (e & _ & H). injection H as <-. exact I.
  - destruct (q_state st =? T_IN); [|now apply FW in H].
    destruct (cl =? 0).
    + apply run_bind_done in H as ([b s] & E1 & H). cbn [fst snd] in H.
      apply IV in E1; [|exact Logic.I|exact I]. destruct b.
      * eapply RS; [|exact H]. exact E1.
      * apply run_bind_done in H as ([r e1] & _ & H). cbn [fst snd] in H. destruct r.
        -- eapply RS; [|exact H]. exact E1.
        -- now apply FW in H.
    + destruct (_ <? _). { now apply FW in H. }
      destruct (_ <? _); [discriminate|].
      apply run_bind_done in H as ([b s] & E1 & H). injection H as <-.
      eapply IV; [exact E1|exact Logic.I|exact I].
Qed.

Lemma live_calm : forall u ms st, lives_with vts junk http_time k A cfg u ms st -> calm st.
Proof.
  intros u ms st H. unfold lives_with in H.
  assert (G : forall ms s, calm s -> handler ms s = Done (false, [], st) -> calm st).
  { clear H ms. induction ms as [|m ms IH]; intros s I H; cbn [Request.handler] in H.
    - injection H as <-. auto.
    - apply run_bind_done in H as ([b s1] & E1 & H). cbn [fst snd] in H. destruct b; [discriminate|].
      eapply IH; [|exact H]. eapply step_calm; eauto. }
  eapply G; [|exact H]. constructor.
Qed.

(** Nothing has been written before the first response. *)
Lemma unanswered_ops : only_responds A -> forall u ms st, lives_with vts junk http_time k A cfg u ms st ->
  unanswered st -> q_ops st = [].
Proof.
  intros D u ms st L N. eapply quiet_ops; [exact D|eapply live_hist; exact L|].
  pose proof (live_calm _ _ _ L) as C. unfold calm in C. rewrite Forall_forall in *. intros c IN.
  specialize (C c IN). destruct c; try exact C. exfalso. eapply N; exact IN.
Qed.

Lemma real_any : app_writes (real_char k) A -> app_writes (any_char k) A.
Proof.
  intros W c u. eapply Forall_impl; [|apply W]. intros [b o] H. cbn [snd] in *.
  assert (P : forall x, real_char k x -> any_char k x) by (destruct k; cbn; auto).
  destruct o; cbn in *; auto. eapply Forall_impl; [|exact H]. auto.
Qed.

(** What the last message adds follows what was written before. *)
Lemma ends_text : forall u ms m st status calls ops,
  c_id cfg < 65536 -> app_writes (real_char k) A -> (forall u, a_good A u = (true, true)) ->
  ends_with vts junk http_time k A cfg u ms m st status calls ops ->
  exists st' recs r,
    handler (ms ++ [m]) (rq_init u) = Done (true, [], st') /\
    q_sent st' = map (fun r => (r, false)) recs ++ [(r, c_kill cfg)] /\
    is_end (c_id cfg) status r /\
    stream_text 6 (c_id cfg) recs (text_of (encode k) E_NONE (ops_on false (q_ops st ++ ops))) /\
    stream_text 7 (c_id cfg) recs (text_of (encode k) E_NONE (ops_on true (q_ops st ++ ops))).
Proof.
  intros u ms m st status calls ops Hi W G (st' & new & r & H & C & O & Q & F & E).
  destruct (request_text vts junk http_time k U A cfg u _ _ _ Hi W G H) as (recs & r' & Q' & _ & T6 & T7).
  exists st', recs, r'. split; [exact H|]. split; [exact Q'|]. split.
  - rewrite Q', app_assoc in Q. apply app_inj_tail in Q as (_ & X). injection X as ->. exact E.
  - now rewrite <- O.
Qed.

Lemma ascii_encode : forall s, Forall (fun c => c < 128) s -> encode k s = s.
Proof.
  intros s F. destruct k; cbn; auto. induction F as [|c s L F IH]; auto.
  unfold utf8. cbn [flat_map]. unfold utf8 in IH. rewrite IH. unfold utf8_1.
  destruct (N.ltb_spec c 128); [reflexivity|lia].
Qed.

Lemma escape_none : forall s, escape E_NONE s = s.
Proof. induction s as [|c s IH]; cbn; congruence. Qed.

Definition is_ascii (s : list N) : bool := forallb (fun c => c <? 128) s.
Lemma is_ascii_ok : forall s, is_ascii s = true -> Forall (fun c => c < 128) s.
Proof. intros s H. apply Forall_forall. unfold is_ascii in H. rewrite forallb_forall in H. intros c I. apply H in I. lia. Qed.

Lemma one_page : forall u ms m st status calls ops page,
  c_id cfg < 65536 -> app_writes (real_char k) A -> only_responds A ->
  lives_with vts junk http_time k A cfg u ms st -> unanswered st ->
  ends_with vts junk http_time k A cfg u ms m st status calls ops ->
  ops = [(false, OpWrite page)] -> is_ascii page = true ->
  answered vts junk http_time k A cfg u (ms ++ [m]) status page.
Proof.
  intros u ms m st status calls ops page Hi W D L N E -> AS.
  destruct (ends_text _ _ _ _ _ _ _ Hi W (proj2 D) E) as (st' & recs & r & H & Q & I & T6 & T7).
  rewrite (unanswered_ops D _ _ _ L N) in T6, T7.
  cbn [app ops_on filter fst Bool.eqb map snd text_of] in T6, T7. rewrite escape_none, ascii_encode, app_nil_r in T6
    by (now apply is_ascii_ok).
  exists st', recs, r. auto.
Qed.

Lemma page_abort : forall u ms st m content,
  c_id cfg < 65536 -> app_writes (real_char k) A -> only_responds A ->
  lives_with vts junk http_time k A cfg u ms st -> unanswered st -> is_message 2 content m ->
  answered vts junk http_time k A cfg u (ms ++ [m]) 0 [].
Proof.
  intros u ms st m content Hi W D L N M.
  destruct (ends_text _ _ _ _ _ _ _ Hi W (proj2 D)
    (abort_ends vts junk http_time k A cfg u ms st m content Hi (real_any W) L M)) as (st' & recs & r & H & Q & I & T6 & T7).
  rewrite (unanswered_ops D _ _ _ L N) in T6, T7. exists st', recs, r. auto.
Qed.

Lemma page_disorder : forall u ms st m type content,
  c_id cfg < 65536 -> app_writes (real_char k) A -> only_responds A ->
  lives_with vts junk http_time k A cfg u ms st -> unanswered st ->
  is_message type content m -> type <> 2 -> type <> q_state st ->
  answered vts junk http_time k A cfg u (ms ++ [m]) 0 page_500.
Proof.
  intros u ms st m type content Hi W D L N M T2 TS.
  eapply (one_page u ms m st); [exact Hi|exact W|exact D|exact L|exact N|..].
  - apply (disorder_ends vts junk http_time k A cfg u ms st m type content Hi (real_any W) L M T2 TS).
  - unfold writes. rewrite (proj1 D) by discriminate. reflexivity.
  - reflexivity.
Qed.

Lemma page_role : forall u ms st m content,
  c_id cfg < 65536 -> app_writes (real_char k) A -> only_responds A ->
  lives_with vts junk http_time k A cfg u ms st -> unanswered st -> q_state st = 4 ->
  is_message 4 content m -> c_role cfg <> 1 -> c_role cfg <> 2 ->
  answered vts junk http_time k A cfg u (ms ++ [m]) 3 page_500.
Proof.
  intros u ms st m content Hi W D L N S M R1 R2.
  eapply (one_page u ms m st); [exact Hi|exact W|exact D|exact L|exact N|..].
  - apply (role_ends vts junk http_time k A cfg u ms st m content Hi (real_any W) L S M R1 R2).
  - unfold writes. rewrite (proj1 D) by discriminate. reflexivity.
  - reflexivity.
Qed.

Lemma page_announced : forall u ms st m,
  c_id cfg < 65536 -> app_writes (real_char k) A -> only_responds A ->
  lives_with vts junk http_time k A cfg u ms st -> unanswered st -> q_state st = 4 ->
  is_message 4 [] m -> c_role cfg = 1 \/ c_role cfg = 2 -> c_maxPost cfg < e_contentLength (q_env st) ->
  answered vts junk http_time k A cfg u (ms ++ [m]) 0 page_413.
Proof.
  intros u ms st m Hi W D L N S M R B.
  eapply (one_page u ms m st); [exact Hi|exact W|exact D|exact L|exact N|..].
  - apply (too_big_announced vts junk http_time k A cfg u ms st m Hi (real_any W) L S M R B).
  - unfold writes. rewrite (proj1 D) by discriminate. reflexivity.
  - reflexivity.
Qed.

Lemma page_too_much : forall u ms st m content,
  c_id cfg < 65536 -> app_writes (real_char k) A -> only_responds A ->
  lives_with vts junk http_time k A cfg u ms st -> unanswered st -> q_state st = 5 ->
  is_message 5 content m -> content <> [] ->
  e_contentLength (q_env st) < len (e_postBuffer (q_env st)) + len content ->
  answered vts junk http_time k A cfg u (ms ++ [m]) 0 page_413.
Proof.
  intros u ms st m content Hi W D L N S M C B.
  eapply (one_page u ms m st); [exact Hi|exact W|exact D|exact L|exact N|..].
  - apply (too_much_sent vts junk http_time k A cfg u ms st m content Hi (real_any W) L S M C B).
  - unfold writes. rewrite (proj1 D) by discriminate. reflexivity.
  - reflexivity.
Qed.

Lemma page_unknown : forall u ms st m,
  c_id cfg < 65536 -> app_writes (real_char k) A -> only_responds A ->
  lives_with vts junk http_time k A cfg u ms st -> unanswered st -> q_state st = 5 ->
  is_message 5 [] m -> e_postBuffer (q_env st) <> [] ->
  e_contentType (q_env st) <> lit "multipart/form-data" ->
  e_contentType (q_env st) <> lit "application/x-www-form-urlencoded" ->
  answered vts junk http_time k A cfg u (ms ++ [m]) 0 page_415.
Proof.
  intros u ms st m Hi W D L N S M B T1 T2.
  pose proof (unknown_content_ends vts junk http_time k A cfg u ms st m Hi (real_any W) L S M) as E.
  cbv zeta in E. unfold writes in E. rewrite (proj1 D (CInProcessor (q_env st))) in E by discriminate.
  cbn [default_call fst snd app] in E. specialize (E eq_refl B T1 T2).
  rewrite (proj1 D (CUnknownContent (q_env st))) in E by discriminate.
  eapply (one_page u ms m st); [exact Hi|exact W|exact D|exact L|exact N|exact E|reflexivity|reflexivity].
Qed.

(** Once there was output, a page follows it. *)
Lemma page_after : forall u ms st m type content text,
  c_id cfg < 65536 -> app_writes (real_char k) A -> only_responds A ->
  lives_with vts junk http_time k A cfg u ms st ->
  is_message type content m -> type <> 2 -> type <> q_state st ->
  text_of (encode k) E_NONE (ops_on false (q_ops st)) = text ->
  Forall (fun x => forall e, snd x <> OpEnc e) (q_ops st) ->
  exists st' recs r,
    handler (ms ++ [m]) (rq_init u) = Done (true, [], st') /\
    q_sent st' = map (fun r => (r, false)) recs ++ [(r, c_kill cfg)] /\ is_end (c_id cfg) 0 r /\
    stream_text 6 (c_id cfg) recs (text ++ page_500).
Proof.
  intros u ms st m type content text Hi W D L M T2 TS X EN.
  destruct (ends_text _ _ _ _ _ _ _ Hi W (proj2 D)
    (disorder_ends vts junk http_time k A cfg u ms st m type content Hi (real_any W) L M T2 TS))
    as (st' & recs & r & H & Q & I & T6 & _).
  exists st', recs, r. split; [exact H|]. split; [exact Q|]. split; [exact I|].
  unfold writes in T6. rewrite (proj1 D) in T6 by discriminate. cbn [default_call fst snd] in T6.
  rewrite ops_on_app, text_of_app, X in T6. cbn [fst snd Bool.eqb text_of] in T6.
  assert (NE : enc_after E_NONE (ops_on false (q_ops st)) = E_NONE).
  { clear - EN. induction EN as [|[b o] l P EN IH]; auto. unfold ops_on in *. cbn [filter fst].
    destruct (Bool.eqb b false); [|exact IH]. cbn [map snd enc_after]. destruct o; try exact IH.
    exfalso. eapply P; reflexivity. }
  rewrite NE, escape_none, app_nil_r, ascii_encode in T6 by (now apply is_ascii_ok). exact T6.
Qed.
End Page.
