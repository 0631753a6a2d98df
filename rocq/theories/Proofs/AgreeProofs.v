(** Requests of an application whose responses write a page and end. *)
From Coq Require Import String List NArith ZArith Bool Lia ZifyBool ZifyNat ZifyN.
From Verif Require Import Model.Base Model.Endian Model.Protocol Model.WebMaps Model.Streams
  Model.Environment Model.Multipart Model.Request Model.Examples
  Spec.EndianSpec Spec.WireSpec Spec.StreamSpec Spec.AddressSpec Spec.EnvironmentSpec Spec.RequestSpec Spec.PageSpec
  Proofs.RequestProofs Proofs.RequestTextProofs Proofs.RequestBodyProofs Proofs.RequestLifeProofs Proofs.PageProofs.
Import ListNotations.
Local Open Scope N_scope.

Section Agree.
Variable vts : list N -> list N -> list N.
Variable junk : nat -> list N.
Variable http_time : list N -> Z.
Variable k : chars.
Context {U : Type}.
Variable cfg : config.

(** ** What a step leaves alone *)
Section Inv.
Variable A : application U.
Variable P : rq U -> Prop.
Hypothesis PS : forall s st, P st -> P (set_state s st).
Hypothesis PE : forall e st, P st -> P (set_env e st).
Hypothesis PI : forall c st b st', Request.invoke k A cfg c st = Done (b, st') -> P st -> P st'.
Hypothesis PC : forall st st', Request.complete k A cfg st = Done st' -> P st -> P st'.
Hypothesis PT : negb ((c_role cfg =? ROLE_RESPONDER) || (c_role cfg =? ROLE_AUTHORIZER)) = true ->
  forall s st, P st -> P (set_status s st).

Lemma step_inv : forall m st b st', Request.step vts junk http_time k A cfg m st = Done (b, st') -> P st -> P st'.
Proof.
  intros m st b st' H I.
  assert (RS : forall st1, P st1 -> Request.respond k A cfg m st1 = Done (b, st') -> P st').
  { intros st1 I1 R. unfold Request.respond in R. apply run_bind_done in R as ([c s] & E & R). cbn [fst snd] in R.
    apply PI in E; [|exact I1].
    destruct c; [apply run_bind_done in R as (s2 & E2 & R); injection R as <- <-; eapply PC; eauto|].
    injection R as <- <-. exact E. }
  assert (FW : forall c st1, P st1 -> Request.fail_with k A cfg c st1 = Done (b, st') -> P st').
  { intros c st1 I1 R. unfold Request.fail_with in R. apply run_bind_done in R as ([c1 s1] & E1 & R).
    apply run_bind_done in R as (s2 & E2 & R). injection R as <- <-. apply PI in E1; [|exact I1].
    eapply PC; eauto. }
  unfold Request.step in H. destruct (m_type m =? 0)%Z.
  2:{ eapply RS; eauto. }
  destruct (rd (m_data m) 1) as [type|]; [|discriminate].
  destruct (from16 _) as [cl|]; [|discriminate].
  destruct (rd (m_data m) 7) as [z|]; [|discriminate].
  destruct (type =? T_ABORT_REQUEST).
  { apply run_bind_done in H as (s & E & H). injection H as <- <-. eapply PC; eauto. }
  destruct (negb (type =? q_state st)). { eapply FW; eauto. }
  destruct (q_state st =? T_PARAMS).
  - destruct (negb (_ || _)) eqn:R. { eapply FW; [|exact H]. auto. }
    destruct (cl =? 0).
    + destruct (_ <? _). { eapply FW; eauto. } injection H as <- <-. auto.
    + apply run_bind_done in H as (e & _ & H). injection H as <- <-. auto.
  - destruct (q_state st =? T_IN); [|eapply FW; eauto].
    destruct (cl =? 0).
    + apply run_bind_done in H as ([c s] & E1 & H). cbn [fst snd] in H.
      apply PI in E1; [|exact I]. destruct c.
      * eapply RS; [|exact H]. auto.
      * apply run_bind_done in H as ([r e1] & _ & H). cbn [fst snd] in H. destruct r.
        -- eapply RS; [|exact H]. auto.
        -- eapply FW; [|exact H]. auto.
    + destruct (_ <? _). { eapply FW; eauto. }
      destruct (_ <? _); [discriminate|].
      apply run_bind_done in H as ([c s] & E1 & H). injection H as <- <-.
      eapply PI; [exact E1|]. auto.
Qed.

Lemma handler_inv : forall ms st b rest st',
  Request.handler vts junk http_time k A cfg ms st = Done (b, rest, st') -> P st -> P st'.
Proof.
  induction ms as [|m ms IH]; intros st b rest st' H I; cbn [Request.handler] in H.
  - injection H as <- <- <-. exact I.
  - apply run_bind_done in H as ([c s] & E & H). cbn [fst snd] in H. apply step_inv in E; [|exact I].
    destruct c; [injection H as <- <- <-; exact E|]. eapply IH; eauto.
Qed.
End Inv.

(** ** Applications that agree on the calls made *)
Section Two.
Variables A B : application U.
Variable Q : call -> Prop.
Hypothesis AG : forall c u, Q c -> a_call B c u = a_call A c u.
Hypothesis GG : forall u, a_good B u = a_good A u.

Lemma complete_agree : forall st, Request.complete k B cfg st = Request.complete k A cfg st.
Proof. intros st. unfold Request.complete. now rewrite GG. Qed.

Lemma complete_calls : forall (C : application U) st st', Request.complete k C cfg st = Done st' ->
  q_calls st' = q_calls st.
Proof.
  intros C st st' H. unfold Request.complete in H. destruct (a_good C (q_user st)) as [og eg].
  apply run_bind_done in H as (s & E & H). injection H as <-. apply all_core in E.
  unfold core in E. cbn. congruence.
Qed.

Lemma invoke_agree : forall c st b st', Request.invoke k A cfg c st = Done (b, st') ->
  Forall Q (q_calls st') -> Request.invoke k B cfg c st = Done (b, st').
Proof.
  intros c st b st' H F. pose proof (invoke_calls _ _ _ _ _ _ _ H) as E. rewrite E in F.
  apply Forall_app in F as (_ & F). inversion F; subst.
  unfold Request.invoke in *. now rewrite AG.
Qed.

Definition more (st st' : rq U) : Prop := exists l, q_calls st' = q_calls st ++ l.

Lemma more_all : forall st st', more st st' -> Forall Q (q_calls st') -> Forall Q (q_calls st).
Proof. intros st st' (l & E) F. rewrite E in F. now apply Forall_app in F. Qed.

Lemma more_trans : forall a b c, more a b -> more b c -> more a c.
Proof. intros a b c (l & E) (l' & E'). exists (l ++ l'). now rewrite E', E, app_assoc. Qed.

Lemma invoke_more : forall c st b st', Request.invoke k A cfg c st = Done (b, st') -> more st st'.
Proof. intros c st b st' H. exists [c]. eapply invoke_calls; eauto. Qed.

Lemma complete_more : forall st st', Request.complete k A cfg st = Done st' -> more st st'.
Proof. intros st st' H. exists []. rewrite app_nil_r. eapply complete_calls; eauto. Qed.

Lemma step_more : forall m st b st', Request.step vts junk http_time k A cfg m st = Done (b, st') -> more st st'.
Proof.
  intros m st b st' H.
  refine (step_inv A (fun s => more st s) _ _ _ _ _ m st b st' H _).
  - intros s s1 M. exact M.
  - intros s s1 M. exact M.
  - intros c s1 b1 s2 E M. eapply more_trans; [exact M|eapply invoke_more; exact E].
  - intros s1 s2 E M. eapply more_trans; [exact M|eapply complete_more; exact E].
  - intros _ s s1 M. exact M.
  - exists []. now rewrite app_nil_r.
Qed.

Lemma step_agree : forall m st b st', Request.step vts junk http_time k A cfg m st = Done (b, st') ->
  Forall Q (q_calls st') -> Request.step vts junk http_time k B cfg m st = Done (b, st').
Proof.
  intros m st b st' H F.
  assert (RS : forall st1, Request.respond k A cfg m st1 = Done (b, st') ->
     Request.respond k B cfg m st1 = Done (b, st') /\ more st1 st').
  { intros st1 R. unfold Request.respond in *. apply run_bind_done in R as ([c s] & E & R). cbn [fst snd] in R.
    assert (M : more s st').
    { destruct c.
      - apply run_bind_done in R as (s2 & E2 & R). injection R as <- <-. eapply complete_more; exact E2.
      - injection R as <- <-. exists []. now rewrite app_nil_r. }
    rewrite (invoke_agree _ _ _ _ E) by (eapply more_all; eauto). cbn [run_bind fst snd].
    rewrite complete_agree. split; [exact R|]. eapply more_trans; [eapply invoke_more; exact E|exact M]. }
  assert (FW : forall c st1, Request.fail_with k A cfg c st1 = Done (b, st') ->
     Request.fail_with k B cfg c st1 = Done (b, st')).
  { intros c st1 R. unfold Request.fail_with in *. apply run_bind_done in R as ([c1 s1] & E1 & R).
    cbn [snd] in R. rewrite (invoke_agree _ _ _ _ E1).
    - cbn [run_bind snd]. now rewrite complete_agree.
    - apply run_bind_done in R as (s2 & E2 & R). injection R as <- <-.
      eapply more_all; [eapply complete_more; exact E2|exact F]. }
  unfold Request.step in *. destruct (m_type m =? 0)%Z.
  2:{ now apply RS. }
  destruct (rd (m_data m) 1) as [type|]; [|discriminate].
  destruct (from16 _) as [cl|]; [|discriminate].
  destruct (rd (m_data m) 7) as [z|]; [|discriminate].
  destruct (type =? T_ABORT_REQUEST). { now rewrite complete_agree. }
  destruct (negb (type =? q_state st)). { now apply FW. }
  destruct (q_state st =? T_PARAMS).
  - destruct (negb (_ || _)). { now apply FW. }
    destruct (cl =? 0).
    + destruct (_ <? _). { now apply FW. } exact H.
    + exact H.
  - destruct (q_state st =? T_IN); [|now apply FW].
    destruct (cl =? 0).
    + apply run_bind_done in H as ([c s] & E1 & H). cbn [fst snd] in H.
      assert (M : more s st').
      { destruct c.
        - apply RS in H as (_ & M). exact M.
        - apply run_bind_done in H as ([r e1] & _ & H). cbn [fst snd] in H. destruct r.
          + apply RS in H as (_ & M). exact M.
          + unfold Request.fail_with in H. apply run_bind_done in H as ([c1 s1] & E2 & H).
            apply run_bind_done in H as (s2 & E3 & H). injection H as <- <-.
            apply invoke_more in E2. apply complete_more in E3. eapply more_trans; eauto. }
      rewrite (invoke_agree _ _ _ _ E1) by (eapply more_all; eauto). cbn [run_bind fst snd]. destruct c.
      * apply RS in H as (H & _). exact H.
      * destruct (parsePostBuffer _ _ _) as [[r e1]| |]; cbn [run_bind fst snd] in *; try discriminate.
        destruct r; [apply RS in H as (H & _); exact H|now apply FW].
    + destruct (_ <? _). { now apply FW. }
      destruct (_ <? _); [discriminate|].
      apply run_bind_done in H as ([c s] & E1 & H). injection H as <- <-. cbn [snd] in F.
      rewrite (invoke_agree _ _ _ _ E1) by exact F. reflexivity.
Qed.

Lemma handler_more : forall ms st b rest st',
  Request.handler vts junk http_time k A cfg ms st = Done (b, rest, st') -> more st st'.
Proof.
  induction ms as [|m ms IH]; intros st b rest st' H; cbn [Request.handler] in H.
  - injection H as <- <- <-. exists []. now rewrite app_nil_r.
  - apply run_bind_done in H as ([c s] & E & H). cbn [fst snd] in H. apply step_more in E.
    destruct c; [injection H as <- <- <-; exact E|]. eapply more_trans; [exact E|]. eapply IH; eauto.
Qed.

Lemma handler_agree : forall ms st b rest st',
  Request.handler vts junk http_time k A cfg ms st = Done (b, rest, st') -> Forall Q (q_calls st') ->
  Request.handler vts junk http_time k B cfg ms st = Done (b, rest, st').
Proof.
  induction ms as [|m ms IH]; intros st b rest st' H F; cbn [Request.handler] in *; [exact H|].
  apply run_bind_done in H as ([c s] & E & H). cbn [fst snd] in H.
  assert (M : more s st').
  { destruct c; [injection H as <- <- <-; exists []; now rewrite app_nil_r|eapply handler_more; eauto]. }
  rewrite (step_agree _ _ _ _ E) by (eapply more_all; eauto). cbn [run_bind fst snd].
  destruct c; [exact H|]. now apply IH.
Qed.
End Two.
End Agree.

(** ** Pages *)
Section Page.
Variable vts : list N -> list N -> list N.
Variable junk : nat -> list N.
Variable http_time : list N -> Z.
Variable k : chars.
Variable cfg : config.

Lemma ops_on_false : forall l, ops_on false (map (pair false) l) = l.
Proof. unfold ops_on. induction l as [|x l IH]; cbn; [auto|now rewrite IH]. Qed.
Lemma ops_on_true : forall l, ops_on true (map (pair false) l) = [].
Proof. unfold ops_on. induction l as [|x l IH]; cbn; auto. Qed.

Lemma error_chars : forall s, In s ["500 Internal Server Error"; "413 Request Entity Too Large";
    "415 Unsupported Media Type"]%string ->
  Forall (real_char k) (error_text s).
Proof.
  intros s H. apply Forall_forall. intros c C.
  assert (L : forallb (fun c => c <? 128) (error_text s) = true).
  { cbn [In] in H. destruct H as [<-|[<-|[<-|[]]]]; vm_compute; reflexivity. }
  rewrite forallb_forall in L. specialize (L c C).
  destruct k; cbn; unfold scalar; lia.
Qed.

Lemma page_writes : forall l, Forall (op_chars (real_char k)) l -> app_writes (real_char k) (page_app (fun _ => l)).
Proof.
  intros l F c u. unfold writes.
  destruct c; cbn [a_call page_app default_call fst snd].
  - apply Forall_forall. intros x IN. apply in_map_iff in IN as (o & <- & IN).
    rewrite Forall_forall in F. cbn [snd]. auto.
  - constructor.
  - constructor.
  - constructor; [|constructor]. apply error_chars. cbn [In]. auto.
  - constructor; [|constructor]. apply error_chars. cbn [In]. auto.
  - constructor; [|constructor]. apply error_chars. cbn [In]. auto.
Qed.

Lemma page_plain : forall ops, app_plain (page_app ops).
Proof. intros ops [] u; cbn; auto. Qed.

Definition hist_page (l : list sop) : list call -> list (bool * sop) -> Prop :=
  fun cs os => hist (page_app (fun _ => l)) cs os.

Lemma hist_ops : forall l cs os, hist_page l cs os ->
  (forall c, In c cs -> match c with CIn _ _ | CInProcessor _ | CResponse _ _ => True | _ => False end) ->
  os = concat (map (fun c => match c with CResponse _ _ => map (pair false) l | _ => [] end) cs).
Proof.
  intros l cs os H. induction H as [|cs os c u H IH]; intros F; auto.
  rewrite map_app, concat_app, <- IH by (intros; apply F, in_or_app; auto). f_equal.
  assert (Fc := F c). rewrite in_app_iff in Fc. specialize (Fc (or_intror (or_introl eq_refl))).
  destruct c; cbn in *; try contradiction; auto using app_nil_r.
Qed.

Lemma page_answer : forall ops address_of,
  (forall n, length (junk n) = n) ->
  (forall t a, address_text t a -> ~ compat_text t -> address_of t = a) ->
  forall rs ms4 m4 bodies ms5 m5 e2, c_id cfg < 65536 -> c_role cfg = 1 \/ c_role cfg = 2 ->
  Forall2 params_message rs ms4 -> is_message 4 [] m4 -> Forall2 (is_message 5) bodies ms5 ->
  Forall (fun c => c <> []) bodies -> is_message 5 [] m5 ->
  let e0 := describe vts http_time address_of env_init (concat (map p_params rs)) in
  e_contentLength e0 <= c_maxPost cfg -> len (concat bodies) <= e_contentLength e0 ->
  parsePostBuffer vts junk (set_postBuffer (concat bodies) e0) = Done (true, e2) ->
  Forall (op_chars (real_char k)) (ops (set_postBuffer [] e2)) ->
  answered vts junk http_time k (page_app ops) cfg tt (ms4 ++ [m4] ++ ms5 ++ [m5]) 0
    (text_of (encode k) E_NONE (ops (set_postBuffer [] e2))).
Proof.
  intros ops ao J AD rs ms4 m4 bodies ms5 m5 e2 I R H4 E4 H5 N5 E5 e0 L1 L2 PB F.
  set (l := ops (set_postBuffer [] e2)) in *.
  pose (A := page_app (fun _ => l)).
  pose proof (page_writes l F) as W. pose proof (real_any k A W) as W'.
  destruct (whole_seen vts junk http_time k A cfg ao J AD tt rs ms4 m4 bodies ms5 m5 e2 I W'
     (page_plain _) R H4 E4 H5 N5 E5 L1 L2 PB) as (st & calls & HD & QC & IC).
  cbn [A a_call page_app snd] in HD. fold A in HD.
  assert (CS : forall c, In c calls -> exists e n, c = CIn e n).
  { clear - IC. induction IC; cbn [In]; [tauto|]. intros x [<-|X]; eauto. }
  assert (QO : q_ops st = map (pair false) l).
  { assert (H : hist_page l (q_calls st) (q_ops st)).
    { refine (handler_inv vts junk http_time k cfg A (fun s => hist_page l (q_calls s) (q_ops s)) _ _ _ _ _
        _ _ _ _ _ HD _); auto.
      - intros c s b s' E X. eapply invoke_hist; eauto.
      - intros s s' E X. unfold complete in E. cbn [A a_good page_app] in E.
        apply run_bind_done in E as (s1 & E1 & E). injection E as <-. apply all_core in E1.
        unfold core in E1. injection E1 as _ _ _ _ C5 C6. cbn [q_calls q_ops]. now rewrite C5, C6.
      - constructor. }
    apply hist_ops in H.
    - rewrite H, QC, map_app, concat_app.
      replace (concat (map _ calls)) with (@nil (bool * sop)).
      + cbn. now rewrite app_nil_r.
      + clear - CS. induction calls as [|c calls IH]; auto.
        destruct (CS c (or_introl eq_refl)) as (e & n & ->). cbn. apply IH. intros; apply CS; now right.
    - rewrite QC. intros c C. apply in_app_or in C as [C|[<-|[<-|[]]]]; auto.
      apply CS in C as (e & n & ->). exact Logic.I. }
  assert (QS : q_status st = 0).
  { refine (handler_inv vts junk http_time k cfg A (fun s => q_status s = 0) _ _ _ _ _ _ _ _ _ _ HD _); auto.
    - intros c s b s' E X. unfold invoke in E. destruct (a_call A c (q_user s)) as [[[u e] o] r].
      apply run_bind_done in E as (s1 & E1 & E). injection E as <- <-. apply all_core in E1.
      unfold core in E1. cbn in E1. congruence.
    - intros s s' E X. unfold complete in E. cbn [A a_good page_app] in E.
      apply run_bind_done in E as (s1 & E1 & E). injection E as <-. apply all_core in E1.
      unfold core in E1. cbn. congruence.
    - intros C. exfalso. destruct R as [R|R]; rewrite R in C; discriminate. }
  destruct (request_text vts junk http_time k unit A cfg tt _ _ _ I W (fun _ => eq_refl) HD)
    as (recs & r & QE & IE & T6 & T7).
  exists st, recs, r. rewrite QS in IE. rewrite QO, ops_on_false in T6. rewrite QO, ops_on_true in T7.
  split; [|auto].
  refine (handler_agree vts junk http_time k cfg A (page_app ops)
    (fun c => forall e m, c = CResponse e m -> e = set_postBuffer [] e2) _ _ _ _ _ _ _ HD _).
  - intros [] u Q; auto. cbn. now rewrite (Q _ _ eq_refl).
  - intros u. reflexivity.
  - rewrite QC. apply Forall_forall. intros c C e m ->.
    apply in_app_or in C as [C|[C|[C|[]]]]; [apply CS in C as (? & ? & C)|..]; try discriminate.
    now injection C as <- <-.
Qed.
End Page.
