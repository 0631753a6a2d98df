(** Requests that go on with messages of the application. *)
From Coq Require Import String List NArith ZArith Bool Lia ZifyBool ZifyNat ZifyN.
From Verif Require Import Model.Base Model.Endian Model.Protocol Model.WebMaps Model.Streams
  Model.Environment Model.Multipart Model.Request Model.TimerExample
  Spec.EndianSpec Spec.WireSpec Spec.StreamSpec Spec.AddressSpec Spec.EnvironmentSpec Spec.RequestSpec Spec.PageSpec
  Spec.TimerExampleSpec
  Proofs.RequestProofs Proofs.RequestTextProofs Proofs.RequestBodyProofs Proofs.RequestLifeProofs Proofs.PageProofs
  Proofs.AgreeProofs.
Import ListNotations.
Local Open Scope N_scope.

Section Resume.
Variable vts : list N -> list N -> list N.
Variable junk : nat -> list N.
Variable http_time : list N -> Z.
Variable k : chars.
Context {U : Type}.
Variable A : application U.
Variable cfg : config.
Hypothesis Hi : c_id cfg < 65536.
Hypothesis HW : app_writes (real_char k) A.
Hypothesis HO : only_responds A.

Notation stream_do := (@stream_do k U cfg).
Notation stream_all := (@stream_all k U cfg).
Notation invoke := (@invoke k U A cfg).
Notation complete := (@complete k U A cfg).
Notation respond := (@respond k U A cfg).
Notation step := (@step vts junk http_time k U A cfg).
Notation handler := (@handler vts junk http_time k U A cfg).
Notation TI := (@TI k U cfg).
Notation full_text := (@full_text k U cfg).

Lemma only_plain : app_plain A.
Proof. destruct HO as (H & _). intros [] u; cbn; auto; apply H; intros; discriminate. Qed.

Lemma handler_open : forall ms st rest st', q_status st < 256 -> TI (q_ops st) st ->
  handler ms st = Done (false, rest, st') -> q_status st' < 256 /\ TI (q_ops st') st'.
Proof.
  induction ms as [|m ms IH]; intros st rest st' S T H; cbn [Request.handler] in H.
  - injection H as _ <-. auto.
  - apply run_bind_done in H as ([b s1] & E1 & H). cbn [fst snd] in H.
    pose proof (step_text vts junk http_time k A cfg m st b s1 Hi (proj2 HO) S HW T E1) as W. destruct b; [discriminate|].
    destruct W. eapply IH; eauto.
Qed.

Definition quiet (st : rq U) : Prop := flushed (q_ops st) -> w_pend (q_out st) = [].

Lemma all_flush : forall l h st st', TI h st -> Forall (fun x => op_chars (real_char k) (snd x)) l ->
  stream_all l st = Done st' -> (flushed h -> w_pend (q_out st) = []) -> flushed (h ++ l) -> w_pend (q_out st') = [].
Proof.
  intros l. induction l as [|x l IH]; intros h st st' T F H Q FL.
  - injection H as <-. rewrite app_nil_r in FL. auto.
  - inversion F; subst. cbn [Request.stream_all] in H.
    destruct (do_text k cfg x h st Hi T) as (s1 & E1 & C1 & T1 & P1 & P2); auto.
    rewrite E1 in H. cbn [run_bind] in H. eapply (IH (h ++ [x]) s1); eauto.
    + intros (pre & E). apply app_inj_tail in E as (_ & ->). cbn [fst snd] in P1. auto.
    + now rewrite <- app_assoc.
Qed.

Lemma respond_quiet : forall m st st', q_status st < 256 -> TI (q_ops st) st -> quiet st ->
  respond m st = Done (false, st') -> quiet st'.
Proof.
  intros m st st' S T Q H. unfold Request.respond, Request.invoke in H.
  pose proof (HW (CResponse (q_env st) m) (q_user st)) as W. unfold writes in W.
  destruct (a_call A (CResponse (q_env st) m) (q_user st)) as [[[u e] ops] b]. cbn [fst snd] in W.
  apply run_bind_done in H as ([b' s] & E & H). apply run_bind_done in E as (s1 & E & E').
  injection E' as <- <-. cbn [fst snd] in H.
  destruct b; [apply run_bind_done in H as (? & _ & H); discriminate|]. injection H as <-.
  pose proof (all_core k cfg _ _ _ E) as C. unfold core in C. cbn in C.
  assert (EO : q_ops s1 = q_ops st ++ ops) by congruence.
  intros F. rewrite EO in F. eapply (all_flush ops (q_ops st)); [| |exact E| |exact F]; auto.
Qed.

Definition went (ms : list message) (p : run (bool * rq U)) : run (bool * list message * rq U) :=
  run_bind p (fun p => if fst p then Done (true, ms, snd p) else handler ms (snd p)).

Lemma resume : forall ms m st ops u b rest, q_status st < 256 -> TI (q_ops st) st -> quiet st ->
  Forall (fun m => m_type m <> 0%Z) ms ->
  replies A (q_env st) (q_user st) (m :: ms) = (ops, u, b, rest) ->
  exists st', went ms (respond m st) = Done (b, rest, st') /\
    q_user st' = u /\ q_ops st' = q_ops st ++ ops /\ q_status st' = q_status st /\
    if b then full_text st' else TI (q_ops st') st' /\ quiet st'.
Proof.
  induction ms as [|m' ms IH]; intros m st ops u b rest S T Q F R.
  all: destruct (respond_text k A cfg m st Hi (proj2 HO) S HW T) as (s1 & E1 & C1 & D1); cbv zeta in *.
  all: pose proof (respond_quiet m st s1 S T Q) as Q1.
  all: cbn [replies] in R; unfold went; rewrite E1 in *; cbn [run_bind fst snd].
  all: unfold core, after_call, call_result in *.
  all: destruct (a_call A (CResponse (q_env st) m) (q_user st)) as [[[u1 e1] ops1] b1] eqn:EA; cbn [snd] in *.
  all: injection C1 as Cu Ce Cs Ct Cc Co.
  all: destruct b1.
  - injection R as <- <- <- <-. exists s1. split; [reflexivity|]. split; [exact Cu|]. split; [exact Co|]. split; [exact Ct|]. exact D1.
  - injection R as <- <- <- <-. exists s1. rewrite app_nil_r in *. cbn [Request.handler].
    split; [reflexivity|]. split; [exact Cu|]. split; [exact Co|]. split; [exact Ct|]. auto.
  - injection R as <- <- <- <-. exists s1. split; [reflexivity|]. split; [exact Cu|]. split; [exact Co|]. split; [exact Ct|]. exact D1.
  - inversion F; subst. clear F.
    destruct (replies A (q_env s1) (q_user s1) (m' :: ms)) as [[[ops2 u2] b2] rest2] eqn:R2.
    assert (R' : (ops1 ++ ops2, u2, b2, rest2) = (ops, u, b, rest)).
    { revert R. revert R2. cbn [replies]. intros ->. auto. }
    clear R. injection R' as <- <- <- <-.
    destruct (IH m' s1 ops2 u2 b2 rest2) as (s2 & G1 & G2 & G3 & G4 & G5); auto; [lia|].
    exists s2. split.
    + cbn [Request.handler]. unfold Request.step. destruct (Z.eqb_spec (m_type m') 0); [contradiction|]. exact G1.
    + split; [exact G2|]. split; [rewrite G3, Co; now rewrite app_assoc|]. split; [congruence|exact G5].
Qed.

Lemma silent : forall ms u b rest st, c_role cfg = 1 \/ c_role cfg = 2 -> handler ms (rq_init u) = Done (b, rest, st) ->
  (forall c, In c (q_calls st) -> exists e n, c = CIn e n) -> q_ops st = [].
Proof.
  intros ms u b rest st R H.
  refine (handler_inv vts junk http_time k cfg A (fun s => (forall c, In c (q_calls s) -> exists e n, c = CIn e n) -> q_ops s = [])
    _ _ _ _ _ _ _ _ _ _ H _); auto.
  - intros c s r s' E X Y. unfold Request.invoke in E.
    assert (D : forall e n, c = CIn e n -> writes A c (q_user s) = []).
    { intros e n ->. unfold writes. now rewrite (only_plain (CIn e n) (q_user s)). }
    unfold writes in D. destruct (a_call A c (q_user s)) as [[[u1 e1] o1] r1]. cbn [fst snd] in D.
    apply run_bind_done in E as (s1 & E & E'). injection E' as _ <-.
    pose proof (all_core k cfg _ _ _ E) as C. unfold core in C. cbn in C. injection C as _ _ _ _ C5 C6.
    rewrite C6. rewrite C5 in Y. rewrite X.
    + destruct (Y c) as (e & n & EC); [apply in_app_iff; cbn; auto|]. now rewrite (D e n EC).
    + intros c' I. apply Y. apply in_app_iff. auto.
  - intros s s' E X Y. unfold Request.complete in E. destruct (a_good A (q_user s)) as [g1 g2].
    apply run_bind_done in E as (s1 & E1 & E). injection E as <-. apply (all_core k cfg) in E1.
    unfold core in E1. injection E1 as _ _ _ _ C5 C6. cbn [q_calls q_ops] in *. rewrite C6. apply X. now rewrite <- C5.
Qed.

Lemma resumed : forall address_of,
  (forall n, length (junk n) = n) ->
  (forall t a, address_text t a -> ~ compat_text t -> address_of t = a) ->
  forall u rs ms4 m4 bodies ms5 m5 cbs e2, c_role cfg = 1 \/ c_role cfg = 2 ->
  Forall2 params_message rs ms4 -> is_message 4 [] m4 -> Forall2 (is_message 5) bodies ms5 ->
  Forall (fun c => c <> []) bodies -> is_message 5 [] m5 ->
  let e0 := describe vts http_time address_of env_init (concat (map p_params rs)) in
  e_contentLength e0 <= c_maxPost cfg -> len (concat bodies) <= e_contentLength e0 ->
  parsePostBuffer vts junk (set_postBuffer (concat bodies) e0) = Done (true, e2) ->
  Forall (fun m => m_type m <> 0%Z) cbs ->
  forall ops u' b rest, replies A (set_postBuffer [] e2) u (m5 :: cbs) = (ops, u', b, rest) ->
  exists st, handler (ms4 ++ [m4] ++ ms5 ++ [m5] ++ cbs) (rq_init u) = Done (b, rest, st) /\
    q_user st = u' /\ exists recs,
    if b then exists r, q_sent st = map (fun r => (r, false)) recs ++ [(r, c_kill cfg)] /\ is_end (c_id cfg) 0 r /\
      stream_text 6 (c_id cfg) recs (text_of (encode k) E_NONE (ops_on false ops)) /\
      stream_text 7 (c_id cfg) recs (text_of (encode k) E_NONE (ops_on true ops))
    else q_sent st = map (fun r => (r, false)) recs /\ exists t later, stream_text 6 (c_id cfg) recs t /\
      t ++ later = text_of (encode k) E_NONE (ops_on false ops) /\ (flushed ops -> later = []).
Proof.
  intros ao J AD u rs ms4 m4 bodies ms5 m5 cbs e2 HR F4 M4 F5 NE M5 e0 L1 L2 PP FC ops u' b rest R.
  pose proof only_plain as HP. pose proof (real_any k A HW) as HA.
  destruct (whole_before_end vts junk http_time k A cfg ao J AD u rs ms4 m4 bodies ms5 Hi HA (plain_tame A HP) HR F4 M4 F5 NE L1 L2)
    as (st & calls & E & B & S & T & P & K & I & PL). destruct (PL HP) as (QE & QU). fold e0 in QE.
  assert (CS : forall c, In c calls -> exists e n, c = CIn e n).
  { clear - I. induction I; cbn [In]; [tauto|]. intros x [<-|X]; eauto. }
  rewrite <- K in CS. pose proof (silent _ _ _ _ _ HR E CS) as QO.
  destruct (handler_open _ (rq_init u) _ _ ltac:(reflexivity)
    ltac:(exists []; split; [reflexivity|]; assert (NP : encode k [] = []) by (destruct k; reflexivity);
      split; (split; [constructor|split; [reflexivity|split; [cbn; lia|split; [reflexivity|split; [reflexivity|]]]]];
        exists []; split; [constructor|exact NP])) E) as (SS & TT).
  destruct (message_parts _ _ _ M5) as (Ty & R1 & R4 & (z & R7) & _ & _).
  replace (ms4 ++ [m4] ++ ms5 ++ [m5] ++ cbs) with ((ms4 ++ [m4] ++ ms5) ++ m5 :: cbs) by now rewrite <- !app_assoc.
  rewrite handler_app, E. cbn [run_bind Request.handler].
  unfold Request.step. rewrite Ty, R1, R4, R7, S. cbn [Z.eqb].
  change (5 =? T_ABORT_REQUEST) with false. change (negb (5 =? 5)) with false.
  change (5 =? T_PARAMS) with false. change (5 =? T_IN) with true. change (len [] =? 0) with true. cbv iota.
  destruct (invoke_text k A cfg (CInProcessor (q_env st)) st Hi HW TT) as (s1 & E1 & T1 & C1).
  rewrite E1. cbn [run_bind fst snd].
  pose proof (HP (CInProcessor (q_env st)) (q_user st)) as PX. cbn beta iota in PX.
  unfold core, after_call in C1. unfold call_result. rewrite PX in C1 |- *. cbn [default_call snd] in *.
  injection C1 as Cu Ce Cs Ct Cc Co. cbv iota. rewrite Ce, QE, PP. cbn [run_bind fst snd].
  match goal with |- context [Request.respond _ _ _ _ ?s] => set (s3 := s) end.
  rewrite QO in Co. cbn [app] in Co.
  destruct (resume cbs m5 s3 ops u' b rest) as (s4 & G1 & G2 & G3 & G4 & G5); auto.
  - change (q_status s1 < 256). lia.
  - intros ([|? ?] & X); change (q_ops s3) with (q_ops s1) in X; rewrite Co in X; discriminate.
  - change (q_user s3) with (q_user s1). rewrite Cu, QU. exact R.
  - exists s4. split; [exact G1|]. split; [exact G2|].
    change (q_ops s3) with (q_ops s1) in G3. rewrite Co in G3. cbn [app] in G3.
    change (q_status s3) with (q_status s1) in G4. rewrite Ct, T in G4.
    destruct b.
    + destruct G5 as (recs & r & X1 & X2 & X3 & X4). exists recs, r. rewrite G3, G4 in *. auto.
    + destruct G5 as ((recs & X1 & (_ & _ & _ & _ & _ & x & X2 & X3) & _) & X4). exists recs. split; [exact X1|].
      rewrite G3 in X3. exists x, (encode k (w_pend (q_out s4))). split; [exact X2|]. split; [exact X3|].
      intros F. unfold quiet in X4. rewrite G3 in X4. rewrite (X4 F). destruct k; reflexivity.
Qed.
End Resume.
