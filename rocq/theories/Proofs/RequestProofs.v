(** Proofs about [Request]. *)
From Coq Require Import String List NArith ZArith Bool Lia ZifyBool ZifyNat ZifyN.
From Verif Require Import Model.Base Model.Endian Model.Protocol Model.WebMaps Model.Streams
  Model.Environment Model.Multipart Model.Request
  Spec.EndianSpec Spec.WireSpec Spec.StreamSpec Spec.EnvironmentSpec Spec.RequestSpec
  Proofs.EndianProofs Proofs.StreamProofs.
Import ListNotations.
Local Open Scope N_scope.

Lemma run_bind_done : forall A B (r : run A) (f : A -> run B) b,
  run_bind r f = Done b -> exists a, r = Done a /\ f a = Done b.
Proof. intros A B [a| |] f b H; cbn in H; try discriminate. eauto. Qed.

(** ** Stream buffers between operations *)

Definition sbase (k : chars) (w : wsb records) : Prop :=
  w_cap w = s_buffSize /\ (length (w_pend w) <= s_buffSize)%nat /\ w_dev w = [] /\
  match k with Narrow => bytes_ok (w_pend w) | Wide _ => True end.

Lemma sbase_fresh : forall k, sbase k (fresh s_buffSize).
Proof. intros k. repeat split; cbn; auto; [lia|]. destruct k; constructor. Qed.

Lemma emitted_all : forall type id dev t, emitted type id dev t ->
  Forall (fun r => exists c, carries type id r c) dev.
Proof. intros type id dev t (cs & F & _). induction F; constructor; eauto. Qed.

Lemma char_eof : forall c, is_byte c -> (fun _ : N => false) c = false.
Proof. auto. Qed.

Definition idl (s : list N) : list N := s.
Lemma idl_app : forall a b, idl (a ++ b) = idl a ++ idl b.
Proof. auto. Qed.

Lemma op_sbase : forall k type id o w, type < 256 -> id < 65536 -> sbase k w ->
  op_chars (any_char k) o ->
  exists w', stream_op (eb k type id) (eof_of k) type id o w = Done w' /\
    sbase k (mkW (w_pend w') (w_cap w') (w_enc w') []) /\
    Forall (fun r => exists c, carries type id r c) (w_dev w').
Proof.
  intros k type id o w Ht Hi (C & L & D & B) HO. destruct k as [|strict]; cbn [eb eof_of].
  - destruct (op_step (emptyBuffer_char type id) (fun _ => false) type id idl is_byte Ht Hi
       idl_app escape1_bytes char_eof (eb_char_ok type id Ht Hi) o w (w_pend w))
      as (w1 & E1 & [G1 C1 L1 (u & E & HU)] & _ & _).
    + split; auto; [lia|]. exists []. rewrite D. split; [apply emitted_nil|reflexivity].
    + destruct o; exact HO.
    + exists w1. split; [exact E1|]. split; [|now apply emitted_all with u].
      repeat split; cbn; auto. lia.
  - destruct (op_winv type id strict Ht Hi o w) as (w1 & E1 & C1 & L1 & F1).
    + repeat split; auto. rewrite D. constructor.
    + destruct o; exact HO.
    + exists w1. split; [exact E1|]. split; [|exact F1]. repeat split; auto.
Qed.

Section Req.
Variable vts : list N -> list N -> list N.
Variable junk : nat -> list N.
Variable http_time : list N -> Z.
Variable k : chars.
Context {U : Type}.
Variable A : application U.
Variable cfg : config.

Notation stream_do := (@stream_do k U cfg).
Notation stream_all := (@stream_all k U cfg).
Notation invoke := (@invoke k U A cfg).
Notation complete := (@complete k U A cfg).
Notation fail_with := (@fail_with k U A cfg).
Notation respond := (@respond k U A cfg).
Notation step := (@step vts junk http_time k U A cfg).
Notation handler := (@handler vts junk http_time k U A cfg).

(** The part of the state that streams do not touch. *)
Definition core (st : rq U) := (q_user st, q_env st, q_state st, q_status st, q_calls st, q_ops st).

Definition streams (new : list (list obyte)) : list (list obyte * bool) :=
  map (fun r => (r, false)) new.

Definition base (st : rq U) : Prop := sbase k (q_out st) /\ sbase k (q_err st).

Lemma do_base : forall x st, c_id cfg < 65536 -> base st -> op_chars (any_char k) (snd x) ->
  exists st' new, stream_do x st = Done st' /\ base st' /\ core st' = core st /\
    q_sent st' = q_sent st ++ streams new /\ Forall (is_stream (c_id cfg)) new.
Proof.
  intros [b o] st Hi (B1 & B2) HO. unfold Request.stream_do. cbn [fst snd] in *.
  destruct (op_sbase k (if b then T_ERR else T_OUT) (c_id cfg) o (if b then q_err st else q_out st))
    as (w & E & S & F); auto.
  { destruct b; reflexivity. } { destruct b; auto. }
  rewrite E. eexists. exists (w_dev w). split; [reflexivity|].
  split; [destruct b; split; auto|]. split; [destruct b; reflexivity|]. split; [destruct b; reflexivity|].
  eapply Forall_impl; [|exact F]. intros r (c & Hc).
  exists (if b then T_ERR else T_OUT), c. split; auto. destruct b; auto.
Qed.

Lemma streams_app : forall a b, streams (a ++ b) = streams a ++ streams b.
Proof. intros. apply map_app. Qed.

Lemma all_base : forall l st, c_id cfg < 65536 -> base st ->
  Forall (fun x => op_chars (any_char k) (snd x)) l ->
  exists st' new, stream_all l st = Done st' /\ base st' /\ core st' = core st /\
    q_sent st' = q_sent st ++ streams new /\ Forall (is_stream (c_id cfg)) new.
Proof.
  induction l as [|x l IH]; intros st Hi B F.
  - exists st, []. cbn. rewrite app_nil_r. auto.
  - inversion F; subst. destruct (do_base x st) as (s1 & n1 & E1 & B1 & C1 & Q1 & F1); auto.
    destruct (IH s1) as (s2 & n2 & E2 & B2 & C2 & Q2 & F2); auto.
    exists s2, (n1 ++ n2). cbn [Request.stream_all]. rewrite E1. cbn [run_bind].
    split; [exact E2|]. split; [exact B2|]. split; [congruence|].
    rewrite streams_app, app_assoc, Q2, Q1. split; auto. apply Forall_app. auto.
Qed.

Definition after_call (c : call) (st : rq U) :=
  let '(u, e, ops, b) := a_call A c (q_user st) in
  (u, e, q_state st, q_status st, q_calls st ++ [c], q_ops st ++ ops).
Definition call_result (c : call) (st : rq U) : bool := snd (a_call A c (q_user st)).

Lemma invoke_base : forall c st, c_id cfg < 65536 -> app_writes (any_char k) A -> base st ->
  exists st' new, invoke c st = Done (call_result c st, st') /\ base st' /\
    core st' = after_call c st /\
    q_sent st' = q_sent st ++ streams new /\ Forall (is_stream (c_id cfg)) new.
Proof.
  intros c st Hi HA B. unfold Request.invoke, after_call, call_result.
  specialize (HA c (q_user st)). unfold writes in HA.
  destruct (a_call A c (q_user st)) as [[[u e] ops] b]. cbn [fst snd] in HA.
  destruct (all_base ops (mkRq u e (q_state st) (q_status st) (q_out st) (q_err st) (q_sent st)
                                 (q_calls st ++ [c]) (q_ops st ++ ops)))
    as (s1 & n1 & E1 & B1 & C1 & Q1 & F1); auto.
  rewrite E1. cbn [run_bind]. exists s1, n1. auto.
Qed.

Lemma complete_base : forall st, c_id cfg < 65536 -> base st ->
  exists st' new, complete st = Done st' /\ base st' /\ core st' = core st /\
    q_sent st' = q_sent st ++ streams new ++ [(end_record (c_id cfg) (q_status st), c_kill cfg)] /\
    Forall (is_stream (c_id cfg)) new.
Proof.
  intros st Hi B. unfold Request.complete. destruct (a_good A (q_user st)) as [og eg].
  edestruct (all_base) as (s1 & n1 & E1 & B1 & C1 & Q1 & F1);
    [exact Hi|exact B| |rewrite E1].
  { destruct og, eg; repeat constructor. }
  cbn [run_bind]. eexists. exists n1. split; [reflexivity|].
  assert (CS : q_status s1 = q_status st) by (unfold core in C1; congruence).
  split; [exact B1|]. split; [exact C1|]. cbn [q_sent]. rewrite Q1, CS, <- app_assoc. auto.
Qed.

(** The four ways an iteration can end, seen from outside. *)
Definition ended (st st' : rq U) (status : N) (calls : list call) : Prop :=
  exists new, q_sent st' = q_sent st ++ streams new ++ [(end_record (c_id cfg) status, c_kill cfg)] /\
    Forall (is_stream (c_id cfg)) new /\ q_calls st' = q_calls st ++ calls.

Definition went_on (st st' : rq U) (calls : list call) : Prop :=
  exists new, q_sent st' = q_sent st ++ streams new /\
    Forall (is_stream (c_id cfg)) new /\ q_calls st' = q_calls st ++ calls.

Lemma fail_base : forall c st, c_id cfg < 65536 -> app_writes (any_char k) A -> base st ->
  exists st', fail_with c st = Done (true, st') /\ base st' /\ core st' = after_call c st /\
    ended st st' (q_status st) [c].
Proof.
  intros c st Hi HA B. unfold Request.fail_with.
  destruct (invoke_base c st) as (s1 & n1 & E1 & B1 & C1 & Q1 & F1); auto.
  rewrite E1. cbn [run_bind snd].
  destruct (complete_base s1) as (s2 & n2 & E2 & B2 & C2 & Q2 & F2); auto.
  rewrite E2. exists s2. split; [reflexivity|]. split; [exact B2|]. split; [congruence|].
  assert (CC : q_status s1 = q_status st /\ q_calls s2 = q_calls st ++ [c]).
  { unfold core, after_call in *. destruct (a_call A c (q_user st)) as [[[u e] ops] b]. split; congruence. }
  destruct CC as (CC1 & CC2). exists (n1 ++ n2). rewrite Q2, Q1, CC1, streams_app, <- !app_assoc.
  split; [reflexivity|]. split; [apply Forall_app; auto|exact CC2].
Qed.

Lemma respond_base : forall m st, c_id cfg < 65536 -> app_writes (any_char k) A -> base st ->
  let c := CResponse (q_env st) m in
  exists st', respond m st = Done (call_result c st, st') /\ base st' /\ core st' = after_call c st /\
    if call_result c st then ended st st' (q_status st) [c] else went_on st st' [c].
Proof.
  intros m st Hi HA B c. unfold Request.respond. fold c.
  destruct (invoke_base c st) as (s1 & n1 & E1 & B1 & C1 & Q1 & F1); auto.
  rewrite E1. cbn [run_bind fst snd]. destruct (call_result c st).
  - destruct (complete_base s1) as (s2 & n2 & E2 & B2 & C2 & Q2 & F2); auto.
    rewrite E2. exists s2. split; [reflexivity|]. split; [exact B2|]. split; [congruence|].
    assert (CC : q_status s1 = q_status st /\ q_calls s2 = q_calls st ++ [c]).
    { unfold core, after_call in *. destruct (a_call A c (q_user st)) as [[[u e] ops] b]. split; congruence. }
    destruct CC as (CC1 & CC2). exists (n1 ++ n2). rewrite Q2, Q1, CC1, streams_app, <- !app_assoc.
    split; [reflexivity|]. split; [apply Forall_app; auto|exact CC2].
  - exists s1. split; [reflexivity|]. split; [exact B1|]. split; [exact C1|].
    exists n1. split; [exact Q1|]. split; [exact F1|].
    unfold core, after_call in *. destruct (a_call A c (q_user st)) as [[[u e] ops] b]. congruence.
Qed.

(** ** One message *)

Lemma step_sent : forall m st b st', c_id cfg < 65536 -> app_writes (any_char k) A -> base st ->
  step m st = Done (b, st') ->
  base st' /\ (q_status st' = q_status st \/ q_status st' = 3) /\
  if b then exists calls, ended st st' (q_status st') calls
  else q_status st' = q_status st /\ exists calls, went_on st st' calls.
Proof.
  intros m st b st' Hi HA B H.
  assert (AC : forall c s, exists u e ops, after_call c s = (u, e, q_state s, q_status s, q_calls s ++ [c], q_ops s ++ ops)).
  { intros c s. unfold after_call. destruct (a_call A c (q_user s)) as [[[u e] ops] r]. eauto. }
  assert (RS : forall st1 s calls1, base st1 -> q_status st1 = q_status st -> went_on st st1 calls1 ->
     respond m st1 = Done (b, s) ->
     base s /\ (q_status s = q_status st \/ q_status s = 3) /\
     if b then exists calls, ended st s (q_status s) calls
     else q_status s = q_status st /\ exists calls, went_on st s calls).
  { intros st1 s calls1 B1 S1 (n1 & Q1 & F1 & C1) R.
    destruct (respond_base m st1 Hi HA B1) as (s1 & E1 & BB & CC & W). rewrite E1 in R.
    injection R as <- <-. destruct (AC (CResponse (q_env st1) m) st1) as (u & e & ops & AE).
    assert (SS : q_status s1 = q_status st).
    { rewrite AE in CC. unfold core in CC. congruence. }
    split; auto. split; auto. destruct (call_result _ st1).
    - destruct W as (n2 & Q2 & F2 & C2). exists (calls1 ++ [CResponse (q_env st1) m]), (n1 ++ n2).
      rewrite Q2, Q1, streams_app, <- !app_assoc, SS, S1. split; auto.
      split; [apply Forall_app; auto|]. rewrite C2, C1. now rewrite <- app_assoc.
    - split; auto. destruct W as (n2 & Q2 & F2 & C2). exists (calls1 ++ [CResponse (q_env st1) m]), (n1 ++ n2).
      rewrite Q2, Q1, streams_app, <- !app_assoc. split; auto.
      split; [apply Forall_app; auto|]. rewrite C2, C1. now rewrite <- app_assoc. }
  assert (FW : forall c st1 s calls1, base st1 -> (q_status st1 = q_status st \/ q_status st1 = 3) ->
     went_on st st1 calls1 -> fail_with c st1 = Done (b, s) ->
     base s /\ (q_status s = q_status st \/ q_status s = 3) /\
     if b then exists calls, ended st s (q_status s) calls
     else q_status s = q_status st /\ exists calls, went_on st s calls).
  { intros c st1 s calls1 B1 S1 (n1 & Q1 & F1 & C1) R.
    destruct (fail_base c st1 Hi HA B1) as (s1 & E1 & BB & CC & (n2 & Q2 & F2 & C2)). rewrite E1 in R.
    injection R as <- <-. destruct (AC c st1) as (u & e & ops & AE).
    assert (SS : q_status s1 = q_status st1).
    { rewrite AE in CC. unfold core in CC. congruence. }
    split; auto. split; [rewrite SS; auto|]. exists (calls1 ++ [c]), (n1 ++ n2).
    rewrite Q2, Q1, streams_app, <- !app_assoc, SS. split; auto.
    split; [apply Forall_app; auto|]. rewrite C2, C1. now rewrite <- app_assoc. }
  assert (W0 : forall s, q_sent s = q_sent st -> q_calls s = q_calls st -> went_on st s []).
  { intros s Q C. exists []. cbn. now rewrite !app_nil_r. }
  unfold Request.step in H. destruct (m_type m =? 0)%Z.
  2:{ eapply RS; eauto. }
  destruct (rd (m_data m) 1) as [type|]; [|discriminate].
  destruct (from16 _) as [cl|]; [|discriminate].
  destruct (rd (m_data m) 7) as [z|]; [|discriminate].
  destruct (type =? T_ABORT_REQUEST).
  { apply run_bind_done in H as (s1 & E1 & H). injection H as <- <-.
    destruct (complete_base st Hi B) as (s2 & n2 & E2 & B2 & C2 & Q2 & F2).
    rewrite E1 in E2. injection E2 as <-. unfold core in C2.
    assert (SS : q_status s1 = q_status st) by congruence.
    split; auto. split; auto. exists [], n2. rewrite SS, app_nil_r. split; auto. split; auto. congruence. }
  destruct (negb (type =? q_state st)). { eapply FW; eauto. }
  destruct (q_state st =? T_PARAMS).
  - destruct (negb _). { eapply FW with (st1 := set_status UNKNOWN_ROLE st) (calls1 := []); eauto. }
    destruct (cl =? 0).
    + destruct (_ <? _). { eapply FW; eauto. }
      injection H as <- <-. split; auto. split; auto. split; auto. exists []. now apply W0.
    + apply run_bind_done in H as (e & _ & H). injection H as <- <-.
      split; auto. split; auto. split; auto. exists []. now apply W0.
  - destruct (q_state st =? T_IN); [|eapply FW; eauto].
    destruct (cl =? 0).
    + apply run_bind_done in H as (p & E1 & H).
      destruct (invoke_base (CInProcessor (q_env st)) st Hi HA B) as (s1 & n1 & E2 & B1 & C1 & Q1 & F1).
      rewrite E1 in E2. injection E2 as ->. cbn [fst snd] in H.
      destruct (AC (CInProcessor (q_env st)) st) as (u & e & ops & AE).
      rewrite AE in C1. unfold core in C1. injection C1 as Cu Ce Cs Ct Cc Co.
      assert (W1 : went_on st s1 [CInProcessor (q_env st)]) by (exists n1; auto).
      destruct (call_result _ _).
      * eapply RS; [| | |exact H]; [exact B1|exact Ct|exact W1].
      * apply run_bind_done in H as ([r e1] & _ & H). cbn [fst snd] in H. destruct r.
        -- eapply RS; [| | |exact H]; [exact B1|exact Ct|exact W1].
        -- eapply FW; [| | |exact H]; [exact B1|left; exact Ct|exact W1].
    + destruct (_ <? _). { eapply FW; eauto. }
      destruct (_ <? _); [discriminate|].
      apply run_bind_done in H as (p & E1 & H). injection H as <- <-.
      match type of E1 with Request.invoke _ _ _ ?c ?s = _ =>
        destruct (invoke_base c s Hi HA B) as (s1 & n1 & E2 & B1 & C1 & Q1 & F1);
        rewrite E1 in E2; injection E2 as ->; destruct (AC c s) as (u & e & ops & AE) end.
      rewrite AE in C1. unfold core in C1. injection C1 as Cu Ce Cs Ct Cc Co.
      cbn [snd]. split; auto. split; auto. split; auto. eexists. exists n1. split; [exact Q1|]. split; [auto|].
      exact Cc.
Qed.

Lemma handler_sent : forall ms st done rest st', c_id cfg < 65536 -> app_writes (any_char k) A -> base st ->
  handler ms st = Done (done, rest, st') ->
  base st' /\ (q_status st' = q_status st \/ q_status st' = 3) /\
  exists new, Forall (is_stream (c_id cfg)) new /\
    q_sent st' = q_sent st ++ streams new
      ++ (if done then [(end_record (c_id cfg) (q_status st'), c_kill cfg)] else []).
Proof.
  induction ms as [|m ms IH]; intros st done rest st' Hi HA B H; cbn [Request.handler] in H.
  - injection H as <- <- <-. split; auto. split; auto. exists []. cbn. now rewrite app_nil_r.
  - apply run_bind_done in H as ([b s1] & E1 & H). cbn [fst snd] in H.
    destruct (step_sent m st b s1 Hi HA B E1) as (B1 & S1 & W). destruct b.
    + injection H as <- <- <-. split; auto. split; auto.
      destruct W as (calls & new & Q & F & _). exists new. auto.
    + destruct W as (S2 & calls & new & Q & F & _).
      destruct (IH s1 done rest st' Hi HA B1 H) as (B2 & S3 & new2 & F2 & Q2).
      split; auto. split; [rewrite <- S2; auto|]. exists (new ++ new2). split; [apply Forall_app; auto|].
      rewrite Q2, Q, streams_app, <- !app_assoc. reflexivity.
Qed.

Lemma handler_app : forall ms1 ms2 st,
  handler (ms1 ++ ms2) st
  = run_bind (handler ms1 st) (fun p => let '(done, rest, st') := p in
      if done then Done (true, rest ++ ms2, st') else handler ms2 st').
Proof.
  induction ms1 as [|m ms1 IH]; intros ms2 st; cbn [app Request.handler run_bind]; [reflexivity|].
  destruct (step m st) as [[b s1]| |]; cbn [run_bind fst snd]; [|reflexivity|reflexivity].
  destruct b; [reflexivity|]. apply IH.
Qed.

End Req.

Lemma end_record_is : forall id status, id < 65536 -> status < 256 -> is_end id status (end_record id status).
Proof.
  intros id status Hi Hs. unfold end_record.
  assert (E : forall bytes, may_be (header_bytes T_END_REQUEST id 8 0 ++ known (to32 0) ++ known [status] ++ repeat None 3) bytes ->
     exists r x y z, bytes = record_bytes 3 id [0; 0; 0; 0; status; x; y; z] [] r).
  { intros bytes H. apply may_be_app in H as (h & b & -> & Hh & H).
    apply may_be_app in H as (a & b2 & -> & Ha & H). apply may_be_known in Ha as ->.
    apply may_be_app in H as (s & t & -> & Hb & H). apply may_be_known in Hb as ->.
    unfold header_bytes in Hh. apply may_be_app in Hh as (h1 & h2 & -> & Hh1 & Hh2).
    apply may_be_known in Hh1 as ->. apply (may_be_none 1) in Hh2. apply may_be_none in H.
    destruct h2 as [|r [|]]; try discriminate. destruct t as [|x [|y [|z [|]]]]; try discriminate.
    exists r, x, y, z. unfold record_bytes, trunc. rewrite (N.mod_small id) by exact Hi.
    rewrite to16_digits by exact Hi. reflexivity. }
  split.
  - exists ([1; 3] ++ be_digits 2 id ++ [0; 8; 0; 0; 0; 0; 0; 0; status; 0; 0; 0]).
    unfold header_bytes, trunc. rewrite (N.mod_small id) by exact Hi. rewrite to16_digits by exact Hi.
    assert (D : bytes_ok (be_digits 2 id)) by apply be_digits_bytes.
    pose proof (be_digits_length 2 id) as L. destruct (be_digits 2 id) as [|a [|b [|]]]; try discriminate.
    inversion D as [|? ? D1 D2]; subst. inversion D2; subst.
    repeat (apply Forall2_cons; [split; [assumption || reflexivity || (cbv; reflexivity)|exact I || reflexivity]|]).
    apply Forall2_nil.
  - intros bytes H. apply E in H as (r & x & y & z & ->). exists x, y, z.
    split; [vm_compute; discriminate|]. exists [], r. split; [vm_compute; discriminate|reflexivity].
Qed.

(** ** C23 *)
Lemma request_sent : forall vts junk http_time k (U : Type) (A : application U) cfg u ms done rest st,
  c_id cfg < 65536 -> app_writes (any_char k) A ->
  handler vts junk http_time k A cfg ms (rq_init u) = Done (done, rest, st) ->
  exists out, Forall (is_stream (c_id cfg)) out /\
    if done then exists r status, (status = 0 \/ status = 3) /\ is_end (c_id cfg) status r /\
                  q_sent st = map (fun r => (r, false)) out ++ [(r, c_kill cfg)]
    else q_sent st = map (fun r => (r, false)) out.
Proof.
  intros vts junk http_time k U A cfg u ms done rest st Hi HA H.
  destruct (handler_sent vts junk http_time k A cfg ms (rq_init u) done rest st Hi HA) as (_ & S & new & F & Q).
  { split; apply sbase_fresh. } { exact H. }
  exists new. split; auto. cbn [q_sent rq_init app] in Q. fold (streams new). destruct done.
  - eexists. exists (q_status st). split; [exact S|]. split; [|exact Q].
    apply end_record_is; auto. destruct S as [-> | ->]; reflexivity.
  - now rewrite app_nil_r in Q.
Qed.
