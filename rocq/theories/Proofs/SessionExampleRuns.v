(** Visits of the sessions example that follow each other. *)
From Coq Require Import String List NArith ZArith Bool Lia ZifyBool ZifyNat ZifyN.
From Verif Require Import Model.Base Model.HttpCodec Model.WebMaps Model.Streams Model.Environment Model.Sessions
  Model.Examples Model.SessionExample Spec.EscapeSpec Spec.Base64Spec Spec.StreamSpec Spec.EnvironmentSpec
  Spec.SessionSpec Spec.SessionExampleSpec
  Proofs.Base64Proofs Proofs.UrlProofs Proofs.SessionProofs Proofs.ExampleProofs Proofs.SessionExampleProofs.
Import ListNotations.
Local Open Scope N_scope.

Section Runs.
Variable dec : N -> list N.
Variable expires : Z -> list N.
Notation response := (ses_response true dec expires).

Lemma alive_none : forall keep l e v, first_named (lit "sid") (e_cookies e) = None -> alive keep l e v = None.
Proof. intros keep l e v H. unfold alive. now rewrite H. Qed.

Lemma nondec_split : forall a b t, nondecreasing t (a ++ b) -> nondecreasing t a.
Proof. intros a b t H. now apply nondec_app in H. Qed.

Lemma login_visit : forall keep t0 cs e1 v1 o1 o2 ops1 st1,
  Forall real_call (cs ++ o1 ++ o2) -> real_call (CGenerate (v_draws v1) []) ->
  nondecreasing t0 (flat_map times cs ++ visit_times v1) ->
  first_named (lit "sid") (e_cookies e1) = None -> asks "login" e1 ->
  response e1 v1 o1 o2 (from keep t0 cs) = Some (ops1, st1) ->
  exists id t, In (id, t) (v_draws v1) /\
    shows dec expires ops1 st1 (fun x n => in_page (url_escape (b64 id)) x id (submitted e1) n) /\
    forall cs2 fs1 fs2 e2 v2 p1 p2 ops2 st2,
    Forall real_call cs2 -> real_call (CGenerate (v_draws v2) []) -> Forall (elsewhere id) (o2 ++ cs2) ->
    nondecreasing t0 (flat_map times (cs ++ o1 ++ [CGenerate (v_draws v1) (submitted e1)] ++ o2 ++ cs2) ++ visit_times v2) ->
    (v_now v2 - keep <= t)%Z ->
    Forall (fun f => bytes_ok (fst f) /\ bytes_ok (snd f)) (fs1 ++ fs2) -> Forall (fun f => fst f <> lit "sid") fs1 ->
    e_cookies e2 = text_fields (fun b _ => b) (lit "; ") (form_encode (lit "; ") (fs1 ++ (lit "sid", b64 id) :: fs2)) ->
    length (v_memory v2) = 15%nat -> ~ asks "logout" e2 ->
    response e2 v2 p1 p2 (others cs2 st1) = Some (ops2, st2) ->
    shows dec expires ops2 st2 (fun x n => in_page (url_escape (b64 id)) x id (submitted e1) n).
Proof.
  intros keep t0 cs e1 v1 o1 o2 ops1 st1 RC RV HT HC HA H.
  apply Forall_app in RC as [RC RC']. apply Forall_app in RC' as [RC1 RC2].
  pose proof (answer dec expires keep t0 cs e1 v1 o1 o2 ops1 st1 RC RV HT H) as A.
  rewrite (alive_none keep (fst (from keep t0 cs)) e1 v1 HC) in A. destruct A as [A _].
  destruct (A HA) as (id & t & I & SH & ST & G). exists id, t. split; [exact I|]. split; [exact SH|].
  intros cs2 fs1 fs2 e2 v2 p1 p2 ops2 st2 RC3 RV2 EL HT2 HN FB FN EC LM NL H2.
  assert (LU : looks_up e1 v1 = []) by (unfold looks_up; now rewrite HC).
  rewrite LU in ST, G. cbn [app] in ST, G.
  set (gen := CGenerate (v_draws v1) (submitted e1)) in *.
  assert (RI : real_id id). { cbn in RV. rewrite Forall_forall in RV. apply (RV _ I). }
  rewrite ST, <- from_app in H2.
  replace ((cs ++ o1 ++ gen :: o2) ++ cs2) with (cs ++ o1 ++ [gen] ++ o2 ++ cs2) in H2
    by (rewrite <- !app_assoc; reflexivity).
  set (all := cs ++ o1 ++ [gen] ++ o2 ++ cs2) in *.
  assert (RALL : Forall real_call all).
  { unfold all. repeat (apply Forall_app; split; auto). }
  assert (L0 : last_use keep (fst (from keep t0 (cs ++ o1 ++ [gen]))) id = Some (submitted e1, t)).
  { rewrite app_assoc, log_one. rewrite (proj2 (use_run _ _)) in G. rewrite G.
    cbn [last_use gen]. now rewrite SessionProofs.leb_refl. }
  assert (E : all = (cs ++ o1 ++ [gen]) ++ o2 ++ cs2) by (unfold all; rewrite <- !app_assoc; reflexivity).
  assert (L : last_use keep (fst (from keep t0 all)) id = Some (submitted e1, t)).
  { rewrite E. eapply lives with (now := v_now v2); eauto. rewrite <- E.
    change (visit_times v2) with ([v_now v2] ++ [v_tc v2; v_tr v2]) in HT2. rewrite app_assoc in HT2.
    now apply nondec_split in HT2. }
  pose proof (answer dec expires keep t0 all e2 v2 p1 p2 ops2 st2 RALL RV2 HT2 H2) as B.
  assert (AL : alive keep (fst (from keep t0 all)) e2 v2 = Some (b64 id, id, submitted e1)).
  { unfold alive. rewrite EC, cookie_back by assumption.
    rewrite <- (app_nil_r (b64 id)) at 1. rewrite sid_back by assumption. rewrite L.
    destruct (Z.leb_spec (v_now v2 - keep) t); [|lia]. rewrite <- (app_nil_r (b64 id)) at 2.
    now rewrite sid_back by assumption. }
  rewrite AL in B. now apply B.
Qed.

Lemma dead : forall keep t0 cs2 cs id, last_use keep (fst (from keep t0 cs)) id = None -> Forall (not_drawn id) cs2 ->
  last_use keep (fst (from keep t0 (cs ++ cs2))) id = None.
Proof.
  intros keep t0 cs2. induction cs2 as [|c cs2 IH] using rev_ind; intros cs id L F; [now rewrite app_nil_r|].
  apply Forall_app in F as [F1 F2]. inversion F2 as [|? ? E _]; subst. specialize (IH cs id L F1).
  rewrite app_assoc, log_one. destruct c as [draws data|n1 tc tr i|i]; cbn [Sessions.step].
  - destruct (generate draws data _) as [[i s']|] eqn:G; cbn [fst last_use]; [|exact IH].
    destruct (list_eqb i id) eqn:X; [|exact IH]. apply list_eqb_eq in X. subst i. exfalso.
    apply generate_facts in G as (_ & t & I & _). apply E. apply in_map_iff. exists (id, t). auto.
  - destruct (get _ _ _ _ _) as [r s']. cbn [fst last_use]. rewrite IH. destruct (list_eqb i id); auto.
  - cbn [fst last_use]. destruct (list_eqb i id); auto.
Qed.

Lemma out_answer : forall keep t0 cs e v o1 o2 ops st,
  (forall text, first_named (lit "sid") (e_cookies e) = Some text ->
    last_use keep (fst (from keep t0 cs)) (sid_of text (v_memory v)) = None) ->
  ~ asks "login" e -> response e v o1 o2 (from keep t0 cs) = Some (ops, st) ->
  shows dec expires ops st (fun x n => out_page n).
Proof.
  intros keep t0 cs e v o1 o2 ops st HC NL H. unfold ses_response in H.
  set (F := match first_named (lit "sid") (e_cookies e) with
    | Some text =>
        let id := sid_of text (v_memory v) in
        match use (CGet (v_now v) (v_tc v) (v_tr v) id) (from keep t0 cs) with
        | (RGet (Some d), st1) => (Some (text, id, d), st1)
        | (_, st1) => (None, st1)
        end
    | None => (None, from keep t0 cs)
    end) in H.
  assert (EF : exists s1, F = (None, s1)).
  { subst F. destruct (first_named (lit "sid") (e_cookies e)) as [text|]; [|eauto]. cbv zeta.
    pose proof (lookup_sound keep t0 cs (v_now v) (v_tc v) (v_tr v) _ (HC _ eq_refl)) as L.
    destruct (use _ _) as [r st1]. cbn [fst] in L. subst r. eauto. }
  destruct EF as (s1 & EF). rewrite EF in H.
  destruct (match first_named (lit "cmd") (e_gets e) with Some c => list_eqb c (lit "login") | None => false end) eqn:C;
    apply asks_dec in C as [[C C']|[C C']]; try discriminate C'; [contradiction|].
  apply some_pair in H as [<- <-]. unfold shows. apply out_text.
Qed.

Lemma logout_visit : forall keep t0 cs e1 v1 o1 o2 ops1 st1 text id d,
  Forall real_call cs -> real_call (CGenerate (v_draws v1) []) ->
  nondecreasing t0 (flat_map times cs ++ visit_times v1) ->
  alive keep (fst (from keep t0 cs)) e1 v1 = Some (text, id, d) -> asks "logout" e1 ->
  response e1 v1 o1 o2 (from keep t0 cs) = Some (ops1, st1) ->
  shows dec expires ops1 st1 (fun x n => logout_page n) /\
  forall cs2 e2 v2 p1 p2 ops2 st2 text2, Forall (not_drawn id) (o2 ++ cs2) ->
    first_named (lit "sid") (e_cookies e2) = Some text2 -> sid_of text2 (v_memory v2) = id -> ~ asks "login" e2 ->
    response e2 v2 p1 p2 (others cs2 st1) = Some (ops2, st2) ->
    shows dec expires ops2 st2 (fun x n => out_page n).
Proof.
  intros keep t0 cs e1 v1 o1 o2 ops1 st1 text id d RC RV HT AL HA H.
  pose proof (answer dec expires keep t0 cs e1 v1 o1 o2 ops1 st1 RC RV HT H) as A. rewrite AL in A.
  destruct A as [A _]. destruct (A HA) as [SH ST]. split; [exact SH|].
  intros cs2 e2 v2 p1 p2 ops2 st2 text2 ND EC EI NL H2. rewrite ST, <- from_app in H2.
  eapply out_answer; [|exact NL|exact H2]. intros t X. rewrite EC in X. injection X as <-. rewrite EI.
  replace ((cs ++ looks_up e1 v1 ++ o1 ++ [CErase id] ++ o2) ++ cs2)
    with (((cs ++ looks_up e1 v1 ++ o1) ++ [CErase id]) ++ o2 ++ cs2) by (rewrite <- !app_assoc; reflexivity).
  apply dead; [|exact ND]. rewrite log_one. cbn [Sessions.step fst last_use]. now rewrite SessionProofs.leb_refl.
Qed.
End Runs.

Lemma cookie_sid : forall fs1 fs2 id memory, real_id id -> length memory = 15%nat ->
  Forall (fun f => bytes_ok (fst f) /\ bytes_ok (snd f)) (fs1 ++ fs2) -> Forall (fun f => fst f <> lit "sid") fs1 ->
  exists text, first_named (lit "sid") (text_fields (fun b _ => b) (lit "; ")
      (form_encode (lit "; ") (fs1 ++ (lit "sid", b64 id) :: fs2))) = Some text /\ sid_of text memory = id.
Proof.
  intros fs1 fs2 id memory R M F H. exists (b64 id). split; [now apply cookie_back|].
  rewrite <- (app_nil_r (b64 id)). now apply sid_back.
Qed.

(** ** Concrete visits *)
From Verif Require Import Spec.SessionExampleCases.

Lemma sx_id_real : real_id sx_id.
Proof. split; [|reflexivity]. repeat constructor. Qed.

Lemma put_lost : exists ops1 st1 ops2 st2,
  ses_response false sx_dec sx_expires sx_login (sx_visit 10 sx_zero) [] [] (from 100 0 []) = Some (ops1, st1) /\
  shows sx_dec sx_expires ops1 st1 (fun x n => in_page (lit "++++AQIDBAUGBwgJCgsM") x sx_id (lit "<x>") n) /\
  ses_response false sx_dec sx_expires (sx_with (lit "sid=++++AQIDBAUGBwgJCgsM")) (sx_visit 11 sx_zero) [] [] st1 = Some (ops2, st2) /\
  shows sx_dec sx_expires ops2 st2 (fun x n => out_page n).
Proof.
  eexists _, _, _, _. split; [vm_compute; reflexivity|]. split; [vm_compute; reflexivity|].
  split; [vm_compute; reflexivity|]. vm_compute; reflexivity.
Qed.

Lemma memory_leak : exists ops st,
  ses_response true sx_dec sx_expires (sx_with (lit "sid=")) (sx_visit 11 sx_id) [] [] (from 100 0 sx_calls) = Some (ops, st) /\
  shows sx_dec sx_expires ops st (fun x n => in_page [] x sx_id (lit "<x>") n).
Proof. eexists _, _. split; [vm_compute; reflexivity|]. vm_compute; reflexivity. Qed.

Lemma header_cut : exists ops st rest,
  ses_response true sx_dec sx_expires (sx_with (lit "sid=%2B%2B%2B%2BAQIDBAUGBwgJCgsM%0D%0A%0D%0Ahello")) (sx_visit 11 sx_zero) [] []
    (from 100 0 sx_calls) = Some (ops, st) /\
  page ops = lit "Set-Cookie: sid=%2B%2B%2B%2BAQIDBAUGBwgJCgsM" ++ [13; 10; 13; 10] ++
    lit "hello; path=/; expires=then" ++ [10] ++ lit "Content-Type: text/html" ++ rest.
Proof. eexists _, _, _. split; [vm_compute; reflexivity|]. vm_compute; reflexivity. Qed.

Lemma login_case : exists ops1 st1 ops2 st2 ops3 st3,
  ses_response true sx_dec sx_expires sx_login (sx_visit 10 sx_zero) [] [] (from 100 0 []) = Some (ops1, st1) /\
  asks "login" sx_login /\ submitted sx_login = lit "<x>" /\
  page ops1 = in_page (lit "%2B%2B%2B%2BAQIDBAUGBwgJCgsM") (lit "then") sx_id (lit "<x>") (lit "1") /\
  lit "a=b; sid=%2B%2B%2B%2BAQIDBAUGBwgJCgsM" = form_encode (lit "; ") ([(lit "a", lit "b")] ++ (lit "sid", b64 sx_id) :: []) /\
  ses_response true sx_dec sx_expires (sx_with (lit "a=b; sid=%2B%2B%2B%2BAQIDBAUGBwgJCgsM")) (sx_visit 90 sx_zero) [] [] st1
    = Some (ops2, st2) /\
  page ops2 = in_page (lit "%2B%2B%2B%2BAQIDBAUGBwgJCgsM") (lit "then") sx_id (lit "<x>") (lit "1") /\
  alive 100 (fst st2) (sx_logout (lit "sid=%2B%2B%2B%2BAQIDBAUGBwgJCgsM")) (sx_visit 95 sx_zero)
    = Some (b64 sx_id, sx_id, lit "<x>") /\
  ses_response true sx_dec sx_expires (sx_logout (lit "sid=%2B%2B%2B%2BAQIDBAUGBwgJCgsM")) (sx_visit 95 sx_zero) [] [] st2
    = Some (ops3, st3) /\
  page ops3 = logout_page (lit "0").
Proof.
  eexists _, _, _, _, _, _. split; [vm_compute; reflexivity|]. split; [vm_compute; reflexivity|].
  split; [vm_compute; reflexivity|]. split; [vm_compute; reflexivity|]. split; [vm_compute; reflexivity|].
  split; [vm_compute; reflexivity|]. split; [vm_compute; reflexivity|]. split; [vm_compute; reflexivity|].
  split; [vm_compute; reflexivity|]. vm_compute; reflexivity.
Qed.
