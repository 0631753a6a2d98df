(** The sessions example. *)
From Coq Require Import String List NArith ZArith Bool Lia ZifyBool ZifyNat ZifyN.
From Verif Require Import Model.Base Model.HttpCodec Model.WebMaps Model.Streams Model.Environment Model.Sessions
  Model.Examples Model.SessionExample Spec.EscapeSpec Spec.Base64Spec Spec.StreamSpec Spec.EnvironmentSpec
  Spec.SessionSpec Spec.SessionExampleSpec
  Proofs.Base64Proofs Proofs.UrlProofs Proofs.SessionProofs Proofs.ExampleProofs.
Import ListNotations.
Local Open Scope N_scope.

Notation same := (fun s : list N => s).
Notation T := page.

(** ** Texts *)
Lemma print_b64 : forall id, real_id id -> sessionIdPrint 60 id = Done (b64 id).
Proof. intros id [B H]. unfold sessionIdPrint. apply base64_encode; [exact B|]. rewrite H. lia. Qed.

Lemma text_writes : forall e l, text_of same e (map (fun c => OpWrite [c]) l) = flat_map (fun c => escape e [c]) l.
Proof. induction l as [|c l IH]; cbn [map text_of flat_map]; [auto|now rewrite IH]. Qed.

Lemma text_puts : forall e l, text_of same e (map OpPut l) = l.
Proof. induction l as [|c l IH]; cbn [map text_of app]; [auto|now rewrite IH]. Qed.

Lemma ends_writes : forall e l, ends e (map (fun c => OpWrite [c]) l) = e.
Proof. induction l; cbn; auto. Qed.
Lemma ends_puts : forall e l, ends e (map OpPut l) = e.
Proof. induction l; cbn; auto. Qed.

Lemma ends_sid : forall bulk id e, ends e (sid_ops bulk id) = e.
Proof.
  intros bulk id e. unfold sid_ops. destruct (sessionIdPrint 60 id); auto.
  destruct bulk; [apply ends_writes|apply ends_puts].
Qed.

Lemma flat_single : forall l : list N, flat_map (fun c => [c]) l = l.
Proof. induction l as [|c l IH]; cbn; [auto|now rewrite IH]. Qed.

Lemma sid_none : forall bulk id, real_id id -> text_of same E_NONE (sid_ops bulk id) = b64 id.
Proof.
  intros bulk id H. unfold sid_ops. rewrite print_b64 by exact H.
  destruct bulk; [rewrite text_writes; cbn [escape]; apply flat_single|apply text_puts].
Qed.

Lemma sid_url : forall id, real_id id -> text_of same E_URL (sid_ops true id) = url_escape (b64 id).
Proof.
  intros id H. unfold sid_ops. rewrite print_b64 by exact H. rewrite text_writes. cbn [escape]. unfold url_escape.
  apply flat_map_ext. intros c. cbn. apply app_nil_r.
Qed.

Section Pages.
Variable bulk : bool.
Variable dec : N -> list N.
Variable expires : Z -> list N.

Lemma footer_text : forall ss, T (ses_footer dec ss) = page_foot (dec (N.of_nat (size ss))).
Proof. intros. unfold page, ses_footer, page_foot, nw. cbn [text_of escape]. now rewrite app_nil_r. Qed.

Lemma header_text : T ses_header = page_head.
Proof. reflexivity. Qed.

Lemma out_text : forall ss, T (ses_out dec ss) = out_page (dec (N.of_nat (size ss))).
Proof.
  intros. unfold page, ses_out, out_page. rewrite !text_app. fold (T ses_header). rewrite header_text.
  cbn [ends ses_header app nw]. unfold nw. cbn [text_of ends escape].
  fold (T (ses_footer dec ss)). rewrite footer_text, app_nil_r, !app_assoc. reflexivity.
Qed.

Lemma gone_text : forall ss, T (ses_gone ++ ses_out dec ss) = logout_page (dec (N.of_nat (size ss))).
Proof.
  intros. unfold page. rewrite text_app. change (ends E_NONE ses_gone) with E_NONE. fold (T (ses_out dec ss)).
  rewrite out_text. reflexivity.
Qed.

Lemma in_text : forall id data ss, real_id id ->
  T (ses_in bulk dec id data ss) = page_head ++
  lit "<p>We are currently in a session. The session id is " ++ b64 id ++
  lit " and the session data is " ++ [34] ++ html_escape data ++ [34] ++
  lit ".<p>Click <a href='?cmd=logout'>here</a> to logout</p>" ++ page_foot (dec (N.of_nat (size ss))).
Proof.
  intros id data ss H. unfold page, ses_in. rewrite !text_app. fold (T ses_header). rewrite header_text.
  change (ends E_NONE ses_header) with E_NONE. rewrite ends_sid, sid_none by exact H.
  unfold shown, nw. cbn [text_of ends escape app].
  fold (T (ses_footer dec ss)). rewrite footer_text, !app_nil_r. 
  rewrite <- !app_assoc. reflexivity.
Qed.

Lemma cookie_text : forall value ss, 
  ends E_NONE (ses_cookie expires value ss) = E_NONE /\
  T (ses_cookie expires value ss) = lit "Set-Cookie: sid=" ++ text_of same E_URL value ++ lit "; path=/; expires=" ++
    expires (ss_expiration ss) ++ [10].
Proof.
  intros value ss. split.
  - unfold ses_cookie. rewrite !ends_app. reflexivity.
  - unfold page, ses_cookie, nw. rewrite !text_app. cbn [text_of ends escape app]. now rewrite app_nil_r.
Qed.

Lemma cookie_in_text : forall value id data ss, real_id id ->
  T (ses_cookie expires value ss ++ ses_in bulk dec id data ss) =
  in_page (text_of same E_URL value) (expires (ss_expiration ss)) id data (dec (N.of_nat (size ss))).
Proof.
  intros value id data ss L. destruct (cookie_text value ss) as [E C].
  unfold page in *. rewrite text_app, E, C. fold (T (ses_in bulk dec id data ss)). rewrite in_text by exact L.
  unfold in_page. rewrite <- !app_assoc. reflexivity.
Qed.
End Pages.

(** ** Histories *)
Lemma run_app : forall a b (l : log) ss, run_calls (a ++ b) l ss = run_calls b (fst (run_calls a l ss)) (snd (run_calls a l ss)).
Proof.
  induction a as [|c a IH]; intros b l ss; auto. cbn [app run_calls]. destruct (Sessions.step c ss) as [r ss']. apply IH.
Qed.

Lemma others_run : forall cs st, others cs st = run_calls cs (fst st) (snd st).
Proof. reflexivity. Qed.

Lemma use_run : forall c st, snd (use c st) = run_calls [c] (fst st) (snd st) /\
  fst (use c st) = fst (Sessions.step c (snd st)).
Proof. intros c [l ss]. unfold use. cbn. destruct (Sessions.step c ss). auto. Qed.

Lemma from_app : forall keep t0 a b, from keep t0 (a ++ b) = others b (from keep t0 a).
Proof. intros. unfold from. now rewrite run_app. Qed.

Lemma from_use : forall keep t0 a c, snd (use c (from keep t0 a)) = from keep t0 (a ++ [c]).
Proof. intros. rewrite from_app. apply use_run. Qed.

(** What a call leaves of the last use of [id]. *)
Lemma log_one : forall keep t0 a c, fst (from keep t0 (a ++ [c])) =
  (c, fst (Sessions.step c (snd (from keep t0 a)))) :: fst (from keep t0 a).
Proof.
  intros. rewrite from_app. unfold others. cbn. destruct (Sessions.step c (snd (from keep t0 a))). reflexivity.
Qed.

Lemma from_pair : forall keep t0 cs, run_calls cs [] (sessions_new keep t0) = (fst (from keep t0 cs), snd (from keep t0 cs)).
Proof. intros. unfold from. now destruct (run_calls _ _ _). Qed.

(** An id with a last use was drawn. *)
Lemma last_use_drawn : forall keep t0 cs id d u, last_use keep (fst (from keep t0 cs)) id = Some (d, u) ->
  exists draws data t, In (CGenerate draws data) cs /\ In (id, t) draws.
Proof.
  intros keep t0 cs. induction cs as [|c cs IH] using rev_ind; intros id d u H; [discriminate|].
  rewrite log_one in H.
  assert (K : last_use keep (fst (from keep t0 cs)) id = Some (d, u) -> exists draws data t,
    In (CGenerate draws data) (cs ++ [c]) /\ In (id, t) draws).
  { intros X. destruct (IH _ _ _ X) as (a & b & t & I & J). exists a, b, t. split; [apply in_or_app; now left|auto]. }
  destruct c as [draws data|now tc tr id'|id']; cbn [Sessions.step] in H.
  - destruct (generate draws data (snd (from keep t0 cs))) as [[i s']|] eqn:G; cbn [fst last_use] in H; auto.
    destruct (list_eqb i id) eqn:E; auto.
    apply list_eqb_eq in E. subst i. apply generate_facts in G as (_ & t & I & _).
    exists draws, data, t. split; [apply in_or_app; right; now left|auto].
  - destruct (get _ _ _ _ _) as [r s']. cbn [fst last_use] in H. destruct (list_eqb id' id); auto.
    destruct (last_use keep (fst (from keep t0 cs)) id) as [[d0 u0]|] eqn:L; [|discriminate].
    destruct (IH _ _ _ L) as (a & b & t & I & J). exists a, b, t. split; [apply in_or_app; now left|auto].
  - cbn [fst last_use] in H. destruct (list_eqb id' id); [discriminate|auto].
Qed.

Lemma last_use_real : forall keep t0 cs id d u, Forall real_call cs ->
  last_use keep (fst (from keep t0 cs)) id = Some (d, u) -> real_id id.
Proof.
  intros keep t0 cs id d u F H. apply last_use_drawn in H as (draws & data & t & I & J).
  rewrite Forall_forall in F. specialize (F _ I). cbn in F. rewrite Forall_forall in F. apply (F _ J).
Qed.

(** A lookup finds what the history says is alive. *)
Lemma lookup : forall keep t0 cs now tc tr id,
  nondecreasing t0 (flat_map times cs ++ [now; tc; tr]) ->
  fst (use (CGet now tc tr id) (from keep t0 cs)) =
  RGet (match last_use keep (fst (from keep t0 cs)) id with
        | Some (d, u) => if (now - keep <=? u)%Z then Some d else None
        | None => None
        end).
Proof.
  intros keep t0 cs now tc tr id HT. rewrite (proj2 (use_run _ _)). cbn [Sessions.step].
  pose proof (fun d => get_exact keep t0 cs now tc tr id d _ _ (from_pair keep t0 cs) HT) as G.
  destruct (get now tc tr id (snd (from keep t0 cs))) as [r s']. cbn [fst] in *. f_equal.
  destruct r as [d|].
  - destruct (proj1 (G d) eq_refl) as (u & -> & L). destruct (Z.leb_spec (now - keep) u); [auto|lia].
  - destruct (last_use keep (fst (from keep t0 cs)) id) as [[d u]|]; auto.
    destruct (Z.leb_spec (now - keep) u); auto. apply (G d). eauto.
Qed.

Lemma lookup_sound : forall keep t0 cs now tc tr id,
  last_use keep (fst (from keep t0 cs)) id = None ->
  fst (use (CGet now tc tr id) (from keep t0 cs)) = RGet None.
Proof.
  intros keep t0 cs now tc tr id H. rewrite (proj2 (use_run _ _)). cbn [Sessions.step].
  pose proof (fun d => get_sound keep t0 cs now tc tr id d _ _ (from_pair keep t0 cs)) as G.
  destruct (get now tc tr id (snd (from keep t0 cs))) as [r s']. cbn [fst] in *. f_equal.
  destruct r as [d|]; auto. destruct (G d eq_refl) as (u & E & _). congruence.
Qed.

Lemma some_pair : forall (A B : Type) (a c : A) (b d : B), Some (a, b) = Some (c, d) -> a = c /\ b = d.
Proof. intros. split; congruence. Qed.

(** ** The four answers *)
Section Answer.
Variable dec : N -> list N.
Variable expires : Z -> list N.
Notation response := (ses_response true dec expires).

Lemma asks_eq : forall c e, match first_named (lit "cmd") (e_gets e) with Some x => list_eqb x (lit c) | None => false end = true
  <-> asks c e.
Proof.
  intros c e. unfold asks. destruct (first_named (lit "cmd") (e_gets e)) as [x|]; [|split; discriminate].
  rewrite list_eqb_eq. split; congruence.
Qed.

Lemma asks_dec : forall c e b, match first_named (lit "cmd") (e_gets e) with Some x => list_eqb x (lit c) | None => false end = b ->
  (asks c e /\ b = true) \/ (~ asks c e /\ b = false).
Proof.
  intros c e b H. pose proof (asks_eq c e) as A. rewrite H in A. destruct b; [left|right]; split; auto; [now apply A|].
  intros X. apply A in X. discriminate.
Qed.

Lemma answer : forall keep t0 cs e v o1 o2 ops st,
  Forall real_call cs -> real_call (CGenerate (v_draws v) []) ->
  nondecreasing t0 (flat_map times cs ++ visit_times v) ->
  response e v o1 o2 (from keep t0 cs) = Some (ops, st) ->
  match alive keep (fst (from keep t0 cs)) e v with
  | Some (text, id, d) =>
      (asks "logout" e -> shows dec expires ops st (fun x n => logout_page n) /\
        st = from keep t0 (cs ++ looks_up e v ++ o1 ++ [CErase id] ++ o2)) /\
      (~ asks "logout" e -> shows dec expires ops st (fun x n => in_page (url_escape text) x id d n) /\
        st = from keep t0 (cs ++ looks_up e v ++ o1 ++ o2))
  | None =>
      (asks "login" e -> exists id t, In (id, t) (v_draws v) /\
        shows dec expires ops st (fun x n => in_page (url_escape (b64 id)) x id (submitted e) n) /\
        st = from keep t0 (cs ++ looks_up e v ++ o1 ++ [CGenerate (v_draws v) (submitted e)] ++ o2) /\
        fst (use (CGenerate (v_draws v) (submitted e)) (from keep t0 (cs ++ looks_up e v ++ o1))) = RGenerate id t) /\
      (~ asks "login" e -> shows dec expires ops st (fun x n => out_page n) /\
        st = from keep t0 (cs ++ looks_up e v ++ o1 ++ o2))
  end.
Proof.
  intros keep t0 cs e v o1 o2 ops st RC RV HT H. unfold ses_response in H.
  (* the cookie *)
  set (F := match first_named (lit "sid") (e_cookies e) with
    | Some text =>
        let id := sid_of text (v_memory v) in
        match use (CGet (v_now v) (v_tc v) (v_tr v) id) (from keep t0 cs) with
        | (RGet (Some d), st1) => (Some (text, id, d), st1)
        | (_, st1) => (None, st1)
        end
    | None => (None, from keep t0 cs)
    end) in H.
  assert (EF : F = (alive keep (fst (from keep t0 cs)) e v, from keep t0 (cs ++ looks_up e v))).
  { subst F. unfold alive, looks_up. destruct (first_named (lit "sid") (e_cookies e)) as [text|].
    2:{ now rewrite app_nil_r. }
    cbv zeta. rewrite <- from_use.
    pose proof (lookup keep t0 cs (v_now v) (v_tc v) (v_tr v) (sid_of text (v_memory v)) HT) as L.
    destruct (use _ _) as [r st1]. cbn [fst snd] in *. subst r.
    destruct (last_use _ _ _) as [[d u]|]; auto. destruct (_ <=? _)%Z; auto. }
  rewrite EF in H. clear EF F. rewrite <- from_app, <- app_assoc in H.
  assert (RA : forall text id d, alive keep (fst (from keep t0 cs)) e v = Some (text, id, d) -> real_id id).
  { intros text id d A. unfold alive in A. destruct (first_named (lit "sid") (e_cookies e)) as [t|]; [|discriminate].
    destruct (last_use keep (fst (from keep t0 cs)) (sid_of t (v_memory v))) as [[d0 u]|] eqn:L; [|discriminate].
    destruct (v_now v - keep <=? u)%Z; [|discriminate]. injection A as <- <- <-. eapply last_use_real; eauto. }
  destruct (alive keep (fst (from keep t0 cs)) e v) as [[[text id] d]|] eqn:A.
  - destruct (match first_named (lit "cmd") (e_gets e) with Some c => list_eqb c (lit "logout") | None => false end) eqn:C;
      apply asks_dec in C as [[C C']|[C C']]; try discriminate C'; clear C'.
    + split; [intros _|tauto]. rewrite from_use, <- !from_app, <- !app_assoc in H. apply some_pair in H as [<- <-]. split; [|reflexivity].
      unfold shows. apply gone_text.
    + split; [tauto|intros _]. rewrite <- !from_app, <- !app_assoc in H. apply some_pair in H as [<- <-]. split; [|reflexivity].
      unfold shows. rewrite (cookie_in_text true dec expires [OpWrite text]) by eauto.
      cbn [text_of escape]. now rewrite app_nil_r.
  - destruct (match first_named (lit "cmd") (e_gets e) with Some c => list_eqb c (lit "login") | None => false end) eqn:C;
      apply asks_dec in C as [[C C']|[C C']]; try discriminate C'; clear C'.
    + split; [intros _|tauto]. fold (submitted e) in H.
      pose proof (from_use keep t0 (cs ++ looks_up e v ++ o1) (CGenerate (v_draws v) (submitted e))) as U.
      pose proof (proj2 (use_run (CGenerate (v_draws v) (submitted e)) (from keep t0 (cs ++ looks_up e v ++ o1)))) as R.
      destruct (use _ _) as [r st2] eqn:E. cbn [fst snd] in U, R. subst st2.
      destruct r as [id t|g| |]; try discriminate. cbn [Sessions.step] in R.
      destruct (generate _ _ _) as [[i s']|] eqn:G; [|discriminate]. cbn [fst] in R. injection R as -> ->.
      apply generate_facts in G as (_ & t & I & ->). cbn [ss_map s_find s_id]. rewrite SessionProofs.leb_refl.
      cbn [s_time]. exists i, t. split; [exact I|].
      assert (RI : real_id i).
      { cbn in RV. rewrite Forall_forall in RV. apply (RV _ I). }
      rewrite <- !from_app, <- !app_assoc in H. apply some_pair in H as [<- <-]. split; [|split; reflexivity].
      unfold shows. rewrite (cookie_in_text true dec expires (sid_ops true i)) by exact RI. now rewrite sid_url.
    + split; [tauto|intros _]. rewrite <- !from_app, <- !app_assoc in H. apply some_pair in H as [<- <-]. split; [|reflexivity].
      unfold shows. apply out_text.
Qed.

(** ** A cookie comes back *)
Lemma b64_char_ok : forall v, b64char v < 256.
Proof.
  intros v. unfold b64char. repeat match goal with |- context [if ?b then _ else _] => destruct b eqn:? end; lia.
Qed.

Lemma b64_bytes : forall n id, (length id <= n)%nat -> bytes_ok (b64 id).
Proof.
  induction n as [|n IH]; intros id L.
  - destruct id; [constructor|cbn in L; lia].
  - destruct id as [|a [|b [|c r]]]; cbn [b64 app]; repeat (constructor; [apply b64_char_ok || reflexivity|]); try constructor.
    apply IH. cbn in L. lia.
Qed.

Lemma sid_back : forall id suffix memory, real_id id -> length memory = 15%nat -> sid_of (b64 id ++ suffix) memory = id.
Proof.
  intros id suffix memory [B L] M. unfold sid_of.
  destruct (session_round_trip id 60 60) as (text & E & _ & R); auto; try lia.
  rewrite print_b64 in E by (split; auto). injection E as <-. rewrite R.
  clear - L M. assert (LL : length id = length memory) by congruence. clear L M. revert memory LL.
  induction id as [|b id IH]; destruct memory as [|m memory]; cbn; intros H; try discriminate; auto.
  f_equal. apply IH. congruence.
Qed.

Lemma first_skip : forall name a b v, Forall (fun f => fst f <> name) a -> first_named name (a ++ (name, v) :: b) = Some v.
Proof.
  induction a as [|[n x] a IH]; intros b v F; cbn.
  - now rewrite SessionProofs.leb_refl.
  - inversion F as [|? ? H1 H2]; subst. cbn in H1. destruct (list_eqb n name) eqn:E; [apply list_eqb_eq in E; tauto|auto].
Qed.

Lemma cookie_back : forall fs1 fs2 id,
  Forall (fun f => bytes_ok (fst f) /\ bytes_ok (snd f)) (fs1 ++ fs2) -> Forall (fun f => fst f <> lit "sid") fs1 ->
  first_named (lit "sid") (text_fields (fun b _ => b) (lit "; ")
    (form_encode (lit "; ") (fs1 ++ (lit "sid", b64 id) :: fs2))) = Some (b64 id).
Proof.
  intros fs1 fs2 id F H. apply Forall_app in F as [F1 F2]. unfold text_fields, fields. change (lit "; ") with [59; 32].
  set (fs := fs1 ++ (lit "sid", b64 id) :: fs2).
  rewrite form_fields_encode.
  - rewrite map_ext with (g := fun f => f) by (intros []; reflexivity). rewrite map_id. now apply first_skip.
  - cbn; auto.
  - apply Forall_app. split; [exact F1|]. constructor; [|exact F2]. split; cbn [fst snd].
    + repeat constructor.
    + now apply (b64_bytes (length id)).
  - pose proof (form_encode_length 59 [32] fs). lia.
Qed.

(** ** A session lives on *)
Lemma nondec_drop : forall a b now t, nondecreasing t (a ++ b ++ [now]) -> nondecreasing t (a ++ [now]).
Proof.
  assert (G : forall l now x, nondecreasing x (l ++ [now]) -> (x <= now)%Z).
  { induction l as [|y l IHl]; cbn; intros now x [A B]; [auto|]. apply IHl in B. lia. }
  induction a as [|x a IH]; cbn; intros b now t H; [split; auto; eapply G; eauto|]. split; [tauto|]. eapply IH. apply H.
Qed.

Lemma lives : forall keep t0 cs2 cs id d t,
  last_use keep (fst (from keep t0 cs)) id = Some (d, t) -> Forall (elsewhere id) cs2 ->
  forall now, nondecreasing t0 (flat_map times (cs ++ cs2) ++ [now]) -> (now - keep <= t)%Z ->
  last_use keep (fst (from keep t0 (cs ++ cs2))) id = Some (d, t).
Proof.
  intros keep t0 cs2. induction cs2 as [|c cs2 IH] using rev_ind; intros cs id d t L F now HT HN.
  - now rewrite app_nil_r.
  - apply Forall_app in F as [F1 F2]. inversion F2 as [|? ? E _]; subst.
    rewrite app_assoc in *. set (a := cs ++ cs2) in *.
    assert (HT' : nondecreasing t0 (flat_map times a ++ [now])).
    { rewrite flat_map_app, <- app_assoc in HT. eapply nondec_drop; eauto. }
    specialize (IH cs id d t L F1 now HT' HN). fold a in IH. rewrite log_one.
    destruct c as [draws data|n1 tc tr i|i]; cbn [Sessions.step].
    + destruct (generate draws data (snd (from keep t0 a))) as [[i s']|] eqn:G; cbn [fst last_use]; [|exact IH].
      destruct (list_eqb i id) eqn:X; [|exact IH]. apply list_eqb_eq in X. subst i. exfalso.
      apply nondec_app in HT' as [H1 H2].
      destruct (generate_fresh keep t0 a draws data id s' _ _ (from_pair keep t0 a) G H1) as (K & _).
      specialize (K _ _ IH). cbn in H2. lia.
    + destruct (get _ _ _ _ _) as [r s']. cbn [fst last_use]. cbn in E.
      destruct (list_eqb i id) eqn:X; [apply list_eqb_eq in X; contradiction|exact IH].
    + cbn [fst last_use]. cbn in E. destruct (list_eqb i id) eqn:X; [apply list_eqb_eq in X; contradiction|exact IH].
Qed.
End Answer.
