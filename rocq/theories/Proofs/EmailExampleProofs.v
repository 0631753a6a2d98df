(** The email example. *)
From Coq Require Import String List NArith ZArith Bool Lia ZifyBool ZifyNat ZifyN.
From Verif Require Import Model.Base Model.WebMaps Model.Streams Model.Environment Model.Chunks Model.Mailer Model.Sql
  Model.Examples Model.SessionExample Model.EmailExample Spec.EscapeSpec Spec.StreamSpec Spec.ChunkSpec Spec.ExampleSpec
  Spec.MailerSpec Spec.EmailExampleSpec Spec.EmailExampleCases
  Proofs.UrlProofs Proofs.StreamProofs Proofs.ChunkProofs Proofs.SqlProofs Proofs.ExampleProofs.
Import ListNotations.
Local Open Scope N_scope.

Lemma lines_removed : forall s, removeLines s = one_line s.
Proof.
  intros s. unfold removeLines, replace_all, one_line. rewrite map_map. apply map_ext. intros c.
  cbn [existsb]. destruct (N.eqb_spec c 10) as [->|]; [reflexivity|]. cbn [orb]. now rewrite orb_false_r.
Qed.

Lemma one_lineless : forall s, lineless (one_line s).
Proof.
  intros s. unfold lineless, one_line. rewrite !in_map_iff.
  split; intros (c & E & _); cbn [existsb] in E;
    destruct (N.eqb_spec c 10); destruct (N.eqb_spec c 13); cbn [orb] in E; congruence.
Qed.

Lemma scalar_one_line : forall s, Forall scalar s -> Forall scalar (one_line s).
Proof.
  intros s F. unfold one_line. apply Forall_map. eapply Forall_impl; [|exact F]. intros c H. cbv beta.
  destruct (existsb _ _); auto. left. reflexivity.
Qed.

(** ** Paragraphs *)
Lemma find_break_some : forall s a b, find_break s = Some (a, b) -> s = a ++ [13; 10; 13; 10] ++ b.
Proof.
  induction s as [|c s IH]; intros a b H.
  - discriminate H.
  - cbn [find_break] in H. destruct (list_eqb (firstn 4 (c :: s)) [13; 10; 13; 10]) eqn:E.
    + apply list_eqb_eq in E. injection H as <- <-. rewrite <- (firstn_skipn 4 (c :: s)) at 1. now rewrite E.
    + destruct (find_break s) as [[a' b']|] eqn:G; [|discriminate]. injection H as <- <-. cbn [app]. f_equal.
      now apply IH.
Qed.

Lemma find_break_here : forall s x, find_break ([13; 10; 13; 10] ++ s) = x -> x = Some ([], s).
Proof. intros s x <-. reflexivity. Qed.

Lemma find_break_none : forall s, find_break s = None -> whole s.
Proof.
  intros s H a. revert s H. induction a as [|c a IH]; intros s H b E; subst.
  - discriminate H.
  - cbn [app find_break] in H. match type of H with (if ?b then _ else _) = _ => destruct b; [discriminate H|] end.
    match type of H with context [find_break ?t] => destruct (find_break t) as [[x y]|] eqn:G; [discriminate H|] end. now apply (IH _ G b).
Qed.

Lemma firstn_app_le : forall (a b : list N) n, (n <= length a)%nat -> firstn n (a ++ b) = firstn n a.
Proof.
  intros a b n H. rewrite firstn_app. replace (n - length a)%nat with 0%nat by lia. cbn. apply app_nil_r.
Qed.

(** Nothing before the first occurrence holds one. *)
Lemma find_break_first : forall s a b, find_break s = Some (a, b) -> whole a.
Proof.
  induction s as [|c s IH]; intros a b H; [discriminate H|]. cbn [find_break] in H.
  destruct (list_eqb (firstn 4 (c :: s)) [13; 10; 13; 10]) eqn:E.
  - injection H as <- _. intros x y. destruct x; discriminate.
  - destruct (find_break s) as [[a' b']|] eqn:G; [|discriminate]. injection H as <- <-.
    pose proof (find_break_some _ _ _ G) as S. intros x y X.
    destruct x as [|c' x].
    + cbn [app] in X. injection X as -> X. subst a'.
      assert (K : list_eqb (firstn 4 (13 :: s)) [13; 10; 13; 10] = true).
      { subst s. reflexivity. }
      congruence.
    + cbn [app] in X. injection X as -> X. now apply (IH _ _ eq_refl x y).
Qed.

Definition para_text (p : list N) : list N := lit "<p>" ++ html_escape p ++ lit "</p>".

Lemma para_paragraphs : forall fuel m, (length m < fuel)%nat -> exists ps, paragraphs m ps /\
  forall os, ctext E_NONE (para_ops fuel m ++ os) = flat_map para_text ps ++ ctext E_NONE os.
Proof.
  induction fuel as [|f IH]; intros m L; [lia|]. cbn [para_ops].
  destruct (find_break m) as [[a b]|] eqn:E.
  - pose proof (find_break_some _ _ _ E) as S. pose proof (find_break_first _ _ _ E) as W.
    destruct (IH b) as (ps & (P1 & P2 & P3) & T). { rewrite S, app_length in L. cbn in L. lia. }
    exists (a :: ps). split.
    + split; [discriminate|]. split; [|now constructor]. destruct ps as [|p ps]; [congruence|].
      change (joined (a :: p :: ps)) with (a ++ [13; 10; 13; 10] ++ joined (p :: ps)). now rewrite P2.
    + intros os. cbn [app ctext wc escape]. unfold wc. cbn [ctext escape]. rewrite T.
      cbn [flat_map]. unfold para_text at 2. rewrite <- !app_assoc. reflexivity.
  - exists [m]. split.
    + split; [discriminate|]. split; [reflexivity|]. constructor; [|constructor]. now apply find_break_none.
    + intros os. unfold wc. cbn [app ctext escape flat_map]. unfold para_text. rewrite app_nil_r, <- !app_assoc. reflexivity.
Qed.

Lemma para_scalar : forall fuel m, Forall scalar m -> Forall cop_scalar (para_ops fuel m).
Proof.
  assert (W : forall s, forallb (fun c => c <? 128) (wide_lit (lit s)) = true -> cop_scalar (wc s)).
  { intros s H. cbn. apply Forall_forall. intros c I. rewrite forallb_forall in H. specialize (H _ I). left. lia. }
  induction fuel as [|f IH]; intros m F; [constructor|]. cbn [para_ops].
  destruct (find_break m) as [[a b]|] eqn:E.
  - apply find_break_some in E. subst m. apply Forall_app in F as [Fa F]. apply Forall_app in F as [_ Fb].
    repeat (apply Forall_app; split); repeat constructor; auto; try (apply W; reflexivity).
  - repeat (apply Forall_app; split); repeat constructor; auto; try (apply W; reflexivity).
Qed.

Lemma ctext_puts : forall d os, ctext E_NONE (map CPut d ++ os) = d ++ ctext E_NONE os.
Proof. induction d as [|c d IH]; intros os; cbn; [auto|now rewrite IH]. Qed.

Lemma mail_text : forall to from subject message date, exists ps, paragraphs message ps /\
  ctext E_NONE (mail_ops to from subject message date) = mail_header to from subject date ++ mail_document subject ps.
Proof.
  intros to from subject message date.
  destruct (para_paragraphs (S (length message)) message) as (ps & P & T); [lia|].
  exists ps. split; [exact P|]. unfold mail_ops, wc. cbn [app ctext escape]. rewrite ctext_puts.
  cbn [app ctext escape]. rewrite T. unfold mail_header, mail_document. cbn [ctext escape].
  rewrite !app_nil_r. rewrite <- !app_assoc. reflexivity.
Qed.

Lemma mail_scalar : forall to from subject message date, Forall (Forall scalar) [to; from; subject; message; date] ->
  Forall cop_scalar (mail_ops to from subject message date).
Proof.
  intros to from subject message date F.
  assert (W : forall s, forallb (fun c => c <? 128) (wide_lit (lit s)) = true -> cop_scalar (wc s)).
  { intros s H. cbn. apply Forall_forall. intros c I. rewrite forallb_forall in H. specialize (H _ I). left. lia. }
  assert (V : forall s, forallb (fun c => c <? 128) s = true -> cop_scalar (CWrite s)).
  { intros s H. cbn. apply Forall_forall. intros c I. rewrite forallb_forall in H. specialize (H _ I). left. lia. }
  inversion F as [|? ? F1 G1]; subst. inversion G1 as [|? ? F2 G2]; subst. inversion G2 as [|? ? F3 G3]; subst.
  inversion G3 as [|? ? F4 G4]; subst. inversion G4 as [|? ? F5 G5]; subst.
  unfold mail_ops. apply Forall_app; split.
  { repeat first [apply Forall_nil | apply Forall_cons; [first [apply W; reflexivity | apply V; reflexivity | assumption]|]]. }
  apply Forall_app; split. { apply Forall_map. exact F5. }
  apply Forall_app; split.
  { repeat first [apply Forall_nil | apply Forall_cons; [first [apply W; reflexivity | apply V; reflexivity | exact I | assumption]|]]. }
  apply Forall_app; split; [now apply para_scalar|]. constructor; [apply W; reflexivity|constructor].
Qed.

(** ** What is sent *)
Lemma mail_made : forall strict to from subject message date,
  Forall (Forall scalar) [to; from; subject; message; date] ->
  exists ps fuel0, paragraphs message ps /\ forall fuel, (fuel0 <= fuel)%nat -> exists m,
    mail_of strict fuel to from (mail_ops to from subject message date) = Done m /\
    m_to m = utf8 to /\ m_from m = utf8 from /\
    concat (m_body m) = utf8 (mail_header to from subject date ++ mail_document subject ps).
Proof.
  intros strict to from subject message date F. destruct (mail_text to from subject message date) as (ps & P & T).
  exists ps, (size_of (mail_ops to from subject message date) + chunkCap + 2)%nat. split; [exact P|]. intros fuel L.
  destruct (wide_ok strict fuel _ (mail_scalar _ _ _ _ _ F) L) as (w & w' & E1 & E2 & E3 & _).
  unfold mail_of. rewrite E1, E2. eexists. split; [reflexivity|]. cbn [m_to m_from m_body].
  inversion F as [|? ? F1 G1]; subst. inversion G1 as [|? ? F2 G2]; subst. unfold convert_text.
  rewrite !to_bytes_ok by assumption. split; [reflexivity|]. split; [reflexivity|]. now rewrite E3, T.
Qed.

Lemma page_text : forall s, forallb (fun c => c <? 128) (lit s) = true ->
  text_of utf8 E_NONE ([w "Content-Type: text/html; charset=utf-8"; OpWrite [13; 10; 13; 10]; w "<!DOCTYPE html>"; OpWrite [10];
     w "<html><head><meta charset='utf-8' /><title>fastcgi++: Email Sender</title></head><body>"] ++ [w s] ++
    [w "</body></html>"]) = email_page s.
Proof.
  intros s H.
  assert (A : forall l, forallb (fun c => c <? 128) l = true -> wide_lit l = l /\ utf8 l = l).
  { induction l as [|c l IH]; [split; reflexivity|]. cbn [forallb]. intros X. apply andb_true_iff in X as [X Y].
    destruct (IH Y) as [I1 I2]. cbn [wide_lit]. change 0x80 with 128. rewrite X, I1. split; [reflexivity|].
    change (utf8 (c :: l)) with (utf8_1 c ++ utf8 l). rewrite I2. unfold utf8_1. now rewrite X. }
  unfold w. cbn [app text_of escape]. destruct (A _ H) as [-> ->]. unfold email_page.
  reflexivity.
Qed.

Lemma queued : forall strict e date to from subject message,
  e_requestMethod e = 3 -> field "to" e = Some to -> field "from" e = Some from -> field "subject" e = Some subject ->
  field "message" e = Some message -> Forall (Forall scalar) [to; from; subject; message; date] ->
  exists ps fuel0, paragraphs message ps /\ forall fuel, (fuel0 <= fuel)%nat -> exists ops m,
    email_response strict fuel e date = Done (ops, Some m) /\
    text_of utf8 E_NONE ops = email_page "<h2>Email Queued!</h2>" /\
    m_to m = utf8 (one_line to) /\ m_from m = utf8 (one_line from) /\
    concat (m_body m) =
      utf8 (mail_header (one_line to) (one_line from) (one_line subject) date ++ mail_document (one_line subject) ps).
Proof.
  intros strict e date to from subject message HM H1 H2 H3 H4 F.
  inversion F as [|? ? F1 G1]; subst. inversion G1 as [|? ? F2 G2]; subst. inversion G2 as [|? ? F3 G3]; subst.
  destruct (mail_made strict (one_line to) (one_line from) (one_line subject) message date) as (ps & f0 & P & M).
  { repeat (constructor; [now apply scalar_one_line|]). exact G3. }
  exists ps, f0. split; [exact P|]. intros fuel L. destruct (M fuel L) as (m & E & T1 & T2 & B).
  unfold email_response. rewrite HM. cbn [N.eqb Pos.eqb]. unfold email_send, field in *. rewrite H1, H2, H3, H4.
  cbv zeta. rewrite !lines_removed, E. eexists _, m. split; [reflexivity|]. split; [now apply page_text|]. auto.
Qed.

Lemma missing_field : forall strict fuel e date, e_requestMethod e = 3 ->
  field "to" e = None \/ field "from" e = None \/ field "subject" e = None ->
  exists ops, email_response strict fuel e date = Done (ops, None) /\
    text_of utf8 E_NONE ops = email_page "<h2>Unable to send email</h2>".
Proof.
  intros strict fuel e date HM H. unfold email_response. rewrite HM. cbn [N.eqb Pos.eqb].
  assert (X : email_send strict fuel e date = Done None).
  { unfold email_send, field in *. destruct (first_named (lit "to") (e_posts e)); [|reflexivity].
    destruct (first_named (lit "from") (e_posts e)); [|reflexivity].
    destruct (first_named (lit "subject") (e_posts e)); [|reflexivity]. destruct H as [H|[H|H]]; discriminate H. }
  rewrite X. eexists. split; [reflexivity|]. now apply page_text.
Qed.

Lemma no_mail_get : forall strict fuel e date, e_requestMethod e <> 3 ->
  exists ops, email_response strict fuel e date = Done (ops, None) /\
    forall e' date' fuel' strict', e_requestMethod e' <> 3 -> email_response strict' fuel' e' date' = Done (ops, None).
Proof.
  intros strict fuel e date H. unfold email_response. destruct (N.eqb_spec (e_requestMethod e) 3); [contradiction|].
  eexists. split; [reflexivity|]. intros e' d' f' s' H'. destruct (N.eqb_spec (e_requestMethod e') 3); [contradiction|reflexivity].
Qed.

(** ** No line ends in addresses *)
Lemma write_small : forall c x, In x (utf8_write c) -> x < 128 -> x = c.
Proof.
  intros c x. rewrite utf8_write_spec. unfold utf8_1.
    destruct (N.ltb_spec c 128); [cbn; intuition|].
    destruct (c <? 2048); [cbn [In]; intros [<-|[<-|[]]]; lia|].
    destruct (c <? 65536); [cbn [In]; intros [<-|[<-|[<-|[]]]]; lia|].
    cbn [In]; intros [<-|[<-|[<-|[<-|[]]]]]; lia.
Qed.

Lemma convert_lineless : forall strict s, lineless s -> lineless (convert_text strict s).
Proof.
  intros strict s (A & B). unfold convert_text, to_bytes. destruct (existsb _ s); [split; intros []|].
  unfold lineless. rewrite !in_flat_map. split; intros (c & I & J); apply write_small in J; try lia; subst; contradiction.
Qed.

Lemma addresses : forall strict fuel e date ops m, email_response strict fuel e date = Done (ops, Some m) ->
  lineless (m_to m) /\ lineless (m_from m).
Proof.
  intros strict fuel e date ops m H. unfold email_response in H. destruct (_ =? 3); [|discriminate].
  destruct (email_send strict fuel e date) as [[m'|]| |] eqn:E; try discriminate. injection H as _ <-.
  unfold email_send in E. destruct (first_named (lit "to") (e_posts e)) as [t|]; [|discriminate].
  destruct (first_named (lit "from") (e_posts e)) as [f|]; [|discriminate].
  destruct (first_named (lit "subject") (e_posts e)); [|discriminate].
  destruct (first_named (lit "message") (e_posts e)); [|discriminate]. cbv zeta in E. unfold mail_of in E.
  destruct (wide_chunks _ _ _); try discriminate. destruct (emptyBuffer_wchunk _ _ _) as [[? ?]|]; [|discriminate].
  injection E as <-. cbn [m_to m_from]. rewrite !lines_removed.
  split; apply convert_lineless, one_lineless.
Qed.

(** ** The document *)
Lemma sim_app : forall a b a' b', sim a a' -> sim b b' -> sim (a ++ b) (a' ++ b').
Proof.
  intros a b a' b' (M1 & A1 & A2) (M2 & A3 & A4). unfold sim. rewrite !markup_app, !after_app, A1, A2, M1, M2. auto.
Qed.
Lemma sim_same : forall a, after false a = false -> sim a a.
Proof. intros a H. split; auto. Qed.

Lemma document_sim : forall s1 s2 ps1 ps2, length ps1 = length ps2 ->
  sim (utf8 (mail_document s1 ps1)) (utf8 (mail_document s2 ps2)).
Proof.
  intros s1 s2 ps1 ps2 L. unfold mail_document. rewrite !utf8_app.
  apply sim_app; [apply sim_same; reflexivity|]. apply sim_app; [apply sim_same; reflexivity|].
  apply sim_app; [apply sim_same; reflexivity|].
  apply sim_app; [apply sim_tagless; apply utf8_tagless, html_tagless|].
  apply sim_app; [apply sim_same; reflexivity|]. apply sim_app; [|apply sim_same; reflexivity].
  revert ps2 L. induction ps1 as [|p ps1 IH]; destruct ps2 as [|q ps2]; intros L; try discriminate; [apply sim_same; reflexivity|].
  cbn [flat_map]. rewrite !utf8_app. apply sim_app; [|apply IH; now injection L].
  apply sim_app; [apply sim_same; reflexivity|]. apply sim_app; [apply sim_tagless; apply utf8_tagless, html_tagless|].
  apply sim_same; reflexivity.
Qed.

Lemma document_markup : forall s1 s2 ps1 ps2, length ps1 = length ps2 ->
  markup false (utf8 (mail_document s1 ps1)) = markup false (utf8 (mail_document s2 ps2)).
Proof. intros s1 s2 ps1 ps2 L. apply (document_sim s1 s2 ps1 ps2 L). Qed.

(** ** Concrete forms *)
Lemma message_lost : forall strict fuel e date t f s, e_requestMethod e = 3 -> field "to" e = Some t ->
  field "from" e = Some f -> field "subject" e = Some s -> field "message" e = None ->
  email_response strict fuel e date = Undef.
Proof.
  intros strict fuel e date t f s HM H1 H2 H3 H4. unfold email_response. rewrite HM. cbn [N.eqb Pos.eqb].
  unfold email_send, field in *. now rewrite H1, H2, H3, H4.
Qed.

Lemma smuggled : exists ops m text rest,
  email_response true (N.to_nat 4200) (mform (lit "c@d") evil) (lit "now") = Done (ops, Some m) /\ in_mail m = true /\
  receive_data true (concat (m_body m) ++ [13; 10; 46; 13; 10]) =
    Some (text, lit "MAIL FROM:x@y" ++ [13; 10] ++ lit "RCPT TO:z@w" ++ [13; 10] ++ rest).
Proof.
  eexists _, _, _, _. split; [vm_compute; reflexivity|]. split; [vm_compute; reflexivity|]. vm_compute; reflexivity.
Qed.

Lemma queued_lost : exists ops m, email_response true (N.to_nat 4200) (mform [] (lit "hi")) (lit "now") = Done (ops, Some m) /\
  text_of utf8 E_NONE ops = email_page "<h2>Email Queued!</h2>" /\ in_mail m = false.
Proof. eexists _, _. split; [vm_compute; reflexivity|]. split; vm_compute; reflexivity. Qed.

Lemma mail_case : exists ops m,
  email_response true (N.to_nat 4200) (mform (lit "c@d" ++ [10]) (lit "a<b" ++ [13; 10; 13; 10; 13; 10] ++ lit "c")) (lit "now")
    = Done (ops, Some m) /\
  m_to m = lit "c@d " /\
  paragraphs (lit "a<b" ++ [13; 10; 13; 10; 13; 10] ++ lit "c") [lit "a<b"; [13; 10] ++ lit "c"] /\
  concat (m_body m) = lit "From: a@b" ++ [10] ++ lit "To: c@d " ++ [10] ++ lit "Subject: <s> " ++ [10] ++ lit "Date: now" ++ [10] ++
    lit "Content-Type: text/html; charset=utf-8;" ++ [13; 10; 13; 10] ++ lit "<!DOCTYPE html>" ++ [10] ++
    lit "<html><head><title>&lt;s&gt; </title></head><body><p>a&lt;b</p><p>" ++ [13; 10] ++ lit "c</p></body></html>".
Proof.
  eexists _, _. split; [vm_compute; reflexivity|]. split; [vm_compute; reflexivity|].
  split; [|vm_compute; reflexivity]. split; [discriminate|]. split; [reflexivity|].
  repeat constructor; apply find_break_none; reflexivity.
Qed.
