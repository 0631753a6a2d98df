(** The gnu example. *)
From Coq Require Import String List NArith ZArith Bool Lia ZifyBool ZifyNat ZifyN.
From Verif Require Import Model.Base Model.Endian Model.Protocol Model.WebMaps Model.Streams
  Model.Environment Model.Multipart Model.Request Model.Locale Model.Examples Model.GnuExample
  Spec.EndianSpec Spec.WireSpec Spec.EscapeSpec Spec.StreamSpec Spec.AddressSpec Spec.EnvironmentSpec
  Spec.RequestSpec Spec.PageSpec Spec.ExampleSpec Spec.LocaleSpec Spec.GnuExampleSpec
  Proofs.RequestProofs Proofs.RequestLifeProofs Proofs.AgreeProofs Proofs.ExampleProofs Proofs.LocaleProofs Proofs.UrlProofs Proofs.EnvironmentExamples.
Import ListNotations.
Local Open Scope N_scope.

(** ** The locale; the locales are longer than the languages compared *)
Lemma equal_at_short : forall language locale, (length language <= length locale)%nat ->
  exists b, equal_at language (locale ++ [0]) = Val b /\ (b = true <-> speaks language locale).
Proof.
  induction language as [|c l IH]; intros locale L.
  - exists true. split; [reflexivity|]. split; auto. intros _. now exists locale.
  - destruct locale as [|x locale]; cbn [app equal_at length] in *; [lia|].
    destruct (N.eqb_spec c x) as [->|NE].
    + destruct (IH locale) as (b & E & B); [lia|]. exists b. split; auto. rewrite B. split.
      * intros (r & ->). now exists r.
      * intros (r & X). injection X as ->. now exists r.
    + exists false. split; [reflexivity|]. split; [discriminate|]. intros (r & X). injection X. congruence.
Qed.

Lemma find_locale_short : forall language locales i, Forall (fun l => (length language <= length l)%nat) locales ->
  (exists j, find_locale language locales i = Val (Some (i + j)) /\ first_speaking language locales j) \/
  (find_locale language locales i = Val None /\ Forall (fun l => ~ speaks language l) locales).
Proof.
  intros language. induction locales as [|l locales IH]; intros i F; cbn [find_locale]; [right; auto|].
  inversion F; subst.
  destruct (equal_at_short language l) as (b & -> & B); auto. cbn [obind]. destruct b.
  - left. exists 0. rewrite N.add_0_r. split; auto. exists [], l, locales. cbn. repeat split; auto. now apply B.
  - assert (NS : ~ speaks language l) by (intros X; apply B in X; discriminate).
    destruct (IH (i + 1)) as [(j & -> & before & l' & after & -> & -> & S & N) | (-> & N)]; auto.
    + left. exists (1 + N.of_nat (length before)). split; [do 2 f_equal; lia|].
      exists (l :: before), l', after. repeat split; auto. cbn [length]. lia.
Qed.

Lemma locale_chosen : forall languages, exists i, pickLocale languages gnu_locales = Val i /\ chosen languages i /\ i < 6.
Proof.
  change gnu_locales with the_locales.
  induction languages as [|l languages IH]; cbn [pickLocale].
  - exists 0. split; [reflexivity|]. split; [right; auto|lia].
  - assert (NX : unserved the_locales l -> exists i, pickLocale languages the_locales = Val i /\ chosen (l :: languages) i /\ i < 6).
    { intros US. destruct IH as (i & E & [(b & l0 & a & -> & UB & L & FS) | (-> & UB)] & I6).
      - exists i. split; auto. split; auto. left. exists (l :: b), l0, a. repeat split; auto.
      - exists 0. split; auto. split; auto. right. auto. }
    destruct (N.leb_spec (N.of_nat (length l)) 5).
    + destruct (find_locale_short l the_locales 0) as [(j & -> & FS) | (-> & N)]; cbn [obind].
      * unfold the_locales. repeat (apply Forall_cons; [cbn; lia|]). apply Forall_nil.
      * exists (0 + j). split; auto. rewrite N.add_0_l. split.
        -- left. exists [], l, languages. repeat split; auto. lia.
        -- destruct FS as (b & x & a & E & -> & _). apply (f_equal (@length _)) in E. rewrite app_length in E. cbn in E. lia.
      * apply NX. right. exact N.
    + apply NX. left. lia.
Qed.

(** The text, piece by piece. *)
Definition tx (os : list sop) : list N := text_of utf8 E_NONE os.
Lemma tx_eq : forall os, text_of utf8 E_NONE os = tx os.
Proof. reflexivity. Qed.
Lemma tx_w : forall s a os r, utf8 (wide_lit (lit s)) = a -> tx os = r -> tx (w s :: os) = a ++ r.
Proof. intros s a os r A B. unfold tx, w in *. cbn [text_of escape]. rewrite A, B. reflexivity. Qed.
Lemma tx_o : forall s a os r, utf8 s = a -> tx os = r -> tx (OpWrite s :: os) = a ++ r.
Proof. intros s a os r A B. unfold tx in *. cbn [text_of escape]. rewrite A, B. reflexivity. Qed.
Lemma tx_p : forall c a os r, utf8 [c] = a -> tx os = r -> tx (OpPut c :: os) = a ++ r.
Proof. intros c a os r A B. unfold tx in *. cbn [text_of escape]. rewrite A, B. reflexivity. Qed.
Lemma tx_d : forall s os r, utf8 [10] = [10] -> tx os = r -> tx (OpWrite (s ++ [10]) :: os) = utf8 s ++ [10] ++ r.
Proof. intros s os r A B. unfold tx in *. cbn [text_of escape]. rewrite utf8_app, A, B, <- app_assoc. reflexivity. Qed.
Lemma tx_w1 : forall s a, utf8 (wide_lit (lit s)) = a -> tx [w s] = a.
Proof. intros s a A. rewrite <- (app_nil_r a). apply tx_w; [exact A|reflexivity]. Qed.
Lemma tx_g : forall p, tx [OpDump p] = p.
Proof. intros p. unfold tx. cbn [text_of]. apply app_nil_r. Qed.
Ltac pieces := repeat first
  [ apply tx_d; [vm_compute; reflexivity|]
  | match goal with
    | |- tx [w ?s] = ?a => apply (tx_w1 s a); vm_compute; reflexivity
    | |- tx (w ?s :: ?os) = ?a ++ ?r => is_var s; apply (tx_w s a os r); [assumption|]
    | |- tx (w ?s :: ?os) = ?a ++ ?r => apply (tx_w s a os r); [vm_compute; reflexivity|]
    | |- tx (crlf2 :: ?os) = ?a ++ ?r => apply (tx_o [13; 10; 13; 10] a os r); [vm_compute; reflexivity|]
    | |- tx (OpWrite ?s :: ?os) = utf8 ?s ++ ?r => apply (tx_o s (utf8 s) os r); [reflexivity|]
    | H : utf8 ?s = ?a |- tx (OpWrite ?s :: ?os) = ?a ++ ?r => apply (tx_o s a os r); [exact H|]
    | |- tx (OpWrite ?s :: ?os) = ?a ++ ?r => apply (tx_o s a os r); [vm_compute; reflexivity|]
    | |- tx (OpPut ?s :: ?os) = ?a ++ ?r => apply (tx_p s a os r); [vm_compute; reflexivity|]
    end
  | apply tx_g ].

Section Gnu.
Variable png : list N.
Variable start : Z.
Variable date : list N.
Variable date_in : N -> list N.
Variable number_in : N -> N -> list N.
Variable number : N -> list N.
Hypothesis PB : Forall (fun b => b < 256) png.
Hypothesis FM : gnu_formats date date_in number_in number.
Notation response := (gnu_response png start date date_in number_in number).
Notation html := (gnu_html start date date_in number_in number).
Notation image := (gnu_image png start date number).

Definition html_is (e : env) (i : N) : list N :=
  if (i =? e_etag e) && (start <=? e_ifModifiedSince e)%Z then reply_304
  else reply_page date i (e_scriptName e) (number_in i 58587) (date_in i).
Definition image_is (e : env) : list N :=
  if (start <=? e_ifModifiedSince e)%Z then reply_304 else reply_image date png.

Definition fine (l : list sop) : Prop := forall strict, Forall (op_chars (real_char (Wide strict))) l.
Lemma fine_304 : fine not_modified.
Proof. intros strict. repeat first [apply Forall_nil | apply Forall_cons; [apply scalars; vm_compute; reflexivity|]]. Qed.

Lemma image_ok : forall e, text_of utf8 E_NONE (image e) = image_is e /\ fine (image e).
Proof.
  intros e. unfold gnu_image, image_is. destruct FM as (F1 & F2 & F3 & F4 & F5). destruct (start <=? _)%Z.
  - split; [reflexivity|apply fine_304].
  - rewrite F4. split.
    + rewrite tx_eq. unfold reply_image. pieces.
    + intros strict.
      assert (FD : Forall scalar (date ++ [10])) by (apply Forall_app; split; [exact F1|apply scalars; reflexivity]).
      repeat first [apply Forall_nil | apply Forall_cons;
        [first [exact FD | exact PB | cbn; unfold scalar; lia | apply scalars; vm_compute; reflexivity]|]].
Qed.

(** The texts of locale [i] are [l] and [c0] to [c4]. *)
Definition said (s t : string) : Prop := utf8 (wide_lit (lit s)) = lit t /\ Forall scalar (wide_lit (lit s)).
Definition catalogue_ok (i : N) : Prop := exists l c0 c1 c2 c3 c4,
  nth_error gnu_locales (N.to_nat i) = Some l /\ nth_error gnu_catalogues (N.to_nat i) = Some [c0; c1; c2; c3; c4] /\
  utf8 (firstn 2 l) = lit (g_language (the_words i)) /\ Forall scalar (firstn 2 l) /\
  said c0 (g_title (the_words i)) /\ said c1 (g_header (the_words i)) /\ said c2 (g_alt (the_words i)) /\
  said c3 (g_size (the_words i)) /\ said c4 (g_date (the_words i)).
Lemma catalogues_ok : forall i, i < 6 -> catalogue_ok i.
Proof.
  intros i L.
  assert (IS : i = 0 \/ i = 1 \/ i = 2 \/ i = 3 \/ i = 4 \/ i = 5) by lia.
  destruct IS as [->|[->|[->|[->|[->| ->]]]]].
  all: do 6 eexists; split; [reflexivity|]; split; [reflexivity|]; split; [vm_compute; reflexivity|];
    split; [apply scalars; vm_compute; reflexivity|].
  all: split; [|split; [|split; [|split]]]; (split; [vm_compute; reflexivity|apply scalars; vm_compute; reflexivity]).
Qed.

Lemma page_text : forall e i l c0 c1 c2 c3 c4, number i = [48 + i] -> utf8 [48 + i] = [48 + i] ->
  utf8 (firstn 2 l) = lit (g_language (the_words i)) ->
  said c0 (g_title (the_words i)) -> said c1 (g_header (the_words i)) -> said c2 (g_alt (the_words i)) ->
  said c3 (g_size (the_words i)) -> said c4 (g_date (the_words i)) ->
  text_of utf8 E_NONE (gnu_page date date_in number_in number e i l c0 c1 c2 c3 c4)
  = reply_page date i (e_scriptName e) (number_in i 58587) (date_in i).
Proof.
  intros e i l c0 c1 c2 c3 c4 NI UI UL (S0 & _) (S1 & _) (S2 & _) (S3 & _) (S4 & _).
  rewrite tx_eq. unfold gnu_page, reply_page. rewrite NI.
  pieces.
Qed.

Lemma page_fine : forall e i l c0 c1 c2 c3 c4, i < 6 -> number i = [48 + i] -> Forall scalar (e_scriptName e) ->
  Forall scalar (firstn 2 l) -> (forall c, In c [c0; c1; c2; c3; c4] -> Forall scalar (wide_lit (lit c))) ->
  fine (gnu_page date date_in number_in number e i l c0 c1 c2 c3 c4).
Proof.
  intros e i l c0 c1 c2 c3 c4 LI NI SC SL S strict. destruct FM as (F1 & F2 & F3 & _).
  assert (FD : Forall scalar (date ++ [10])) by (apply Forall_app; split; [exact F1|apply scalars; reflexivity]).
  assert (FI : Forall scalar [48 + i]) by (apply Forall_cons; [unfold scalar; lia|apply Forall_nil]).
  assert (S0 := S c0 ltac:(cbn; tauto)). assert (S1 := S c1 ltac:(cbn; tauto)). assert (S2 := S c2 ltac:(cbn; tauto)).
  assert (S3 := S c3 ltac:(cbn; tauto)). assert (S4 := S c4 ltac:(cbn; tauto)).
  specialize (F2 i). specialize (F3 i 58587). unfold gnu_page. cbv zeta. rewrite NI.
  repeat (apply Forall_cons; [match goal with
    | |- op_chars _ (w ?s) => first [is_var s; assumption | apply scalars; vm_compute; reflexivity]
    | |- op_chars _ (OpPut _) => cbn; unfold scalar; lia
    | |- op_chars _ crlf2 => apply scalars; vm_compute; reflexivity
    | |- op_chars _ (OpWrite [10]) => apply scalars; vm_compute; reflexivity
    | H : Forall scalar ?s |- op_chars _ (OpWrite ?s) => exact H
    end|]). apply Forall_nil.
Qed.

Lemma html_ok : forall e, Forall scalar (e_scriptName e) -> exists i ops, chosen (e_acceptLanguages e) i /\
  html e = Val ops /\ text_of utf8 E_NONE ops = html_is e i /\ fine ops.
Proof.
  intros e SC. destruct (locale_chosen (e_acceptLanguages e)) as (i & P & C & L).
  unfold gnu_html. rewrite P. cbn [obind]. exists i. unfold html_is.
  destruct FM as (F1 & F2 & F3 & F4 & F5). specialize (F5 i L).
  destruct (catalogues_ok i L) as (l & c0 & c1 & c2 & c3 & c4 & -> & -> & UL & SL & S0 & S1 & S2 & S3 & S4).
  destruct ((i =? e_etag e) && (start <=? e_ifModifiedSince e)%Z).
  - exists not_modified. split; [exact C|]. split; [reflexivity|]. split; [reflexivity|apply fine_304].
  - exists (gnu_page date date_in number_in number e i l c0 c1 c2 c3 c4). split; [exact C|]. split; [reflexivity|]. split.
    + apply page_text; auto.
      assert (IS : i = 0 \/ i = 1 \/ i = 2 \/ i = 3 \/ i = 4 \/ i = 5) by lia.
      destruct IS as [->|[->|[->|[->|[->| ->]]]]]; reflexivity.
    + apply page_fine; auto. intros c [<-|[<-|[<-|[<-|[<-|[]]]]]];
        [apply S0|apply S1|apply S2|apply S3|apply S4].
Qed.

Definition reply_is (e : env) (text : list N) : Prop :=
  if match e_pathInfo e with [p] => list_eqb p (lit "gnu.png") | _ => false end then text = image_is e
  else exists i, chosen (e_acceptLanguages e) i /\ text = html_is e i.

Lemma response_ok : forall e, Forall scalar (e_scriptName e) -> exists ops,
  response e = Val ops /\ reply_is e (text_of utf8 E_NONE ops) /\ fine ops.
Proof.
  intros e SC. unfold gnu_response, reply_is. destruct (html_ok e SC) as (i & ops & C & H & T & F).
  destruct (image_ok e) as (T' & F').
  destruct (e_pathInfo e) as [|p [|q r]].
  - exists ops. eauto.
  - destruct (list_eqb p (lit "gnu.png")); eauto 6.
  - exists ops. eauto.
Qed.

Lemma gnu_answer : forall vts junk http_time strict cfg address_of,
  (forall n, length (junk n) = n) ->
  (forall t a, address_text t a -> ~ compat_text t -> address_of t = a) ->
  forall rs ms4 m4 bodies ms5 m5 e, c_id cfg < 65536 -> c_role cfg = 1 \/ c_role cfg = 2 ->
  Forall2 params_message rs ms4 -> is_message 4 [] m4 -> Forall2 (is_message 5) bodies ms5 ->
  Forall (fun c => c <> []) bodies -> is_message 5 [] m5 ->
  let e0 := describe vts http_time address_of env_init (concat (map p_params rs)) in
  e_contentLength e0 <= c_maxPost cfg -> len (concat bodies) <= e_contentLength e0 ->
  parsePostBuffer vts junk (set_postBuffer (concat bodies) e0) = Done (true, e) -> Forall scalar (e_scriptName e) ->
  exists text,
    answered vts junk http_time (Wide strict) (gnu png start date date_in number_in number) cfg tt
      (ms4 ++ [m4] ++ ms5 ++ [m5]) 0 text /\ reply_is e text.
Proof.
  intros vts junk ht strict cfg ao J AD rs ms4 m4 bodies ms5 m5 e I R H4 E4 H5 N5 E5 e0 L1 L2 PB' SC.
  destruct (response_ok (set_postBuffer [] e) SC) as (ops & H & T & F).
  exists (text_of utf8 E_NONE ops). split; [|exact T].
  pose proof (page_answer vts junk ht (Wide strict) cfg
    (fun e => match response e with Val l => l | UB => [] end) ao J AD rs ms4 m4 bodies ms5 m5 e I R H4 E4 H5 N5 E5 L1 L2 PB') as P.
  cbv beta in P. rewrite H in P. apply P. apply F.
Qed.

(** Sent back the tag and the date it got, the visitor is told that the page
    has not changed, exactly if it is still the one for them. *)
Lemma revisited : forall vts junk http_time strict cfg address_of,
  (forall n, length (junk n) = n) ->
  (forall t a, address_text t a -> ~ compat_text t -> address_of t = a) ->
  forall rs ms4 m4 m5, c_id cfg < 65536 -> c_role cfg = 1 \/ c_role cfg = 2 ->
  Forall2 params_message rs ms4 -> is_message 4 [] m4 -> is_message 5 [] m5 ->
  let ps := concat (map p_params rs) in
  let e := describe vts http_time address_of env_init ps in
  e_contentLength e <= c_maxPost cfg -> e_pathInfo e <> [lit "gnu.png"] -> Forall scalar (e_scriptName e) ->
  forall i d, i < 6 -> values "HTTP_IF_NONE_MATCH" ps = [[48 + i]] -> values "HTTP_IF_MODIFIED_SINCE" ps = [d] ->
  (start <= http_time d)%Z ->
  exists j, chosen (e_acceptLanguages e) j /\
    answered vts junk http_time (Wide strict) (gnu png start date date_in number_in number) cfg tt (ms4 ++ [m4; m5]) 0
      (if j =? i then reply_304 else reply_page date j (e_scriptName e) (number_in j 58587) (date_in j)).
Proof.
  intros vts junk ht strict cfg ao J AD rs ms4 m4 m5 I R H4 E4 E5 ps e L NP SC i d LI ET MO ST.
  destruct (gnu_answer vts junk ht strict cfg ao J AD rs ms4 m4 [] [] m5 (set_postBuffer [] e) I R H4 E4
    (Forall2_nil _) (Forall_nil _) E5 L) as (text & H & T); [cbn; lia|reflexivity|exact SC|].
  unfold reply_is in T. change (e_pathInfo (set_postBuffer [] e)) with (e_pathInfo e) in T.
  assert (PE : match e_pathInfo e with [p] => list_eqb p (lit "gnu.png") | _ => false end = false).
  { destruct (e_pathInfo e) as [|p [|q r]]; auto. destruct (list_eqb p (lit "gnu.png")) eqn:E; auto.
    apply list_eqb_eq in E. subst. contradiction. }
  rewrite PE in T. destruct T as (j & C & T). exists j. split; [exact C|].
  assert (X1 : e_etag e = i).
  { change (last_value (fun v => wrap 32 (leading_int v)) "HTTP_IF_NONE_MATCH" ps 0 = i).
    unfold last_value. rewrite ET. cbn [fold_left].
    assert (IS : i = 0 \/ i = 1 \/ i = 2 \/ i = 3 \/ i = 4 \/ i = 5) by lia.
    destruct IS as [->|[->|[->|[->|[->| ->]]]]]; reflexivity. }
  assert (X2 : e_ifModifiedSince e = ht d).
  { change (last_value ht "HTTP_IF_MODIFIED_SINCE" ps (e_ifModifiedSince env_init) = ht d).
    unfold last_value. rewrite MO. reflexivity. }
  unfold html_is in T. change (e_etag (set_postBuffer [] e)) with (e_etag e) in T.
  change (e_ifModifiedSince (set_postBuffer [] e)) with (e_ifModifiedSince e) in T. rewrite X1, X2 in T.
  destruct (Z.leb_spec start (ht d)); [|lia]. rewrite andb_true_r in T. rewrite T in H. exact H.
Qed.
End Gnu.

(** ** Concrete visits *)
Definition visit (ps : list (string * string)) : env :=
  describe (fun b _ => b) (fun t => if list_eqb t (lit "D") then 7%Z else 0%Z) (fun t => t) env_init (lits2 ps).
Definition ex_number (n : N) : list N := if n <? 10 then [48 + n] else lit "58587".
Definition ex_gnu (e : env) : option (list N) :=
  match gnu_response [137; 80; 78; 71] 7 (lit "D") (fun _ => lit "D") (fun _ _ => lit "58,587") ex_number e with
  | Val ops => Some (text_of utf8 E_NONE ops)
  | UB => None
  end.

Lemma ex_formats_gnu : gnu_formats (lit "D") (fun _ => lit "D") (fun _ _ => lit "58,587") ex_number.
Proof.
  split; [apply scalars; reflexivity|]. split; [intros; apply scalars; reflexivity|]. split; [intros; apply scalars; reflexivity|].
  split; [reflexivity|]. intros i L. unfold ex_number. destruct (N.ltb_spec i 10); [reflexivity|lia].
Qed.

Lemma stale : 
  ex_gnu (visit [("HTTP_ACCEPT_LANGUAGE", "fr")]%string) = Some (reply_page (lit "D") 2 [] (lit "58,587") (lit "D")) /\
  ex_gnu (visit [("HTTP_ACCEPT_LANGUAGE", "en")]%string) = Some (reply_page (lit "D") 0 [] (lit "58,587") (lit "D")) /\
  ex_gnu (visit [("HTTP_ACCEPT_LANGUAGE", "en"); ("HTTP_IF_MODIFIED_SINCE", "D")]%string) = Some reply_304.
Proof. split; [|split]; vm_compute; reflexivity. Qed.

Lemma injected : exists pre post,
  ex_gnu (visit [("SCRIPT_NAME", "/'><script>alert(1)</script><img src='")]%string)
  = Some (pre ++ lit "<img src='/'><script>alert(1)</script><img src='/gnu.png' alt='" ++ post).
Proof.
  exists (firstn 248 (reply_page (lit "D") 0 (lit "/'><script>alert(1)</script><img src='") (lit "58,587") (lit "D"))).
  exists (skipn 311 (reply_page (lit "D") 0 (lit "/'><script>alert(1)</script><img src='") (lit "58,587") (lit "D"))).
  vm_compute. reflexivity.
Qed.

Lemma ex_visits : 
  ex_gnu (visit [("HTTP_ACCEPT_LANGUAGE", "es,de-DE;q=0.8,en"); ("SCRIPT_NAME", "/x")]%string)
    = Some (reply_page (lit "D") 5 (lit "/x") (lit "58,587") (lit "D")) /\
  ex_gnu (visit [("HTTP_ACCEPT_LANGUAGE", "zh"); ("HTTP_IF_NONE_MATCH", "4"); ("HTTP_IF_MODIFIED_SINCE", "D")]%string) = Some reply_304 /\
  ex_gnu (visit [("HTTP_ACCEPT_LANGUAGE", "fr"); ("HTTP_IF_NONE_MATCH", "4"); ("HTTP_IF_MODIFIED_SINCE", "D")]%string)
    = Some (reply_page (lit "D") 2 [] (lit "58,587") (lit "D")) /\
  ex_gnu (visit [("PATH_INFO", "/gnu.png"); ("HTTP_IF_NONE_MATCH", "4"); ("HTTP_IF_MODIFIED_SINCE", "D")]%string) = Some reply_304 /\
  ex_gnu (visit [("PATH_INFO", "/gnu.png")]%string) = Some (reply_image (lit "D") [137; 80; 78; 71]).
Proof. split; [|split; [|split; [|split]]]; vm_compute; reflexivity. Qed.
