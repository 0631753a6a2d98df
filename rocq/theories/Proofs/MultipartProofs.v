(** Proofs about multipart forms. *)
From Coq Require Import String List NArith ZArith Bool Arith Lia ZifyBool ZifyNat ZifyN.
From Verif Require Import Model.Base Model.Environment Model.Multipart Spec.MultipartSpec.
Import ListNotations.
Local Open Scope nat_scope.

(* ------------------------------------------------------------------ *)
(** * Prefixes *)

Fixpoint prefixb (p l : list N) : bool :=
  match p, l with
  | [], _ => true
  | a :: p', x :: l' => N.eqb a x && prefixb p' l'
  | _, [] => false
  end.

(** They differ where both exist. *)
Fixpoint mism (p l : list N) : bool :=
  match p, l with
  | a :: p', x :: l' => negb (N.eqb a x) || mism p' l'
  | _, _ => false
  end.

Lemma mism_app : forall p l r, mism p l = true -> prefixb p (l ++ r) = false.
Proof.
  induction p as [|a p IH]; intros [|x l] r H; try discriminate. cbn in *.
  destruct (N.eqb a x); cbn in *; [auto|reflexivity].
Qed.

Lemma prefixb_iff : forall p l, prefixb p l = true <-> exists r, l = p ++ r.
Proof.
  induction p as [|a p IH]; intros l; cbn.
  - split; eauto.
  - destruct l as [|x l]; [split; [discriminate|intros (r & E); discriminate]|].
    rewrite andb_true_iff, N.eqb_eq, IH. split.
    + intros (-> & r & ->). eauto.
    + intros (r & E). injection E as -> ->. eauto.
Qed.

Lemma prefixb_self : forall p r, prefixb p (p ++ r) = true.
Proof. intros. apply prefixb_iff. eauto. Qed.

Lemma list_eqb_prefix : forall p l, list_eqb p (firstn (length p) l) = prefixb p l.
Proof.
  induction p as [|a p IH]; intros [|x l]; cbn; auto. now rewrite IH.
Qed.

Lemma starts_prefix : forall s buf byte, starts s buf byte = prefixb s (skipn byte buf).
Proof.
  intros s buf byte. unfold starts, slice.
  replace (byte + length s - byte) with (length s) by lia. rewrite list_eqb_prefix.
  destruct (prefixb s (skipn byte buf)) eqn:E; [|apply andb_false_r].
  apply prefixb_iff in E. destruct E as (r & E). apply (f_equal (@length N)) in E.
  rewrite skipn_length, app_length in E. rewrite andb_true_r. apply Nat.leb_le. lia.
Qed.

Lemma skipn_add : forall (A : Type) n m (l : list A), skipn n (skipn m l) = skipn (m + n) l.
Proof. intros A n m. induction m; intros [|x l]; cbn; auto. now destruct n. Qed.

Lemma skipn_len_app : forall (A : Type) (a b : list A), skipn (length a) (a ++ b) = b.
Proof. intros. rewrite skipn_app, skipn_all, Nat.sub_diag. reflexivity. Qed.

Section Loop.
Variable vts : list N -> list N -> list N.
Variables buf boundary : list N.

Notation e := (length buf).
Notation loop := (mp_loop vts buf boundary).
Notation at_ := (fun byte rest => skipn byte buf = rest).

Definition goes (byte : nat) (s : mp) (byte' : nat) (s' : mp) : Prop :=
  byte <= byte' /\ exists n, n <= 2 * (byte' - byte) /\ forall f, loop (n + f) byte s = loop f byte' s'.

Lemma goes_refl : forall byte s, goes byte s byte s.
Proof. intros. split; [lia|]. exists 0. split; [lia|reflexivity]. Qed.

Lemma goes_trans : forall b1 s1 b2 s2 b3 s3, goes b1 s1 b2 s2 -> goes b2 s2 b3 s3 -> goes b1 s1 b3 s3.
Proof.
  intros b1 s1 b2 s2 b3 s3 (L1 & n1 & M1 & H1) (L2 & n2 & M2 & H2). split; [lia|].
  exists (n1 + n2). split; [lia|]. intros f. rewrite <- Nat.add_assoc, H1. apply H2.
Qed.

Lemma at_lt : forall byte x rest, skipn byte buf = x :: rest -> byte < e.
Proof.
  intros byte x rest H. apply (f_equal (@length N)) in H. rewrite skipn_length in H. cbn in H. lia.
Qed.

Lemma at_rd : forall byte x rest, skipn byte buf = x :: rest -> rd buf byte = Some x.
Proof.
  intros byte x rest H. unfold rd. revert H. generalize buf. induction byte; intros [|y l] H; cbn in *; try discriminate.
  - congruence.
  - auto.
Qed.

Lemma at_app : forall byte a rest, skipn byte buf = a ++ rest -> skipn (byte + length a) buf = rest.
Proof. intros byte a rest H. rewrite <- skipn_add, H. apply skipn_len_app. Qed.

Lemma at_slice : forall byte a rest, skipn byte buf = a ++ rest -> slice buf byte (byte + length a) = a.
Proof.
  intros byte a rest H. unfold slice. replace (byte + length a - byte) with (length a) by lia.
  rewrite H. rewrite firstn_app, Nat.sub_diag, firstn_all. cbn. apply app_nil_r.
Qed.

Lemma goes_step : forall byte s byte' s', byte < e -> byte < byte' ->
  mp_step vts buf boundary byte s = Val (byte', s') -> goes byte s byte' s'.
Proof.
  intros byte s byte' s' L1 L2 H. split; [lia|]. exists 1. split; [lia|]. intros f.
  cbn [Nat.add mp_loop]. destruct (Nat.ltb_spec byte e); [|lia]. now rewrite H.
Qed.

(** Patterns looked for in state HEADER. *)
Definition patterns : list (list N) := [cName; cFilename; cContentType; cBody].

Definition quiet (l : list N) : Prop := Forall (fun p => prefixb p l = false) patterns.

Lemma header_step : forall byte s x rest, skipn byte buf = x :: rest -> mp_state s = M_HEADER -> quiet (x :: rest) ->
  goes byte s (S byte) s.
Proof.
  intros byte s x rest H ST Q. unfold quiet, patterns in Q.
  inversion Q as [|? ? Q1 Q']; subst. inversion Q' as [|? ? Q2 Q'']; subst.
  inversion Q'' as [|? ? Q3 Q3']; subst. inversion Q3' as [|? ? Q4 _]; subst.
  apply goes_step; [eapply at_lt; eauto|lia|].
  destruct s; cbn in ST; subst. cbn [mp_step]. rewrite !starts_prefix, H, Q1, Q2, Q3, Q4, !andb_false_r. reflexivity.
Qed.

Lemma header_scan : forall L byte s R, skipn byte buf = L ++ R -> mp_state s = M_HEADER ->
  (forall a b, L = a ++ b -> b <> [] -> quiet (b ++ R)) ->
  goes byte s (byte + length L) s.
Proof.
  induction L as [|x L IH]; intros byte s R H ST Q.
  - rewrite Nat.add_0_r. apply goes_refl.
  - eapply goes_trans.
    + apply (header_step _ _ x (L ++ R)); auto. apply (Q [] (x :: L)); [reflexivity|discriminate].
    + cbn [length]. replace (byte + S (length L)) with (S byte + length L) by lia. apply (IH _ _ R); auto.
      * change (S byte) with (1 + byte). rewrite Nat.add_comm. apply (at_app byte [x] (L ++ R)). exact H.
      * intros a b E NE. apply (Q (x :: a) b); [cbn; congruence|exact NE].
Qed.

(** A literal followed by a literal. *)
Fixpoint quietb (L Q : list N) : bool :=
  match L with
  | [] => true
  | _ :: L' => forallb (fun p => mism p (L ++ Q)) patterns && quietb L' Q
  end.

Lemma quietb_ok : forall L Q R, quietb L Q = true ->
  forall a b, L = a ++ b -> b <> [] -> quiet (b ++ Q ++ R).
Proof.
  induction L as [|x L IH]; intros Q R H a b E NE.
  - destruct a; [|discriminate]. cbn in E. subst b. congruence.
  - cbn [quietb] in H. apply andb_true_iff in H. destruct H as [H1 H2]. destruct a as [|y a].
    + cbn in E. subst b. rewrite app_assoc. unfold quiet. apply Forall_forall. intros p I.
      rewrite forallb_forall in H1. apply mism_app. apply H1. exact I.
    + cbn in E. injection E as -> ->. apply (IH Q R H2 a b); auto.
Qed.

(** Text without quotes, spaces and carriage returns, up to a carriage
    return. *)
Lemma quiet_plain : forall b R, ~ In 34%N b -> ~ In 32%N b -> ~ In 13%N b -> b <> [] -> quiet (b ++ 13%N :: R).
Proof.
  assert (GEN : forall p c p2 b R, ~ In 13%N (p ++ c :: p2) -> ~ In c b -> prefixb (p ++ c :: p2) (b ++ 13%N :: R) = false).
  { induction p as [|a p IH]; intros c p2 b R N13 NC; cbn [app] in *.
    - destruct b as [|x b]; cbn.
      + destruct (N.eqb_spec c 13); [|reflexivity]. subst. exfalso. apply N13. now left.
      + destruct (N.eqb_spec c x); [|reflexivity]. subst. exfalso. apply NC. now left.
    - destruct b as [|x b]; cbn.
      + destruct (N.eqb_spec a 13); [|reflexivity]. subst. exfalso. apply N13. now left.
      + destruct (N.eqb a x); [|reflexivity]. cbn. apply IH.
        * intro X. apply N13. now right.
        * intro X. apply NC. now right. }
  intros b R N34 N32 N13 NE. unfold quiet, patterns. repeat constructor.
  - unfold cName. apply (GEN (lit "name=") 34%N [] b R); auto. cbn. intuition discriminate.
  - unfold cFilename. apply (GEN (lit "filename=") 34%N [] b R); auto. cbn. intuition discriminate.
  - unfold cContentType. change (lit "Content-Type: ") with (lit "Content-Type:" ++ [32%N]).
    apply (GEN (lit "Content-Type:") 32%N [] b R); auto. cbn. intuition discriminate.
  - destruct b as [|x b]; [congruence|]. unfold cBody. cbn [app prefixb].
    destruct (N.eqb_spec 13 x); [|reflexivity]. subst. exfalso. apply N13. now left.
Qed.

Lemma plain_scan : forall b R byte s, skipn byte buf = b ++ 13%N :: R -> mp_state s = M_HEADER ->
  ~ In 34%N b -> ~ In 32%N b -> ~ In 13%N b -> goes byte s (byte + length b) s.
Proof.
  intros b R byte s H ST N34 N32 N13. apply (header_scan b byte s (13%N :: R)); auto.
  intros a c -> NE. apply quiet_plain; auto; intro X.
  - apply N34. apply in_or_app. auto.
  - apply N32. apply in_or_app. auto.
  - apply N13. apply in_or_app. auto.
Qed.

Lemma lit_scan : forall L Q R byte s, quietb L Q = true -> skipn byte buf = L ++ Q ++ R -> mp_state s = M_HEADER ->
  goes byte s (byte + length L) s.
Proof.
  intros L Q R byte s QB H ST. apply (header_scan L byte s (Q ++ R)); auto. now apply quietb_ok.
Qed.

(** Quoted strings. *)
Lemma name_scan : forall n R byte ns fs fe cs ce bs be posts files,
  skipn byte buf = n ++ 34%N :: R -> ~ In 34%N n ->
  goes byte (mkMp M_NAME ns e fs fe cs ce bs be posts files)
       (byte + length n + 1) (mkMp M_HEADER ns (byte + length n) fs fe cs ce bs be posts files).
Proof.
  induction n as [|x n IH]; intros R byte ns fs fe cs ce bs be posts files H NI.
  - cbn in H. rewrite Nat.add_0_r. apply goes_step; [eapply at_lt; eauto|lia|].
    cbn [mp_step]. rewrite (at_rd _ _ _ H). rewrite Nat.add_1_r. reflexivity.
  - cbn [app] in H. eapply goes_trans.
    + apply goes_step with (byte' := S byte); [eapply at_lt; eauto|lia|].
      cbn [mp_step]. rewrite (at_rd _ _ _ H). destruct (N.eqb_spec x 34); [subst; exfalso; apply NI; now left|].
      reflexivity.
    + cbn [length]. replace (byte + S (length n)) with (S byte + length n) by lia.
      apply (IH R).
      * rewrite <- (Nat.add_1_r byte). apply (at_app byte [x]). exact H.
      * intro X. apply NI. now right.
Qed.

Lemma filename_scan : forall n R byte ns ne fs cs ce bs be posts files,
  skipn byte buf = n ++ 34%N :: R -> ~ In 34%N n ->
  goes byte (mkMp M_FILENAME ns ne fs e cs ce bs be posts files)
       (byte + length n + 1) (mkMp M_HEADER ns ne fs (byte + length n) cs ce bs be posts files).
Proof.
  induction n as [|x n IH]; intros R byte ns ne fs cs ce bs be posts files H NI.
  - cbn in H. rewrite Nat.add_0_r. apply goes_step; [eapply at_lt; eauto|lia|].
    cbn [mp_step]. rewrite (at_rd _ _ _ H). rewrite Nat.add_1_r. reflexivity.
  - cbn [app] in H. eapply goes_trans.
    + apply goes_step with (byte' := S byte); [eapply at_lt; eauto|lia|].
      cbn [mp_step]. rewrite (at_rd _ _ _ H). destruct (N.eqb_spec x 34); [subst; exfalso; apply NI; now left|].
      reflexivity.
    + cbn [length]. replace (byte + S (length n)) with (S byte + length n) by lia.
      apply (IH R).
      * rewrite <- (Nat.add_1_r byte). apply (at_app byte [x]). exact H.
      * intro X. apply NI. now right.
Qed.

(** The content type and the empty line after it. *)
Lemma body_match : forall byte ns ne fs fe cs ce bs posts files R, skipn byte buf = cBody ++ R ->
  mp_step vts buf boundary byte (mkMp M_HEADER ns ne fs fe cs ce bs e posts files)
  = Val (byte + 4, mkMp M_BODY ns ne fs fe cs ce (byte + 4) e posts files).
Proof.
  intros. cbn [mp_step]. rewrite !starts_prefix, H. cbn [prefixb cBody cName cFilename cContentType lit app].
  rewrite Nat.eqb_refl. cbn. rewrite !andb_false_r. reflexivity.
Qed.

Lemma type_scan : forall t R byte ns ne fs fe cs bs posts files,
  skipn byte buf = t ++ cBody ++ R -> ~ In 13%N t -> ~ In 10%N t ->
  goes byte (mkMp M_CONTENT_TYPE ns ne fs fe cs e bs e posts files)
       (byte + length t + 4)
       (mkMp M_BODY ns ne fs fe cs (byte + length t) (byte + length t + 4) e posts files).
Proof.
  induction t as [|x t IH]; intros R byte ns ne fs fe cs bs posts files H N13 N10.
  - cbn [app length] in *. rewrite Nat.add_0_r. split; [lia|]. exists 2. split; [lia|]. intros f.
    assert (L : byte < e) by (eapply at_lt; exact H).
    cbn [Nat.add mp_loop]. destruct (Nat.ltb_spec byte e); [|lia].
    unfold mp_step at 1. rewrite (at_rd _ _ _ H). cbn [N.eqb Pos.eqb orb].
    cbn [mp_loop]. destruct (Nat.ltb_spec byte e); [|lia]. now rewrite (body_match _ _ _ _ _ _ _ _ _ _ R H).
  - cbn [app] in H. eapply goes_trans.
    + apply goes_step with (byte' := S byte); [eapply at_lt; eauto|lia|].
      cbn [mp_step]. rewrite (at_rd _ _ _ H).
      destruct (N.eqb_spec x 13); [subst; exfalso; apply N13; now left|].
      destruct (N.eqb_spec x 10); [subst; exfalso; apply N10; now left|]. reflexivity.
    + cbn [length]. replace (byte + S (length t)) with (S byte + length t) by lia.
      apply (IH R).
      * rewrite <- (Nat.add_1_r byte). apply (at_app byte [x]). exact H.
      * intro X. apply N13. now right.
      * intro X. apply N10. now right.
Qed.

(** Looking for the boundary. *)
Lemma body_scan : forall b R byte s, skipn byte buf = b ++ R -> mp_state s = M_BODY ->
  (forall p s, b = p ++ s -> s <> [] -> prefixb boundary (s ++ R) = false) ->
  goes byte s (byte + length b) s.
Proof.
  induction b as [|x b IH]; intros R byte s H ST Q.
  - rewrite Nat.add_0_r. apply goes_refl.
  - cbn [app] in H. eapply goes_trans.
    + apply goes_step with (byte' := S byte); [eapply at_lt; eauto|lia|].
      destruct s; cbn in ST; subst. cbn [mp_step]. rewrite starts_prefix, H.
      change (x :: b ++ R) with ((x :: b) ++ R). rewrite (Q [] (x :: b)); [reflexivity|reflexivity|discriminate].
    + cbn [length]. replace (byte + S (length b)) with (S byte + length b) by lia.
      apply (IH R); auto.
      * rewrite <- (Nat.add_1_r byte). apply (at_app byte [x]). exact H.
      * intros p q E NE. apply (Q (x :: p) q); [cbn; congruence|exact NE].
Qed.

Lemma bounded_quiet : forall body R, bounded_by boundary body ->
  forall p s, body ++ crlf ++ lit "--" = p ++ s -> s <> [] -> prefixb boundary (s ++ boundary ++ R) = false.
Proof.
  intros body R B p s E NE.
  destruct (prefixb boundary (s ++ boundary ++ R)) eqn:X; [|reflexivity]. exfalso.
  apply prefixb_iff in X. destruct X as (r & X).
  assert (Y : exists s', s ++ boundary = boundary ++ s' /\ s' <> []).
  { exists (skipn (length boundary) (s ++ boundary)).
    assert (P : firstn (length boundary) (s ++ boundary) = boundary).
    { assert (Z : firstn (length boundary) (s ++ boundary ++ R) = boundary).
      { rewrite X, firstn_app, Nat.sub_diag, firstn_all. cbn. apply app_nil_r. }
      rewrite app_assoc, firstn_app in Z.
      replace (length boundary - length (s ++ boundary)) with 0 in Z by (rewrite app_length; lia).
      cbn in Z. now rewrite app_nil_r in Z. }
    split.
    - rewrite <- P at 2. now rewrite firstn_skipn.
    - intro Z. apply (f_equal (@length N)) in Z. rewrite skipn_length, app_length in Z. cbn [length] in Z.
      assert (Z' : length s = 0) by lia. destruct s; [congruence|discriminate]. }
  destruct Y as (s' & Y & NE'). apply NE'. apply (B p s').
  unfold delimiter. rewrite !app_assoc. rewrite <- (app_assoc body).
  rewrite E, <- !app_assoc, Y. reflexivity.
Qed.

(** The end of a body. *)
Lemma body_end_ok : forall bs body R, skipn bs buf = body ++ crlf ++ lit "--" ++ R ->
  body_end buf bs (bs + length body + 4) = bs + length body.
Proof.
  intros bs body R H. unfold body_end.
  assert (H1 : skipn (bs + length body) buf = [13%N; 10%N] ++ lit "--" ++ R) by (apply at_app; exact H).
  replace (bs + length body + 4 - 2) with (bs + length body + 2) by lia.
  destruct (Nat.ltb_spec (bs + length body + 2) bs); [lia|].
  destruct (Nat.leb_spec 2 (bs + length body + 2 - bs)); [|lia].
  replace (bs + length body + 2 - 1) with (bs + length body + 1) by lia.
  replace (bs + length body + 2 - 2) with (bs + length body) by lia.
  assert (S1 : slice buf (bs + length body) (bs + length body + 1) = [13%N]).
  { apply (at_slice _ [13%N] ([10%N] ++ lit "--" ++ R)). exact H1. }
  assert (S2 : slice buf (bs + length body + 1) (bs + length body + 2) = [10%N]).
  { replace (bs + length body + 2) with (bs + length body + 1 + 1) by lia.
    apply (at_slice _ [10%N] (lit "--" ++ R)).
    apply (at_app _ [13%N]). exact H1. }
  rewrite S1, S2. reflexivity.
Qed.

Definition text_of_part (p : part) : list (list N * list N) :=
  match p with TextPart n b => [(vts n [], vts b [])] | _ => [] end.
Definition file_of_part (p : part) : list (list N * (list N * list N * list N)) :=
  match p with
  | FilePart n f t b => [(vts n [], (match f with Some f => vts f [] | None => [] end, vts t [], b))]
  | _ => [] end.

(** From the start of a body to behind the first character of the boundary. *)
Lemma finish_part : forall bs body R ns ne fs fe cs ce posts files,
  skipn bs buf = body ++ crlf ++ lit "--" ++ boundary ++ R -> boundary <> [] -> bounded_by boundary body ->
  goes bs (mkMp M_BODY ns ne fs fe cs ce bs e posts files) (bs + length body + 4 + 1)
    (mp_store vts buf (mkMp M_BODY ns ne fs fe cs ce bs e posts files) (bs + length body)).
Proof.
  intros bs body R ns ne fs fe cs ce posts files H NB B. eapply goes_trans.
  - apply (body_scan (body ++ crlf ++ lit "--") (boundary ++ R)).
    + rewrite <- !app_assoc. exact H.
    + reflexivity.
    + intros p s E NE. eapply bounded_quiet; eauto.
  - replace (bs + length (body ++ crlf ++ lit "--")) with (bs + length body + 4)
      by (rewrite !app_length; cbn; lia).
    assert (H1 : skipn (bs + length body + 4) buf = boundary ++ R).
    { replace (bs + length body + 4) with (bs + length (body ++ crlf ++ lit "--"))
        by (rewrite !app_length; cbn; lia).
      apply at_app. rewrite <- !app_assoc. exact H. }
    assert (L : bs + length body + 4 < e).
    { destruct boundary as [|x b]; [congruence|]. eapply at_lt. exact H1. }
    apply goes_step; [exact L|lia|].
    cbn [mp_step]. rewrite starts_prefix, H1, prefixb_self.
    rewrite (body_end_ok bs body (boundary ++ R) H). rewrite Nat.add_1_r. reflexivity.
Qed.

Lemma part_goes : forall pre p R byte posts files,
  ~ In 34%N pre -> ~ In 32%N pre -> ~ In 13%N pre -> boundary <> [] -> part_ok boundary p ->
  skipn byte buf = pre ++ (crlf ++ part_head p ++ crlf ++ crlf ++ part_body p ++ crlf ++ lit "--") ++ boundary ++ R ->
  goes byte (mp_reset buf posts files)
    (byte + length (pre ++ crlf ++ part_head p ++ crlf ++ crlf ++ part_body p ++ crlf ++ lit "--") + 1)
    (mp_reset buf (posts ++ text_of_part p) (files ++ file_of_part p)).
Proof.
  intros pre p R byte posts files N34 N32 N13 NB OK H.
  set (b1 := byte + length pre).
  assert (G1 : goes byte (mp_reset buf posts files) b1 (mp_reset buf posts files)).
  { eapply plain_scan; eauto. rewrite <- !app_assoc in H. exact H. }
  assert (A1 : skipn b1 buf = (crlf ++ part_head p ++ crlf ++ crlf ++ part_body p ++ crlf ++ lit "--") ++ boundary ++ R)
    by (apply at_app; exact H).
  pose (n := match p with TextPart n _ => n | FilePart n _ _ _ => n end).
  assert (NN : ~ In 34%N n) by (destruct OK as (_ & OK); unfold n; destruct p; tauto).
  pose (tl := match p with TextPart _ _ => [] | FilePart _ f t _ =>
      match f with Some f => lit "; filename=" ++ [34%N] ++ f ++ [34%N] | None => [] end
      ++ crlf ++ lit "Content-Type: " ++ t end).
  assert (PH : part_head p = lit "Content-Disposition: form-data; " ++ cName ++ n ++ [34%N] ++ tl).
  { unfold n, tl. destruct p as [n0 b0|n0 f t b0]; cbn [part_head]; unfold disposition, cName.
    - rewrite app_nil_r. cbn [lit app]. reflexivity.
    - rewrite <- !app_assoc. cbn [lit app]. reflexivity. }
  set (L2 := crlf ++ lit "Content-Disposition: form-data; ").
  assert (A1' : skipn b1 buf = L2 ++ cName ++ n ++ [34%N] ++ tl ++ crlf ++ crlf ++ part_body p ++ crlf ++ lit "--" ++ boundary ++ R).
  { rewrite A1, PH. unfold L2. rewrite <- !app_assoc. reflexivity. }
  set (b2 := b1 + length L2).
  assert (G2 : goes b1 (mp_reset buf posts files) b2 (mp_reset buf posts files)).
  { eapply (lit_scan L2 cName); [reflexivity|exact A1'|reflexivity]. }
  assert (A2 : skipn b2 buf = cName ++ n ++ [34%N] ++ tl ++ crlf ++ crlf ++ part_body p ++ crlf ++ lit "--" ++ boundary ++ R)
    by (apply at_app; exact A1').
  set (b3 := b2 + length cName).
  assert (A3 : skipn b3 buf = n ++ [34%N] ++ tl ++ crlf ++ crlf ++ part_body p ++ crlf ++ lit "--" ++ boundary ++ R)
    by (apply at_app; exact A2).
  assert (G3 : goes b2 (mp_reset buf posts files) b3 (mkMp M_NAME b3 e e e e e e e posts files)).
  { apply goes_step; [|unfold b3; cbn; lia|].
    - eapply at_lt. exact A2.
    - unfold mp_reset. cbn [mp_step]. rewrite !starts_prefix, A2, prefixb_self, Nat.eqb_refl. reflexivity. }
  set (b4 := b3 + length n + 1).
  assert (G4 : goes b3 (mkMp M_NAME b3 e e e e e e e posts files) b4
                 (mkMp M_HEADER b3 (b3 + length n) e e e e e e posts files))
    by (eapply name_scan; eauto).
  assert (A4 : skipn b4 buf = tl ++ crlf ++ crlf ++ part_body p ++ crlf ++ lit "--" ++ boundary ++ R).
  { unfold b4. rewrite <- Nat.add_assoc. replace (length n + 1) with (length (n ++ [34%N])) by (rewrite app_length; reflexivity).
    apply at_app. rewrite <- app_assoc. exact A3. }
  assert (NE : b3 + length n < e).
  { eapply at_lt. apply at_app. exact A3. }
  assert (SN : slice buf b3 (b3 + length n) = n) by (eapply at_slice; exact A3).
  destruct OK as (BB & OK).
  destruct p as [n0 body|n0 f t body]; cbn [part_body] in *; subst n; cbn beta iota in *.
  - (* text *)
    subst tl. cbn [app] in A4.
    set (b5 := b4 + 4).
    assert (G5 : goes b4 (mkMp M_HEADER b3 (b3 + length n0) e e e e e e posts files) b5
                   (mkMp M_BODY b3 (b3 + length n0) e e e e b5 e posts files)).
    { apply goes_step; [|unfold b5; lia|].
      - eapply at_lt. exact A4.
      - eapply body_match. exact A4. }
    assert (A5 : skipn b5 buf = body ++ crlf ++ lit "--" ++ boundary ++ R)
      by (apply (at_app b4 cBody); exact A4).
    pose proof (finish_part b5 body R b3 (b3 + length n0) e e e e posts files A5 NB BB) as G6.
    assert (SB : slice buf b5 (b5 + length body) = body) by (eapply at_slice; exact A5).
    unfold mp_store in G6. cbn [mp_nameEnd mp_nameStart mp_ctEnd mp_bodyStart mp_posts mp_files] in G6.
    destruct (Nat.eqb_spec (b3 + length n0) e) as [X|_]; [lia|]. rewrite Nat.eqb_refl in G6. cbn [negb] in G6.
    rewrite SN, SB in G6. cbn [text_of_part file_of_part]. rewrite app_nil_r.
    replace (byte + length (pre ++ crlf ++ part_head (TextPart n0 body) ++ crlf ++ crlf ++ body ++ crlf ++ lit "--") + 1)
      with (b5 + length body + 4 + 1).
    + eapply goes_trans; [exact G1|]. eapply goes_trans; [exact G2|]. eapply goes_trans; [exact G3|].
      eapply goes_trans; [exact G4|]. eapply goes_trans; [exact G5|]. exact G6.
    + rewrite PH. unfold b5, b4, b3, b2, b1, L2. rewrite !app_length. cbn [length lit cName app crlf]. lia.
  - (* file *)
    destruct OK as (_ & T13 & T10 & FN).
    pose (fs := match f with Some f0 => b4 + length (lit "; filename=" ++ [34%N]) | None => e end).
    pose (fe := match f with Some f0 => b4 + length (lit "; filename=" ++ [34%N]) + length f0 | None => e end).
    set (fl := match f with Some f0 => lit "; filename=" ++ [34%N] ++ f0 ++ [34%N] | None => [] end) in *.
    set (b5 := b4 + length fl).
    set (Rt := crlf ++ crlf ++ body ++ crlf ++ lit "--" ++ boundary ++ R) in *.
    assert (A4' : skipn b4 buf = fl ++ crlf ++ lit "Content-Type: " ++ t ++ Rt).
    { rewrite A4. subst tl. rewrite <- !app_assoc. reflexivity. }
    assert (A5 : skipn b5 buf = crlf ++ lit "Content-Type: " ++ t ++ Rt)
      by (apply at_app; exact A4').
    assert (G5 : goes b4 (mkMp M_HEADER b3 (b3 + length n0) e e e e e e posts files) b5
                   (mkMp M_HEADER b3 (b3 + length n0) fs fe e e e e posts files)).
    { destruct f as [f0|]; cbn beta iota in *.
      - assert (G51 : goes b4 (mkMp M_HEADER b3 (b3 + length n0) e e e e e e posts files) (b4 + 2)
                        (mkMp M_HEADER b3 (b3 + length n0) e e e e e e posts files)).
        { apply (lit_scan (lit "; ") cFilename (f0 ++ [34%N] ++ crlf ++ lit "Content-Type: " ++ t ++ Rt)); auto.
          rewrite A4'. unfold fl. unfold cFilename. cbn [lit app]. rewrite <- !app_assoc. reflexivity. }
        assert (A51 : skipn (b4 + 2) buf = cFilename ++ f0 ++ [34%N] ++ crlf ++ lit "Content-Type: " ++ t ++ Rt).
        { apply (at_app b4 (lit "; ")). rewrite A4'. unfold fl, cFilename. cbn [lit app]. rewrite <- !app_assoc. reflexivity. }
        assert (A52 : skipn (b4 + 2 + 10) buf = f0 ++ [34%N] ++ crlf ++ lit "Content-Type: " ++ t ++ Rt)
          by (apply (at_app _ cFilename); exact A51).
        assert (G52 : goes (b4 + 2) (mkMp M_HEADER b3 (b3 + length n0) e e e e e e posts files) (b4 + 2 + 10)
                        (mkMp M_FILENAME b3 (b3 + length n0) (b4 + 2 + 10) e e e e e posts files)).
        { apply goes_step; [eapply at_lt; exact A51|lia|].
          cbn [mp_step]. rewrite !starts_prefix, A51, prefixb_self, Nat.eqb_refl.
          destruct (Nat.eqb_spec (b3 + length n0) e) as [X|_]; [lia|]. cbn [andb]. reflexivity. }
        eapply goes_trans; [exact G51|]. eapply goes_trans; [exact G52|].
        pose proof (filename_scan f0 _ _ b3 (b3 + length n0) (b4 + 2 + 10) e e e e posts files A52 FN) as G53.
        unfold b5, fl, fs, fe.
        replace (b4 + length (lit "; filename=" ++ [34%N] ++ f0 ++ [34%N])) with (b4 + 2 + 10 + length f0 + 1)
          by (rewrite !app_length; cbn; lia).
        replace (b4 + length (lit "; filename=" ++ [34%N])) with (b4 + 2 + 10) by (cbn; lia).
        exact G53.
      - unfold b5, fl. cbn [length]. rewrite Nat.add_0_r. apply goes_refl. }
    set (sh := mkMp M_HEADER b3 (b3 + length n0) fs fe e e e e posts files) in *.
    set (b6 := b5 + 2).
    assert (A6 : skipn b6 buf = lit "Content-Type: " ++ t ++ Rt) by (apply (at_app b5 crlf); exact A5).
    assert (G6 : goes b5 sh b6 sh).
    { apply (lit_scan crlf (lit "Content-Type: ") (t ++ Rt)); auto. }
    set (b7 := b6 + 14).
    assert (A7 : skipn b7 buf = t ++ Rt) by (apply (at_app b6 (lit "Content-Type: ")); exact A6).
    assert (G7 : goes b6 sh b7 (mkMp M_CONTENT_TYPE b3 (b3 + length n0) fs fe b7 e e e posts files)).
    { apply goes_step; [eapply at_lt; exact A6|unfold b7; lia|].
      unfold sh. cbn [mp_step]. rewrite !starts_prefix, A6.
      destruct (Nat.eqb_spec (b3 + length n0) e) as [X|_]; [lia|]. cbn [andb].
      change (prefixb cFilename (lit "Content-Type: " ++ t ++ Rt)) with false.
      unfold cContentType. rewrite prefixb_self, Nat.eqb_refl, andb_false_r. reflexivity. }
    pose proof (type_scan t (body ++ crlf ++ lit "--" ++ boundary ++ R) b7 b3 (b3 + length n0) fs fe b7 e posts files A7 T13 T10) as G8.
    set (b8 := b7 + length t + 4) in *.
    assert (A8 : skipn b8 buf = body ++ crlf ++ lit "--" ++ boundary ++ R).
    { unfold b8. rewrite <- Nat.add_assoc.
      replace (length t + 4) with (length (t ++ cBody)) by (rewrite app_length; reflexivity).
      apply at_app. rewrite <- app_assoc. exact A7. }
    pose proof (finish_part b8 body R b3 (b3 + length n0) fs fe b7 (b7 + length t) posts files A8 NB BB) as G9.
    assert (SB : slice buf b8 (b8 + length body) = body) by (eapply at_slice; exact A8).
    assert (ST : slice buf b7 (b7 + length t) = t) by (eapply at_slice; exact A7).
    assert (LT : b7 + length t < e).
    { eapply at_lt. apply at_app. exact A7. }
    unfold mp_store in G9.
    cbn [mp_nameEnd mp_nameStart mp_ctEnd mp_ctStart mp_filenameEnd mp_filenameStart mp_bodyStart mp_posts mp_files] in G9.
    destruct (Nat.eqb_spec (b3 + length n0) e) as [X|_]; [lia|].
    destruct (Nat.eqb_spec (b7 + length t) e) as [X|_]; [lia|]. cbn [negb] in G9.
    rewrite SN, SB, ST in G9.
    assert (FV : (if negb (fe =? e) then vts (slice buf fs fe) [] else []) =
                 match f with Some f => vts f [] | None => [] end).
    { destruct f as [f0|]; unfold fe, fs.
      - assert (AF : skipn (b4 + length (lit "; filename=" ++ [34%N])) buf = f0 ++ [34%N] ++ crlf ++ lit "Content-Type: " ++ t ++ Rt).
        { apply at_app. rewrite A4'. unfold fl. rewrite <- !app_assoc. reflexivity. }
        rewrite (at_slice _ _ _ AF).
        destruct (Nat.eqb_spec (b4 + length (lit "; filename=" ++ [34%N]) + length f0) e) as [X|_]; [|reflexivity].
        exfalso. assert (Y := at_lt _ _ _ (at_app _ _ _ AF)). lia.
      - now rewrite Nat.eqb_refl. }
    rewrite FV in G9. cbn [text_of_part file_of_part]. rewrite app_nil_r.
    replace (byte + length (pre ++ crlf ++ part_head (FilePart n0 f t body) ++ crlf ++ crlf ++ body ++ crlf ++ lit "--") + 1)
      with (b8 + length body + 4 + 1).
    + eapply goes_trans; [exact G1|]. eapply goes_trans; [exact G2|]. eapply goes_trans; [exact G3|].
      eapply goes_trans; [exact G4|]. eapply goes_trans; [exact G5|]. eapply goes_trans; [exact G6|].
      eapply goes_trans; [exact G7|]. eapply goes_trans; [exact G8|]. exact G9.
    + rewrite PH. subst tl. fold fl. unfold b8, b7, b6, b5, b4, b3, b2, b1, L2.
      rewrite !app_length. cbn [length lit cName app crlf]. lia.
Qed.

(** Any number of parts. *)
Lemma parts_go : forall ps pre byte posts files,
  ~ In 34%N pre -> ~ In 32%N pre -> ~ In 13%N pre -> boundary_ok boundary -> Forall (part_ok boundary) ps ->
  skipn byte buf = pre ++ flat_map (fun p => (crlf ++ part_head p ++ crlf ++ crlf ++ part_body p ++ crlf ++ lit "--") ++ boundary) ps
                       ++ lit "--" ++ crlf ->
  goes byte (mp_reset buf posts files) e
    (mp_reset buf (posts ++ flat_map text_of_part ps) (files ++ flat_map file_of_part ps)).
Proof.
  induction ps as [|p ps IH]; intros pre byte posts files N34 N32 N13 BOK F H.
  - cbn [flat_map app] in H. cbn [flat_map]. rewrite !app_nil_r.
    assert (LE : e = byte + length (pre ++ lit "--") + 2).
    { apply (f_equal (@length N)) in H. rewrite skipn_length, !app_length in H. rewrite app_length. cbn in *. lia. }
    eapply goes_trans.
    + apply (plain_scan (pre ++ lit "--") [10%N]).
      * rewrite <- app_assoc. exact H.
      * reflexivity.
      * intro X. apply in_app_or in X. destruct X as [X|X]; [auto|]. cbn in X. intuition discriminate.
      * intro X. apply in_app_or in X. destruct X as [X|X]; [auto|]. cbn in X. intuition discriminate.
      * intro X. apply in_app_or in X. destruct X as [X|X]; [auto|]. cbn in X. intuition discriminate.
    + assert (A : skipn (byte + length (pre ++ lit "--")) buf = crlf ++ []).
      { apply at_app. rewrite <- app_assoc. exact H. }
      rewrite LE. apply (header_scan crlf _ _ []); [exact A|reflexivity|].
      intros a b E NE. assert (C : b = [13%N; 10%N] \/ b = [10%N]).
      { unfold crlf in E. destruct a as [|x [|y [|z a]]]; cbn in E; [left; congruence|right; congruence| |].
        - injection E as _ _ E. congruence.
        - injection E as _ _ E. discriminate. }
      destruct C as [-> | ->]; repeat constructor.
  - inversion F as [|? ? F1 F2]; subst. cbn [flat_map] in H. rewrite <- !app_assoc in H.
    destruct BOK as (NB & B34 & B32 & B13).
    destruct boundary as [|x b] eqn:EB; [congruence|]. rewrite <- EB in *.
    set (rest := flat_map (fun p => (crlf ++ part_head p ++ crlf ++ crlf ++ part_body p ++ crlf ++ lit "--") ++ boundary) ps
                   ++ lit "--" ++ crlf) in *.
    assert (H1 : skipn byte buf = pre ++ (crlf ++ part_head p ++ crlf ++ crlf ++ part_body p ++ crlf ++ lit "--") ++ boundary ++ rest).
    { rewrite H, <- !app_assoc. reflexivity. }
    assert (NB' : boundary <> []) by (rewrite EB; discriminate).
    pose proof (part_goes pre p rest byte posts files N34 N32 N13 NB' F1 H1) as G.
    eapply goes_trans; [exact G|].
    cbn [flat_map]. rewrite !(app_assoc posts), !(app_assoc files).
    apply (IH b); auto.
    + intro X. apply B34. rewrite EB. now right.
    + intro X. apply B32. rewrite EB. now right.
    + intro X. apply B13. rewrite EB. now right.
    + split; [exact NB'|auto].
    + set (M := pre ++ crlf ++ part_head p ++ crlf ++ crlf ++ part_body p ++ crlf ++ lit "--").
      replace (byte + length M + 1) with (byte + length (M ++ [x])) by (rewrite app_length; cbn; lia).
      apply at_app. rewrite H1. unfold M. rewrite <- !app_assoc. rewrite EB at 1. cbn [app]. reflexivity.
Qed.
End Loop.

Lemma multipart_shape : forall boundary ps,
  multipart boundary ps = delimiter boundary
    ++ flat_map (fun p => (crlf ++ part_head p ++ crlf ++ crlf ++ part_body p ++ crlf ++ lit "--") ++ boundary) ps
    ++ lit "--" ++ crlf.
Proof.
  intros boundary ps. unfold multipart. induction ps as [|p ps IH]; [reflexivity|].
  cbn [flat_map]. rewrite <- !app_assoc, IH. unfold delimiter. rewrite <- !app_assoc. reflexivity.
Qed.

Lemma text_parts : forall vts ps, flat_map (text_of_part vts) ps = conv_texts (fun l => vts l []) (texts ps).
Proof. induction ps as [|[n b|n f t b] ps IH]; cbn; rewrite ?IH; reflexivity. Qed.

Lemma file_parts : forall vts ps, flat_map (file_of_part vts) ps = conv_uploads (fun l => vts l []) (uploads ps).
Proof. induction ps as [|[n b|n f t b] ps IH]; cbn; rewrite ?IH; reflexivity. Qed.

Lemma multipart_parse : forall vts e ps, boundary_ok (e_boundary e) -> Forall (part_ok (e_boundary e)) ps ->
  e_postBuffer e = multipart (e_boundary e) ps ->
  parsePostsMultipart vts e =
  Done (set_files (e_files e ++ conv_uploads (fun l => vts l []) (uploads ps))
         (set_posts (e_posts e ++ conv_texts (fun l => vts l []) (texts ps)) e)).
Proof.
  intros vts e ps B F H. rewrite <- text_parts, <- file_parts. unfold parsePostsMultipart.
  assert (G : goes vts (e_postBuffer e) (e_boundary e) 0 (mp_reset (e_postBuffer e) [] []) (length (e_postBuffer e))
     (mp_reset (e_postBuffer e) ([] ++ flat_map (text_of_part vts) ps) ([] ++ flat_map (file_of_part vts) ps))).
  { pose proof B as (B0 & B34 & B32 & B13).
    apply (parts_go vts (e_postBuffer e) (e_boundary e) ps (delimiter (e_boundary e))); auto.
    - unfold delimiter. intro X. apply in_app_or in X. cbn in X. intuition discriminate.
    - unfold delimiter. intro X. apply in_app_or in X. cbn in X. intuition discriminate.
    - unfold delimiter. intro X. apply in_app_or in X. cbn in X. intuition discriminate.
    - cbn [skipn]. rewrite H. apply multipart_shape. }
  destruct G as (_ & n & L & G). rewrite Nat.sub_0_r in L.
  replace (2 * length (e_postBuffer e)) with (n + (2 * length (e_postBuffer e) - n)) by lia.
  rewrite G.
  assert (D : forall f s, mp_loop vts (e_postBuffer e) (e_boundary e) f (length (e_postBuffer e)) s = Done s).
  { intros f s. destruct f; cbn [mp_loop]; now rewrite Nat.ltb_irrefl. }
  rewrite D. reflexivity.
Qed.

(** A sufficient condition for [bounded_by]. *)
Lemma dash1 : forall b s, 45%N :: b = b ++ s -> Forall (fun c => c = 45%N) b.
Proof.
  induction b as [|y b IH]; intros s E; [constructor|]. cbn in E. injection E as <- E. constructor; eauto.
Qed.

Lemma dash2 : forall b s, 45%N :: 45%N :: b = b ++ s -> Forall (fun c => c = 45%N) b.
Proof.
  induction b as [|y b IH]; intros s E; [constructor|]. cbn in E. injection E as <- E. constructor; eauto.
Qed.

Lemma bounded_if : forall boundary body, ~ In 13%N boundary -> ~ In 10%N boundary ->
  Exists (fun c => c <> 45%N) boundary ->
  (forall p s, body <> p ++ boundary ++ s) -> bounded_by boundary body.
Proof.
  intros boundary body N13 N10 EX NO p s E.
  assert (ND : ~ Forall (fun c => c = 45%N) boundary).
  { intro F. apply Exists_exists in EX. destruct EX as (x & I & X). rewrite Forall_forall in F. auto. }
  assert (NB : 0 < length boundary) by (destruct boundary; [inversion EX|cbn; lia]).
  assert (LE := f_equal (@length N) E). unfold delimiter in LE. rewrite !app_length in LE. cbn [length crlf lit] in LE.
  destruct (Nat.leb_spec (length p + length boundary) (length body)) as [L|L].
  { exfalso. apply (NO p (skipn (length p + length boundary) body)).
    assert (X : firstn (length p + length boundary) (body ++ crlf ++ delimiter boundary) = p ++ boundary).
    { rewrite E, app_assoc, firstn_app, app_length, Nat.sub_diag.
      rewrite <- app_length, firstn_all. cbn. apply app_nil_r. }
    rewrite firstn_app in X. replace (length p + length boundary - length body) with 0 in X by lia.
    cbn [firstn] in X. rewrite app_nil_r in X.
    rewrite <- (firstn_skipn (length p + length boundary) body) at 1. rewrite X, <- app_assoc. reflexivity. }
  destruct (Nat.leb_spec (length p) (length body)) as [L2|L2].
  { exfalso. apply N13.
    assert (X : nth_error (p ++ boundary ++ s) (length body) = Some 13%N).
    { rewrite <- E, nth_error_app2, Nat.sub_diag by lia. reflexivity. }
    rewrite nth_error_app2 in X by lia. rewrite nth_error_app1 in X by lia.
    eapply nth_error_In. exact X. }
  assert (SP : forall k, length p = length body + k -> skipn k (crlf ++ delimiter boundary) = boundary ++ s).
  { intros k LK. apply (f_equal (skipn (length body + k))) in E.
    rewrite <- skipn_add, skipn_len_app, <- LK, skipn_len_app in E. exact E. }
  destruct (Nat.eq_dec (length p) (length body + 1)) as [E1|E1].
  { exfalso. specialize (SP 1 E1). destruct boundary; [cbn in NB; lia|]. cbn in SP.
    injection SP as <- _. apply N10. now left. }
  destruct (Nat.eq_dec (length p) (length body + 2)) as [E2|E2].
  { exfalso. specialize (SP 2 E2). cbn in SP. apply ND. eapply dash2; eauto. }
  destruct (Nat.eq_dec (length p) (length body + 3)) as [E3|E3].
  { exfalso. specialize (SP 3 E3). cbn in SP. apply ND. eapply dash1; eauto. }
  destruct s; [reflexivity|]. cbn [length] in LE. lia.
Qed.

(* ------------------------------------------------------------------ *)
(** * Any body at all *)

Lemma mp_loop_total : forall vts buf boundary fuel byte s,
  byte <= length buf ->
  2 * (length buf - byte) + (match mp_state s with M_CONTENT_TYPE => 1 | _ => 0 end) <= fuel ->
  exists s', mp_loop vts buf boundary fuel byte s = Done s'.
Proof.
  intros vts buf boundary. induction fuel as [|f IH]; intros byte s L H.
  - cbn [mp_loop]. destruct (Nat.ltb_spec byte (length buf)); [lia|eauto].
  - cbn [mp_loop]. destruct (Nat.ltb_spec byte (length buf)) as [B|B]; [|eauto].
    destruct (rd buf byte) as [c|] eqn:R.
    2:{ unfold rd in R. apply nth_error_None in R. lia. }
    assert (ADV : forall p, starts p buf byte = true -> byte + length p <= length buf).
    { intros p S. unfold starts in S. apply andb_true_iff in S. destruct S as [S _]. apply Nat.leb_le in S. lia. }
    destruct s as [st ns ne fs fe cs ce bs be ps fl].
    destruct st; cbn [mp_step mp_state] in *; rewrite ?R.
    + destruct ((ne =? length buf) && starts cName buf byte) eqn:X.
      { apply andb_true_iff in X as [_ X]. apply ADV in X. apply IH; [exact X|]. cbn in *; lia. }
      destruct ((fe =? length buf) && starts cFilename buf byte) eqn:X2.
      { apply andb_true_iff in X2 as [_ X2]. apply ADV in X2. apply IH; [exact X2|]. cbn in *; lia. }
      destruct ((ce =? length buf) && starts cContentType buf byte) eqn:X3.
      { apply andb_true_iff in X3 as [_ X3]. apply ADV in X3. apply IH; [exact X3|]. cbn in *; lia. }
      destruct ((be =? length buf) && starts cBody buf byte) eqn:X4.
      { apply andb_true_iff in X4 as [_ X4]. apply ADV in X4. apply IH; [exact X4|]. cbn in *; lia. }
      apply IH; [lia|]. cbn [mp_state]. lia.
    + destruct (N.eqb c 34); apply IH; cbn [mp_state]; lia.
    + destruct (N.eqb c 34); apply IH; cbn [mp_state]; lia.
    + destruct (N.eqb c 13 || N.eqb c 10)%bool; apply IH; cbn [mp_state]; lia.
    + destruct (starts boundary buf byte); apply IH; try lia.
      * unfold mp_store, mp_reset. repeat (match goal with |- context[if ?b then _ else _] => destruct b end);
          cbn [mp_state]; lia.
      * cbn [mp_state]. lia.
Qed.

Lemma multipart_total : forall vts e, exists posts files,
  parsePostsMultipart vts e = Done (set_files (e_files e ++ files) (set_posts (e_posts e ++ posts) e)).
Proof.
  intros vts e. unfold parsePostsMultipart.
  destruct (mp_loop_total vts (e_postBuffer e) (e_boundary e) (2 * length (e_postBuffer e)) 0
     (mp_reset (e_postBuffer e) [] [])) as (s & ->); [lia|cbn [mp_state mp_reset]; lia|]. eauto.
Qed.

(** A body with the content type given. *)
Lemma multipart_body_parse : forall vts junk e ps, boundary_ok (e_boundary e) -> Forall (part_ok (e_boundary e)) ps ->
  e_contentType e = lit "multipart/form-data" -> e_postBuffer e = multipart (e_boundary e) ps ->
  parsePostBuffer vts junk e =
  Done (true, set_files (e_files e ++ conv_uploads (fun l => vts l []) (uploads ps))
         (set_posts (e_posts e ++ conv_texts (fun l => vts l []) (texts ps)) e)).
Proof.
  intros vts junk e ps B F T H. unfold parsePostBuffer. rewrite T.
  destruct (e_postBuffer e) as [|x b] eqn:PB.
  - exfalso. apply (f_equal (@length N)) in H. unfold multipart, delimiter in H. rewrite !app_length in H. cbn in H. lia.
  - change (list_eqb (lit "multipart/form-data") (lit "multipart/form-data")) with true. cbn iota.
    rewrite (multipart_parse vts e ps B F (eq_trans PB H)). reflexivity.
Qed.
