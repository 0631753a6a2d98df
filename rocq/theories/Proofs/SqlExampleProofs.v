(** The sql example. *)
From Coq Require Import String List NArith ZArith Bool Lia ZifyBool ZifyNat ZifyN.
From Verif Require Import Model.Base Model.Endian Model.Protocol Model.WebMaps Model.Streams
  Model.Environment Model.Multipart Model.Request Model.Address Model.Sql Model.SessionExample Model.Examples Model.SqlExample
  Spec.EndianSpec Spec.WireSpec Spec.EscapeSpec Spec.StreamSpec Spec.AddressSpec Spec.EnvironmentSpec Spec.RequestSpec Spec.PageSpec
  Spec.ExampleSpec Spec.PgSpec Spec.SqlSpec Spec.TimerExampleSpec Spec.SqlExampleSpec
  Proofs.Arith Proofs.RequestLifeProofs Proofs.AgreeProofs Proofs.ResumeProofs Proofs.SqlProofs Proofs.AddressPrintProofs Proofs.LooseExamples Proofs.ExampleProofs.
Import ListNotations.
Local Open Scope N_scope.

Section Database.
Variable queue1 queue2 : bool.
Variable insert select : option pgres.
Variable now : Z.
Variable dice : nat.
Variable date : Z -> option (list N).
Hypothesis IN : pg_sane insert.
Hypothesis SE : pg_sane select.
Hypothesis DA : forall t d, date t = Some d -> bytes_ok d.

Lemma status_command : forall g, status_of (Some g) = SCommandOk <-> g_status g = 1.
Proof.
  intros g. cbn [status_of]. destruct (g_status g) as [|p]; [split; discriminate|].
  do 4 (destruct p as [p|p|]; try (split; [discriminate|intros X; discriminate X]); try (split; reflexivity)).
Qed.
Lemma status_rows : forall g, status_of (Some g) = SRowsOk <-> g_status g = 2.
Proof.
  intros g. cbn [status_of]. destruct (g_status g) as [|p]; [split; discriminate|].
  do 4 (destruct p as [p|p|]; try (split; [discriminate|intros X; discriminate X]); try (split; reflexivity)).
Qed.

Lemma inserted_ok : insert_good insert = true <-> inserted insert.
Proof.
  unfold insert_good, inserted, pg_sane in *. destruct insert as [g|].
  2: cbn [status_of]; split; [discriminate|intros (g & X & _); discriminate].
  destruct (IN g eq_refl) as (A & R & _).
  assert (EV : (verify [] (g_result g) =? 0)%Z = true <-> r_cols (g_result g) = [] /\ r_rows (g_result g) = []).
  { rewrite Z.eqb_eq. apply (verify_none (g_result g)). }
  assert (EA : affectedRows g = 1 <-> g_affected g = 1%Z).
  { unfold affectedRows. rewrite trunc_small; [|].
    - split; intros X; [|rewrite X; reflexivity].
      destruct (Z.ltb_spec (g_affected g) 0).
      + exfalso. rewrite <- (Z_mod_plus_full _ 1) in X. rewrite Z.mod_small in X by lia. lia.
      + rewrite Z.mod_small in X by lia. lia.
    - pose proof (Z.mod_pos_bound (g_affected g) (2 ^ 32) ltac:(lia)). change (2 ^ 32) with 4294967296. lia. }
  split.
  - intros H. exists g. split; [reflexivity|].
    pose proof (status_command g) as S. destruct (status_of (Some g)); try discriminate.
    apply andb_true_iff in H as (H & H3). apply andb_true_iff in H as (H1 & H2).
    apply N.eqb_eq in H3. apply EV in H1 as (H1 & H4). tauto.
  - intros (g' & X & S & C & R' & AA). injection X as <-. apply status_command in S. rewrite S.
    apply andb_true_iff. split; [apply andb_true_iff; split|].
    + apply EV. auto.
    + unfold rows. rewrite R'. reflexivity.
    + apply N.eqb_eq. apply EA. exact AA.
Qed.

Lemma selected_none : select_table select date = None <-> (forall rs, ~ selected select rs).
Proof.
  unfold select_table, selected, pg_sane in *. destruct select as [g|].
  2: cbn [status_of]; split; [intros _ rs (g & X & _); discriminate|reflexivity].
  destruct (SE g eq_refl) as (_ & R & _).
  assert (EV : (verify [TIMESTAMPTZ; INET; TEXT] (g_result g) =? 0)%Z = true <-> Forall2 matches [TIMESTAMPTZ; INET; TEXT] (r_cols (g_result g))).
  { rewrite Z.eqb_eq. apply verify_ok. discriminate. }
  assert (ER : (rows g =? 0) = true <-> r_rows (g_result g) = []).
  { unfold rows. rewrite trunc_small by (change (2 ^ 32) with 4294967296; change (2 ^ 31) with 2147483648 in R; lia).
    rewrite N.eqb_eq. destruct (r_rows (g_result g)); cbn [length]; split; try discriminate; try lia; auto. }
  split.
  - intros H rs (g' & X & S & C & R' & NE). injection X as <-. apply status_rows in S. rewrite S in H.
    apply EV in C. rewrite C in H. cbn [negb] in H. destruct (rows g =? 0); [|discriminate].
    destruct ER as (ER & _). rewrite ER in R'; auto.
  - intros H. pose proof (status_rows g) as S. destruct (status_of (Some g)); try reflexivity.
    destruct (verify _ _ =? 0)%Z eqn:V; cbn [negb]; [|reflexivity]. destruct (rows g =? 0) eqn:E; [reflexivity|].
    exfalso. apply (H (r_rows (g_result g))). exists g. repeat split; auto; [now apply S|now apply EV|].
    intros X. apply ER in X. discriminate.
Qed.

Lemma selected_some : forall rs, selected select rs -> select_table select date = Some (obind (table_rows date rs) (fun l =>
  Val ([nw "Content-Type: text/html; charset=iso-8859-1"; OpWrite [13; 10; 13; 10]; nw "<!DOCTYPE html>"; OpWrite [10];
        nw "<html lang='en'><head><meta charset='iso-8859-1' /><title>fastcgi++: Database</title></head><body><table><thead><tr><th>Timestamp</th><th>IP Address</th><th>Random String</th></tr></thead>"]
       ++ l ++ [nw "</table></body></html>"]))).
Proof.
  intros rs H. pose proof (proj1 selected_none) as X. destruct H as (g & -> & S & C & R & NE).
  destruct (select_table (Some g) date) as [o|] eqn:E.
  - unfold select_table in E. apply status_rows in S. rewrite S in E.
    destruct (negb _); [discriminate|]. destruct (rows g =? 0); [discriminate|]. rewrite R in E. symmetry. exact E.
  - exfalso. apply (X eq_refl rs). exists g. auto.
Qed.

(** ** The lines *)
Definition line_ops (d a s : list N) : list sop :=
  [nw "<tr><td>"; OpWrite d; nw "</td><td>"; OpWrite (print a); nw "</td><td>"] ++ shown s ++ [nw "</td></tr>"].

Definition as_time (x : {t : sqlty & val t}) : Z := match x with existT _ TIMESTAMPTZ z => z | _ => 0%Z end.
Definition as_inet (x : {t : sqlty & val t}) : list N := match x with existT _ INET a => a | _ => [] end.
Definition as_text (x : {t : sqlty & val t}) : list N := match x with existT _ TEXT a => a | _ => [] end.

Lemma same_fits : forall ts vs ps cs, same_row ts vs ps cs ->
  Forall (fun x => match x with existT _ INET a => is_address a | existT _ TEXT s => bytes_ok s | _ => True end) vs.
Proof.
  intros ts vs ps cs H. induction H as [|t v p ts vs ps cs F H IH]; constructor; auto.
  destruct t; auto; cbn [fetched fits] in F.
  - exact (proj1 F).
  - destruct F as (A & B & _). split; auto.
Qed.

Lemma row_line : forall cs z a s d, readable date cs z a s d ->
  table_row date cs = Val (line_ops d a s) /\ is_address a /\ bytes_ok s.
Proof.
  intros cs z a s d ((ps & SR) & ZR & D).
  pose proof (row_ok true _ _ _ _ SR) as R. pose proof (same_fits _ _ _ _ SR) as F.
  assert (L : length cs = 3%nat).
  { clear - SR. remember [TIMESTAMPTZ; INET; TEXT] as ts eqn:E.
    assert (length cs = length ts) by (clear E; induction SR; cbn [length]; congruence). subst. exact H. }
  destruct cs as [|c0 [|c1 [|c2 [|]]]]; try discriminate L.
  unfold table_row. cbn [row] in R.
  destruct (field true TIMESTAMPTZ c0 _) as [z'| |] eqn:E0; try discriminate.
  destruct (field true INET c1 _) as [a'| |] eqn:E1; try discriminate.
  destruct (field true TEXT c2 _) as [s'| |] eqn:E2; try discriminate.
  assert (Q : [existT val TIMESTAMPTZ z'; existT val INET a'; existT val TEXT s']
    = [existT val TIMESTAMPTZ z; existT val INET a; existT val TEXT s]) by congruence. clear R.
  assert (Q1 : z' = z) by (apply (f_equal (fun l => as_time (nth 0 l (existT val TEXT [])))) in Q; exact Q).
  assert (Q2 : a' = a) by (apply (f_equal (fun l => as_inet (nth 1 l (existT val TEXT [])))) in Q; exact Q).
  assert (Q3 : s' = s) by (apply (f_equal (fun l => as_text (nth 2 l (existT val TEXT [])))) in Q; exact Q).
  subst z' a' s'. unfold to_time_t.
  assert (I : is_i64 (z * 1000) = true) by (unfold is_i64; lia). rewrite I. cbn [obind].
  assert (QT : Z.quot (z * 1000) 1000000000 = Z.quot z 1000000).
  { change 1000000000%Z with (1000000 * 1000)%Z. apply Z.quot_mul_cancel_r; lia. }
  rewrite QT, D. split; [reflexivity|]. inversion F as [|? ? _ F']. inversion F' as [|? ? Fa F'']. inversion F'' as [|? ? Fs _]. auto.
Qed.

(** ** All that is written are bytes *)
Notation okc := (op_chars (real_char Narrow)).
Lemma ok_nw : forall s, okc (nw s).
Proof. intros s. apply lit_bytes. Qed.

Lemma print_bytes : forall a, is_address a -> bytes_ok (print a).
Proof.
  intros a H. apply Forall_forall. intros c C. destruct (address_plain _ _ (proj1 (print_text a H))) as (P & _).
  rewrite Forall_forall in P. specialize (P c C). unfold LooseExamples.plain in P. change (c < 256). lia.
Qed.

Lemma value_bytes : forall c, match c with Some b => bytes_ok b | None => True end -> bytes_ok (value c).
Proof. intros [b|] H; cbn [value]; [apply Forall_app; split; auto|]; repeat constructor. Qed.

Lemma inet_address : forall c, match c with Some b => bytes_ok b | None => True end -> forall a,
  field true INET c (default INET) = Got a -> is_address a.
Proof.
  intros c H a E. cbn [field default] in E. unfold field_inet in E. pose proof (value_bytes c H) as V.
  assert (L : length (value c) = S (cell_length c)) by (destruct c; cbn; rewrite ?app_length; cbn; lia).
  destruct (Nat.eq_dec (cell_length c) 8) as [E8|N8]; [|destruct (Nat.eq_dec (cell_length c) 20) as [E20|N20]].
  - rewrite E8 in E. assert (EQ : a = repeat 0 10 ++ [255; 255] ++ firstn 4 (skipn 4 (value c))) by congruence. subst a. clear E. split.
    + rewrite !app_length, firstn_length, skipn_length, L, E8. reflexivity.
    + apply Forall_app. split; [apply Forall_forall; intros x X; apply repeat_spec in X; subst; reflexivity|].
      apply Forall_app. split; [repeat constructor|]. apply Forall_firstn', Forall_skipn'; exact V.
  - rewrite E20 in E. assert (EQ : a = firstn 16 (skipn 4 (value c))) by congruence. subst a. clear E. split.
    + rewrite firstn_length, skipn_length, L, E20. reflexivity.
    + apply Forall_firstn', Forall_skipn'; exact V.
  - assert (a = repeat 0 16).
    { revert E. generalize (cell_length c) as n, N8, N20. intros n N8' N20' E.
      do 21 (destruct n as [|n]; [first [congruence | lia]|]). congruence. }
    subst a. split; [reflexivity|]. apply Forall_forall. intros x X. apply repeat_spec in X. subst. reflexivity.
Qed.

Lemma row_chars : forall cs l, Forall (fun c => match c with Some b => bytes_ok b | None => True end) cs ->
  table_row date cs = Val l -> Forall okc l.
Proof.
  intros cs l F H. unfold table_row in H. destruct cs as [|c0 [|c1 [|c2 [|]]]]; try discriminate.
  destruct (field true TIMESTAMPTZ c0 _) as [z| |]; try discriminate.
  destruct (field true INET c1 _) as [a| |] eqn:E1; try discriminate.
  destruct (field true TEXT c2 _) as [s| |] eqn:E2; try discriminate.
  inversion F as [|? ? _ F1]. inversion F1 as [|? ? Fa F2]. inversion F2 as [|? ? Fs _]. subst.
  apply inet_address in E1; auto. cbn [field] in E2. assert (ES : s = firstn (cell_length c2) (value c2)) by congruence. subst s. clear E2.
  unfold to_time_t in H. destruct (is_i64 _); [|discriminate]. cbn [obind] in H.
  destruct (date _) as [d|] eqn:D; [|discriminate]. injection H as <-.
  apply Forall_cons; [apply ok_nw|]. apply Forall_cons; [exact (DA _ _ D)|]. apply Forall_cons; [apply ok_nw|].
  apply Forall_cons; [apply print_bytes; exact E1|]. apply Forall_cons; [apply ok_nw|].
  apply Forall_cons; [exact I|]. apply Forall_cons; [apply Forall_firstn', value_bytes, Fs|].
  apply Forall_cons; [exact I|]. apply Forall_cons; [apply ok_nw|]. apply Forall_nil.
Qed.

Lemma rows_chars : forall rs l, Forall (Forall (fun c => match c with Some b => bytes_ok b | None => True end)) rs ->
  table_rows date rs = Val l -> Forall okc l.
Proof.
  induction rs as [|cs rs IH]; intros l F H; cbn [table_rows] in H.
  - injection H as <-. constructor.
  - inversion F; subst. destruct (table_row date cs) as [a|] eqn:E; [|discriminate]. cbn [obind] in H.
    destruct (table_rows date rs) as [b|] eqn:E'; [|discriminate]. injection H as <-.
    apply Forall_app. split; [eapply row_chars; eauto|auto].
Qed.

Notation APP := (db_app queue1 queue2 insert select now dice date).
Lemma error_okc : Forall (fun x : bool * sop => okc (snd x)) (map (pair false) db_error).
Proof. constructor; [|constructor]. apply error_chars. cbn [In]. auto. Qed.

Lemma db_writes : app_writes (real_char Narrow) APP.
Proof.
  intros [e m|e n|e|e|e|e] u; unfold writes; cbn [db_app a_call].
  - unfold db_response. destruct (d_state u) as [|[p|[p|p|]|]]; [destruct queue1| | | | |]; try apply error_okc; try constructor.
    + cbn [fst snd]. destruct (select_table select date) as [[l|]|] eqn:E; [|constructor|apply error_okc].
      assert (X : exists rs, selected select rs).
      { unfold select_table in E. unfold selected. destruct select as [g|]; [|discriminate].
        pose proof (status_rows g) as S. destruct (status_of (Some g)); try discriminate.
        destruct (verify _ _ =? 0)%Z eqn:V; cbn [negb] in E; [|discriminate]. destruct (rows g =? 0) eqn:R; [discriminate|].
        exists (r_rows (g_result g)), g. split; auto. split; [now apply S|].
        split; [apply verify_ok; [discriminate|]; now apply Z.eqb_eq in V|]. split; auto.
        intros N. unfold rows in R. rewrite N in R. discriminate. }
      destruct X as (rs & X). rewrite (selected_some rs X) in E. destruct X as (g & ES & _ & _ & R & _).
      destruct (SE g ES) as (_ & _ & B). rewrite R in B.
      destruct (table_rows date rs) as [b|] eqn:T; [|discriminate]. cbn [obind] in E. injection E as <-.
      apply Forall_map. cbn [snd]. change (fun x : sop => okc x) with okc.
      do 5 (apply Forall_cons; [first [apply ok_nw | repeat (apply Forall_cons; [reflexivity|]); apply Forall_nil]|]).
      apply Forall_app. split; [eapply rows_chars; eauto|constructor; [apply ok_nw|constructor]].
    + destruct (insert_good insert), queue2; try apply error_okc; constructor.
  - constructor.
  - constructor.
  - apply error_okc.
  - constructor; [|constructor]. apply error_chars. cbn [In]. auto.
  - constructor; [|constructor]. apply error_chars. cbn [In]. auto.
Qed.

Lemma db_only : only_responds APP.
Proof. split; [|reflexivity]. intros [] u H; auto. exfalso. eapply H; reflexivity. Qed.

(** ** The text *)
Notation TN := (text_of (encode Narrow) E_NONE).
Lemma TN_app : forall a b, closed a -> TN (a ++ b) = TN a ++ TN b.
Proof. intros a b C. rewrite text_app. now rewrite C. Qed.

Lemma line_text : forall d a s, closed (line_ops d a s) /\ TN (line_ops d a s) = db_line (d, print a, s).
Proof.
  intros d a s. split; [reflexivity|]. unfold line_ops, shown, db_line, nw. cbn [app text_of fst snd encode escape].
  rewrite app_nil_r. reflexivity.
Qed.

Lemma rows_text : forall rs ls, Forall2 (fun cs l => exists z a, readable date cs z a (snd l) (fst (fst l)) /\ snd (fst l) = print a) rs ls ->
  exists ops, table_rows date rs = Val ops /\ closed ops /\ TN ops = flat_map db_line ls.
Proof.
  intros rs ls F. induction F as [|cs l rs ls H F IH]; [exists []; repeat split|].
  destruct IH as (ops & E & C & T). destruct l as [[d t] s]. cbn [fst snd] in H. destruct H as (z & a & R & ->).
  destruct (row_line cs z a s d R) as (E' & _). destruct (line_text d a s) as (C' & T').
  exists (line_ops d a s ++ ops). cbn [table_rows flat_map]. rewrite E', E. cbn [obind].
  split; [reflexivity|]. split; [now apply closed_app|]. rewrite TN_app by exact C'. now rewrite T', T.
Qed.

(** Lines with the addresses as they are printed. *)
Lemma lines_exist : forall rs, Forall (fun cs => exists z a s d, readable date cs z a s d) rs -> exists ls,
  Forall2 (fun cs l => exists z a, readable date cs z a (snd l) (fst (fst l)) /\ snd (fst l) = print a) rs ls /\
  Forall2 (line_for date) rs ls.
Proof.
  intros rs F. induction F as [|cs rs (z & a & s & d & R) F (ls & A & B)]; [exists []; split; constructor|].
  exists ((d, print a, s) :: ls). split; constructor; auto.
  - exists z, a. cbn [fst snd]. auto.
  - exists z, a. cbn [fst snd]. split; [exact R|]. apply print_text. exact (proj1 (proj2 (row_line _ _ _ _ _ R))).
Qed.

Lemma error_is : TN db_error = error_500.
Proof. vm_compute. reflexivity. Qed.

Notation told := (told queue1 queue2 insert select date).
Lemma db_replies : forall e m5 cbs,
  (forall rs, selected select rs -> Forall (fun cs => exists z a s d, readable date cs z a s d) rs) ->
  exists n text q ops u, told n text q /\
    replies APP e (mkDb 0 []) (m5 :: cbs) = (map (pair false) ops, u, (n <=? length cbs)%nat, skipn n cbs) /\
    d_asked u = firstn (Nat.min q (S (length cbs))) [insert_query now dice (e_remoteAddress e); select_query] /\
    if (n <=? length cbs)%nat then TN ops = text else ops = [].
Proof.
  intros e m5 cbs RD. cbn [replies db_app a_call]. unfold db_response at 1. cbn [d_state d_asked].
  destruct queue1 eqn:Q1; cbn [app map].
  2: { exists 0%nat, error_500, 0%nat, db_error, (mkDb 0 []). split; [now constructor|]. split; [reflexivity|]. split; [reflexivity|].
       exact error_is. }
  destruct (insert_good insert) eqn:IG.
  2: { exists 1%nat, error_500, 1%nat. destruct cbs as [|c1 cbs].
       - exists [], (mkDb 1 [insert_query now dice (e_remoteAddress e)]). split; [apply told_refused; auto|].
         + intros X. apply inserted_ok in X. congruence.
         + repeat split.
       - exists db_error, (mkDb 1 [insert_query now dice (e_remoteAddress e)]). split; [apply told_refused; auto|].
         + intros X. apply inserted_ok in X. congruence.
         + cbn [replies db_app a_call]. unfold db_response at 1. cbn [d_state]. rewrite IG. split; [reflexivity|].
           split; [reflexivity|]. exact error_is. }
  apply inserted_ok in IG as II.
  destruct queue2 eqn:Q2.
  2: { exists 1%nat, error_500, 1%nat. destruct cbs as [|c1 cbs].
       - exists [], (mkDb 1 [insert_query now dice (e_remoteAddress e)]). split; [apply told_stopped; auto|]. repeat split.
       - exists db_error, (mkDb 1 [insert_query now dice (e_remoteAddress e)]). split; [apply told_stopped; auto|].
         cbn [replies db_app a_call]. unfold db_response at 1. cbn [d_state]. rewrite IG. split; [reflexivity|].
         split; [reflexivity|]. exact error_is. }
  assert (K : exists text ops, told 2 text 2 /\ match select_table select date with None => db_error | Some (Val l) => l | Some UB => [] end = ops /\
    TN ops = text).
  { destruct (select_table select date) as [o|] eqn:ST.
    - assert (X : exists rs, selected select rs).
      { unfold select_table in ST. unfold selected. destruct select as [g|]; [|discriminate].
        pose proof (status_rows g) as S. destruct (status_of (Some g)); try discriminate.
        destruct (verify _ _ =? 0)%Z eqn:V; cbn [negb] in ST; [|discriminate]. destruct (rows g =? 0) eqn:R; [discriminate|].
        exists (r_rows (g_result g)), g. split; auto. split; [now apply S|].
        split; [apply verify_ok; [discriminate|]; now apply Z.eqb_eq in V|]. split; auto.
        intros N. unfold rows in R. rewrite N in R. discriminate. }
      destruct X as (rs & X). destruct (lines_exist rs (RD rs X)) as (ls & A & B).
      destruct (rows_text rs ls A) as (ops & E & C & T).
      rewrite (selected_some rs X), E in ST. cbn [obind] in ST. injection ST as <-.
      exists (db_page ls). eexists. split; [eapply told_table; eauto|]. split; [reflexivity|].
      unfold db_page, nw. cbn [text_of encode escape]. rewrite TN_app by exact C. rewrite T.
      cbn [text_of encode escape]. rewrite app_nil_r. reflexivity.
    - exists error_500, db_error. split; [apply told_nothing; auto; now apply selected_none|]. split; [reflexivity|exact error_is]. }
  destruct K as (text & ops & TT & EO & TX). rewrite Q1, Q2 in TT. exists 2%nat, text, 2%nat.
  destruct cbs as [|c1 [|c2 cbs]].
  - exists [], (mkDb 1 [insert_query now dice (e_remoteAddress e)]). split; [exact TT|]. repeat split.
  - exists [], (mkDb 2 [insert_query now dice (e_remoteAddress e); select_query]). split; [exact TT|].
    cbn [replies db_app a_call]. unfold db_response at 1. cbn [d_state]. rewrite IG. repeat split.
  - exists ops, (mkDb 2 [insert_query now dice (e_remoteAddress e); select_query]). split; [exact TT|].
    cbn [replies db_app a_call]. unfold db_response at 1. cbn [d_state]. rewrite IG. cbn [d_asked app map].
    unfold db_response at 1. cbn [d_state]. rewrite EO. split; [reflexivity|]. split; [reflexivity|]. exact TX.
Qed.

Lemma db_answer : forall vts junk http_time cfg address_of,
  (forall n, length (junk n) = n) ->
  (forall t a, address_text t a -> ~ compat_text t -> address_of t = a) ->
  (forall rs, selected select rs -> Forall (fun cs => exists z a s d, readable date cs z a s d) rs) ->
  forall rs ms4 m4 bodies ms5 m5 cbs e2, c_id cfg < 65536 -> c_role cfg = 1 \/ c_role cfg = 2 ->
  Forall2 params_message rs ms4 -> is_message 4 [] m4 -> Forall2 (is_message 5) bodies ms5 ->
  Forall (fun c => c <> []) bodies -> is_message 5 [] m5 ->
  let e0 := describe vts http_time address_of env_init (concat (map p_params rs)) in
  e_contentLength e0 <= c_maxPost cfg -> len (concat bodies) <= e_contentLength e0 ->
  parsePostBuffer vts junk (set_postBuffer (concat bodies) e0) = Done (true, e2) ->
  Forall (fun m => m_type m <> 0%Z) cbs ->
  exists n text q st recs, told n text q /\
    handler vts junk http_time Narrow APP cfg (ms4 ++ [m4] ++ ms5 ++ [m5] ++ cbs) (rq_init (mkDb 0 []))
      = Done ((n <=? length cbs)%nat, skipn n cbs, st) /\
    d_asked (q_user st) = firstn (Nat.min q (S (length cbs))) [insert_query now dice (e_remoteAddress e2); select_query] /\
    if (n <=? length cbs)%nat then
      exists r, q_sent st = map (fun r => (r, false)) recs ++ [(r, c_kill cfg)] /\ is_end (c_id cfg) 0 r /\
        stream_text 6 (c_id cfg) recs text /\ stream_text 7 (c_id cfg) recs []
    else q_sent st = map (fun r => (r, false)) recs /\ stream_text 6 (c_id cfg) recs [].
Proof.
  intros vts junk http_time cfg ao J AD RD rs ms4 m4 bodies ms5 m5 cbs e2 Hi HR F4 M4 F5 NE M5 e0 L1 L2 PP FC.
  destruct (db_replies (set_postBuffer [] e2) m5 cbs RD) as (n & text & q & ops & u & TT & R & AQ & TX).
  destruct (resumed vts junk http_time Narrow APP cfg Hi db_writes db_only ao J AD (mkDb 0 []) rs ms4 m4 bodies
    ms5 m5 cbs e2 HR F4 M4 F5 NE M5 L1 L2 PP FC _ _ _ _ R) as (st & H & Q & recs & X).
  exists n, text, q, st, recs. split; [exact TT|]. split; [exact H|]. split; [rewrite Q; exact AQ|].
  rewrite ops_on_true, ops_on_false in X. destruct (n <=? length cbs)%nat.
  - rewrite TX in X. exact X.
  - subst ops. destruct X as (X1 & t & later & X2 & X3 & _). split; [exact X1|].
    destruct t; [exact X2|discriminate].
Qed.
End Database.
