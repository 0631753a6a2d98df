(** The sql example: rows, tags and cases. *)
From Coq Require Import String List NArith ZArith Bool Lia ZifyBool ZifyNat ZifyN.
From Verif Require Import Model.Base Model.Endian Model.Protocol Model.WebMaps Model.Streams
  Model.Environment Model.Multipart Model.Request Model.Address Model.Sql Model.SessionExample Model.Examples Model.SqlExample
  Spec.EndianSpec Spec.WireSpec Spec.EscapeSpec Spec.StreamSpec Spec.AddressSpec Spec.EnvironmentSpec Spec.RequestSpec Spec.PageSpec
  Spec.ExampleSpec Spec.PgSpec Spec.SqlSpec Spec.TimerExampleSpec Spec.SqlExampleSpec
  Proofs.Arith Proofs.RequestLifeProofs Proofs.AgreeProofs Proofs.ResumeProofs Proofs.SqlProofs Proofs.AddressPrintProofs Proofs.LooseExamples Proofs.ExampleProofs Proofs.SqlExampleProofs.
Import ListNotations.
Local Open Scope N_scope.

(** ** What a visitor's own row shows *)
Definition server_cell (x : {t : sqlty & val t}) : cell := Some (pg_send (fst (pg_of (projT1 x))) (means (projT1 x) (projT2 x))).

Lemma own_row : forall date now dice a strict d, (dice < 8)%nat -> is_address a -> (-2 ^ 63 <= now * 1000 < 2 ^ 63)%Z ->
  date (Z.quot now 1000000) = Some d ->
  let ps := k_parameters (insert_query now dice a) in
  (exists r, build strict (map (fun p => (p, false)) ps) = Val r /\ Forall2 arrives (map (fun p => (p, false)) ps) r) /\
  exists t, address_text t a /\ line_for date (map server_cell ps) (d, t, lit (nth dice db_strings ""%string)).
Proof.
  intros date now dice a strict d DI AA NR DD ps.
  assert (F1 : fits TIMESTAMPTZ now) by (cbn [fits]; change us_2000 with 946684800000000%Z; lia).
  assert (F2 : fits INET a) by exact AA.
  assert (F3 : fits TEXT (lit (nth dice db_strings ""%string))) by apply lit_bytes.
  split.
  - apply build_ok. unfold ps. cbn [insert_query k_parameters map].
    repeat (apply Forall_cons; [cbn [fst snd projT1 projT2]; split; [assumption|split; [|right; intros X; apply (f_equal (@projT1 _ _)) in X; discriminate]]|]); [| | |apply Forall_nil].
    + intros m H. cbn [param] in H. destruct (is_i64 _); [|discriminate].
      assert (m = map Some (set_i64 (now - epoch_us))) as -> by congruence. rewrite map_length. reflexivity.
    + intros m H. cbn [param] in H. assert (m = map Some ([3; 128; 0; 16] ++ a)) as -> by congruence.
      rewrite map_length, app_length. destruct AA as (-> & _). reflexivity.
    + intros m H. cbn [param] in H. assert (m = map Some (lit (nth dice db_strings ""%string))) as -> by congruence. rewrite map_length.
      do 8 (destruct dice as [|dice]; [vm_compute; reflexivity|]). lia.
  - exists (print a). destruct (print_text a AA) as (P & _). split; [exact P|].
    exists now, a. split; [|exact P]. cbn [fst snd]. split; [|split; [exact NR|exact DD]].
    exists [means TIMESTAMPTZ now; means INET a; means TEXT (lit (nth dice db_strings ""%string))].
    unfold ps. cbn [insert_query k_parameters map]. unfold server_cell. cbn [projT1 projT2].
    apply (same_cons TIMESTAMPTZ); [apply (means_fetched TIMESTAMPTZ); exact F1|].
    apply (same_cons INET); [apply (means_fetched INET); exact F2|].
    apply (same_cons TEXT); [apply (means_fetched TEXT); exact F3|]. constructor.
Qed.

(** ** Tags *)
Lemma markup_page : forall l1 l2, length l1 = length l2 ->
  Forall (fun l => tagless (fst (fst l)) /\ tagless (snd (fst l))) l1 ->
  Forall (fun l => tagless (fst (fst l)) /\ tagless (snd (fst l))) l2 ->
  markup false (db_page l1) = markup false (db_page l2).
Proof.
  assert (L : forall l, tagless (fst (fst l)) -> tagless (snd (fst l)) ->
    markup false (db_line l) = markup false (db_line ([], [], [])) /\ after false (db_line l) = false).
  { intros [[d t] s] D T. cbn [fst snd] in *. unfold db_line. cbn [fst snd].
    destruct (tagless_markup d D) as (D1 & D2). destruct (tagless_markup t T) as (T1 & T2).
    destruct (tagless_markup _ (html_tagless s)) as (S1 & S2).
    rewrite !markup_app, !after_app.
    change (after false (lit "<tr><td>")) with false. rewrite D1, D2.
    change (after false (lit "</td><td>")) with false. rewrite T1, T2.
    change (after false (lit "</td><td>")) with false. rewrite S1, S2. split; reflexivity. }
  assert (R : forall l1 l2, length l1 = length l2 ->
    Forall (fun l => tagless (fst (fst l)) /\ tagless (snd (fst l))) l1 ->
    Forall (fun l => tagless (fst (fst l)) /\ tagless (snd (fst l))) l2 ->
    markup false (flat_map db_line l1) = markup false (flat_map db_line l2) /\ after false (flat_map db_line l1) = false).
  { induction l1 as [|x l1 IH]; intros [|y l2] E F1 F2; try discriminate; [split; reflexivity|].
    injection E as E. inversion F1 as [|? ? (X1 & X2) F1']. inversion F2 as [|? ? (Y1 & Y2) F2']. subst.
    destruct (L x X1 X2) as (A1 & A2). destruct (L y Y1 Y2) as (B1 & B2). destruct (IH l2 E F1' F2') as (C1 & C2).
    cbn [flat_map]. rewrite !markup_app, !after_app, A1, A2, B1, B2. split; [now rewrite C1|exact C2]. }
  intros l1 l2 E F1 F2. destruct (R l1 l2 E F1 F2) as (A & B). destruct (R l2 l1 (eq_sym E) F2 F1) as (_ & B').
  unfold db_page. rewrite !app_assoc. rewrite !(markup_app _ (lit "</table></body></html>")).
  rewrite !(markup_app _ (flat_map db_line _)), !(after_app _ (flat_map db_line _)).
  match goal with |- context [after false (?x ++ lit "<html lang='en'>")] => idtac | _ => idtac end.
  match goal with |- context [markup (after false ?h) (flat_map db_line l1)] => change (after false h) with false end.
  now rewrite A, B, B'.
Qed.

Lemma tags : forall date rs1 rs2 l1 l2, (forall t d, date t = Some d -> tagless d) -> length rs1 = length rs2 ->
  Forall2 (line_for date) rs1 l1 -> Forall2 (line_for date) rs2 l2 -> markup false (db_page l1) = markup false (db_page l2).
Proof.
  intros date rs1 rs2 l1 l2 DT E F1 F2.
  assert (X : forall rs l, Forall2 (line_for date) rs l ->
    length rs = length l /\ Forall (fun l => tagless (fst (fst l)) /\ tagless (snd (fst l))) l).
  { intros rs l F. induction F as [|cs x rs l (z & a & (_ & _ & D) & T) F (I1 & I2)]; [split; [reflexivity|constructor]|].
    split; [cbn; lia|]. constructor; auto. split; [exact (DT _ _ D)|].
    apply address_plain in T as (P & _). rewrite Forall_forall in P.
    split; intros C; apply P in C; unfold LooseExamples.plain in C; lia. }
  destruct (X _ _ F1), (X _ _ F2). apply markup_page; auto; lia.
Qed.

(** ** Cases *)
Definition three_columns : list column := [mkCol 1184 8; mkCol 869 (-1); mkCol 25 (-1)].
Definition ex_date (t : Z) : option (list N) := if (t =? 1000000000)%Z then Some (lit "D") else None.
Definition ex_insert : option pgres := Some (mkPg 1 1 (mkRes [] [])).
Definition ex_cells : list cell := map server_cell (k_parameters (insert_query 1000000000000000 1 (repeat 0 10 ++ [255; 255; 1; 2; 3; 4]))).
Definition ex_select (rs : list (list cell)) : option pgres := Some (mkPg 2 (Z.of_nat (length rs)) (mkRes three_columns rs)).

(** A null time, and the year 2300: no row can be made of it. *)
Definition null_cells : list cell := [None; Some [2; 32; 0; 4; 1; 2; 3; 4]; Some (lit "x")].
Definition late_cells : list cell := [Some (pg_send Timestamptz (PScalar (PTimestamp (10413792000000000 - us_2000)))); Some [2; 32; 0; 4; 1; 2; 3; 4]; Some (lit "x")].
Lemma null_time : selected (ex_select [null_cells]) [null_cells] /\
  verify [TIMESTAMPTZ; INET; TEXT] (mkRes three_columns [null_cells]) = 0%Z /\
  forall date, select_table (ex_select [null_cells]) date = Some UB.
Proof.
  split; [|split; [reflexivity|reflexivity]]. eexists. split; [reflexivity|]. split; [reflexivity|]. split; [|split; [reflexivity|discriminate]].
  apply (proj1 (verify_ok [TIMESTAMPTZ; INET; TEXT] (mkRes three_columns [null_cells]) ltac:(discriminate))). reflexivity.
Qed.
Lemma late_time : selected (ex_select [late_cells]) [late_cells] /\
  field true TIMESTAMPTZ (nth 0 late_cells None) 0%Z = Got 10413792000000000%Z /\
  forall date, select_table (ex_select [late_cells]) date = Some UB.
Proof.
  split; [|split; [vm_compute; reflexivity|intros; vm_compute; reflexivity]]. eexists. split; [reflexivity|]. split; [reflexivity|]. split; [|split; [reflexivity|discriminate]].
  apply (proj1 (verify_ok [TIMESTAMPTZ; INET; TEXT] (mkRes three_columns [late_cells]) ltac:(discriminate))). reflexivity.
Qed.

Lemma db_case : 
  select_table (ex_select [ex_cells; ex_cells]) ex_date <> None /\
  match select_table (ex_select [ex_cells; ex_cells]) ex_date with
  | Some (Val ops) => text_of (encode Narrow) E_NONE ops
      = db_page [(lit "D", lit "::ffff:1.2.3.4", lit "Caliban's War"); (lit "D", lit "::ffff:1.2.3.4", lit "Caliban's War")]
  | _ => False
  end /\
  told true true ex_insert (ex_select [ex_cells; ex_cells]) ex_date 2
    (db_page [(lit "D", lit "::ffff:1.2.3.4", lit "Caliban's War"); (lit "D", lit "::ffff:1.2.3.4", lit "Caliban's War")]) 2.
Proof.
  split; [vm_compute; discriminate|]. split; [vm_compute; reflexivity|].
  apply told_table with (rows := [ex_cells; ex_cells]); auto.
  - eexists. repeat split.
  - eexists. split; [reflexivity|]. split; [reflexivity|]. split; [|split; [reflexivity|discriminate]].
    apply (proj1 (verify_ok [TIMESTAMPTZ; INET; TEXT] (mkRes three_columns [ex_cells; ex_cells]) ltac:(discriminate))). reflexivity.
  - assert (A : is_address (repeat 0 10 ++ [255; 255; 1; 2; 3; 4])) by (split; [reflexivity|repeat constructor]).
    destruct (print_text _ A) as (P & _).
    assert (L : line_for ex_date ex_cells (lit "D", lit "::ffff:1.2.3.4", lit "Caliban's War")).
    { destruct (own_row ex_date 1000000000000000 1 _ true (lit "D") ltac:(lia) A ltac:(lia) eq_refl) as (_ & t & _ & z & a & R & _).
      exists z, a. split; [exact R|]. cbn [fst snd].
      assert (Q : a = repeat 0 10 ++ [255; 255; 1; 2; 3; 4]).
      { destruct R as ((ps & SR) & _). apply (row_ok true) in SR.
        change (row true [TIMESTAMPTZ; INET; TEXT] _) with (row true [TIMESTAMPTZ; INET; TEXT] ex_cells) in SR.
        assert (K : row true [TIMESTAMPTZ; INET; TEXT] ex_cells
          = Got [existT val TIMESTAMPTZ 1000000000000000%Z; existT val INET (repeat 0 10 ++ [255; 255; 1; 2; 3; 4]); existT val TEXT (lit "Caliban's War")])
          by (vm_compute; reflexivity).
        rewrite K in SR. assert (E : [existT val TIMESTAMPTZ 1000000000000000%Z; existT val INET (repeat 0 10 ++ [255; 255; 1; 2; 3; 4]); existT val TEXT (lit "Caliban's War")]
          = [existT val TIMESTAMPTZ z; existT val INET a; existT val TEXT (lit "Caliban's War")]) by congruence.
        apply (f_equal (fun l => as_inet (nth 1 l (existT val TEXT [])))) in E. symmetry. exact E. }
      subst a. exact P. }
    repeat constructor; exact L.
Qed.
