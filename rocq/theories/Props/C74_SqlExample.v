(** C74: the sql example. *)
From Coq Require Import String List NArith ZArith Bool.
From Verif Require Import Model.Base Model.Protocol Model.WebMaps Model.Streams Model.Environment Model.Multipart
  Model.Request Model.Sql Model.Examples Model.SqlExample Spec.WireSpec Spec.StreamSpec Spec.AddressSpec Spec.EnvironmentSpec
  Spec.RequestSpec Spec.PageSpec Spec.ExampleSpec Spec.PgSpec Spec.SqlSpec Spec.SqlExampleSpec Proofs.SqlExampleProofs Proofs.SqlExampleCases.
Import ListNotations.
Local Open Scope N_scope.

(** Given rows of which each has a line, a well-formed request is answered, after
    as many callbacks as queries were taken, with the table of the rows given by
    the server, one line each in their order, just when the insert was done and
    the select gave rows, and with the error page otherwise.  Its queries are the
    insert, with the visitor's address, and then the select, no other and
    neither twice.  Before that nothing is sent. *)
Theorem C74_answer : forall queue1 queue2 insert select now dice date, pg_sane insert -> pg_sane select ->
  (forall t d, date t = Some d -> bytes_ok d) ->
  forall vts junk http_time cfg address_of,
  (forall n, length (junk n) = n) ->
  (forall t a, address_text t a -> ~ compat_text t -> address_of t = a) ->
  (forall rs, selected select rs -> Forall (fun cs => exists z a s d, readable date cs z a s d) rs) ->
  forall rs ms4 m4 bodies ms5 m5 cbs e, c_id cfg < 65536 -> c_role cfg = 1 \/ c_role cfg = 2 ->
  Forall2 params_message rs ms4 -> is_message 4 [] m4 -> Forall2 (is_message 5) bodies ms5 ->
  Forall (fun c => c <> []) bodies -> is_message 5 [] m5 ->
  let e0 := describe vts http_time address_of env_init (concat (map p_params rs)) in
  e_contentLength e0 <= c_maxPost cfg -> len (concat bodies) <= e_contentLength e0 ->
  parsePostBuffer vts junk (set_postBuffer (concat bodies) e0) = Done (true, e) ->
  Forall (fun m => m_type m <> 0%Z) cbs ->
  exists n text q st recs, told queue1 queue2 insert select date n text q /\
    handler vts junk http_time Narrow (db_app queue1 queue2 insert select now dice date) cfg
        (ms4 ++ [m4] ++ ms5 ++ [m5] ++ cbs) (rq_init (mkDb 0 []))
      = Done ((n <=? length cbs)%nat, skipn n cbs, st) /\
    d_asked (q_user st) = firstn (Nat.min q (S (length cbs))) [insert_query now dice (e_remoteAddress e); select_query] /\
    if (n <=? length cbs)%nat then
      exists r, q_sent st = map (fun r => (r, false)) recs ++ [(r, c_kill cfg)] /\ is_end (c_id cfg) 0 r /\
        stream_text 6 (c_id cfg) recs text /\ stream_text 7 (c_id cfg) recs []
    else q_sent st = map (fun r => (r, false)) recs /\ stream_text 6 (c_id cfg) recs [].
Proof. exact db_answer. Qed.
Print Assumptions C74_answer.

(** What the insert gives to the server arrives as it is, and a row with just
    that has a line: its date, the visitor's address and the string. *)
Theorem C74_own : forall date now dice a strict d, (dice < 8)%nat -> is_address a -> (-2 ^ 63 <= now * 1000 < 2 ^ 63)%Z ->
  date (Z.quot now 1000000) = Some d ->
  let ps := k_parameters (insert_query now dice a) in
  (exists r, build strict (map (fun p => (p, false)) ps) = Val r /\ Forall2 arrives (map (fun p => (p, false)) ps) r) /\
  exists t, address_text t a /\ line_for date (map server_cell ps) (d, t, lit (nth dice db_strings ""%string)).
Proof. exact own_row. Qed.
Print Assumptions C74_own.

(** Whatever texts are in the table, the tags of the page depend on the number
    of rows alone. *)
Theorem C74_tags : forall date rs1 rs2 l1 l2, (forall t d, date t = Some d -> tagless d) -> length rs1 = length rs2 ->
  Forall2 (line_for date) rs1 l1 -> Forall2 (line_for date) rs2 l2 -> markup false (db_page l1) = markup false (db_page l2).
Proof. exact tags. Qed.
Print Assumptions C74_tags.

(** Refuted for all rows the server may give: a null time passes every check
    and is undefined behaviour. *)
Theorem C74_null_refuted : selected (ex_select [null_cells]) [null_cells] /\
  verify [TIMESTAMPTZ; INET; TEXT] (mkRes three_columns [null_cells]) = 0%Z /\
  forall date, select_table (ex_select [null_cells]) date = Some UB.
Proof. exact null_time. Qed.
Print Assumptions C74_null_refuted.

(** So is a time of the year 2300, which is read well but has too many
    nanoseconds. *)
Theorem C74_late_refuted : selected (ex_select [late_cells]) [late_cells] /\
  field true TIMESTAMPTZ (nth 0 late_cells None) 0%Z = Got 10413792000000000%Z /\
  forall date, select_table (ex_select [late_cells]) date = Some UB.
Proof. exact late_time. Qed.
Print Assumptions C74_late_refuted.

(** Two rows. *)
Example C74_example :
  select_table (ex_select [ex_cells; ex_cells]) ex_date <> None /\
  match select_table (ex_select [ex_cells; ex_cells]) ex_date with
  | Some (Val ops) => text_of (encode Narrow) E_NONE ops
      = db_page [(lit "D", lit "::ffff:1.2.3.4", lit "Caliban's War"); (lit "D", lit "::ffff:1.2.3.4", lit "Caliban's War")]
  | _ => False
  end /\
  told true true ex_insert (ex_select [ex_cells; ex_cells]) ex_date 2
    (db_page [(lit "D", lit "::ffff:1.2.3.4", lit "Caliban's War"); (lit "D", lit "::ffff:1.2.3.4", lit "Caliban's War")]) 2.
Proof. exact db_case. Qed.
