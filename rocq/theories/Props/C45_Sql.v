(** C45: verification of SQL results. *)
From Coq Require Import List NArith ZArith Bool.
From Verif Require Import Model.Base Model.Sql Spec.PgSpec Spec.SqlSpec Proofs.SqlProofs.
Import ListNotations.
Local Open Scope N_scope.

(** Zero just when there is a column of the right type for each type. *)
Theorem C45_accepts : forall ts r, ts <> [] -> (verify ts r = 0%Z <-> Forall2 matches ts (r_cols r)).
Proof. exact verify_ok. Qed.
Print Assumptions C45_accepts.

(** -1 just when the number of columns is another. *)
Theorem C45_count : forall ts r, ts <> [] -> (verify ts r = (-1)%Z <-> length (r_cols r) <> length ts).
Proof. exact verify_count. Qed.
Print Assumptions C45_count.

(** Otherwise the first column of another type, counted from one. *)
Theorem C45_first : forall ts r k, ts <> [] ->
  (verify ts r = (Z.of_nat k + 1)%Z <-> length (r_cols r) = length ts /\ Forall2 matches (firstn k ts) (firstn k (r_cols r)) /\
     exists t c, nth_error ts k = Some t /\ nth_error (r_cols r) k = Some c /\ ~ matches t c).
Proof. exact verify_first. Qed.
Print Assumptions C45_first.

(** Results<> accepts just what has no columns and no rows. *)
Theorem C45_none : forall r, (verify [] r = 0%Z <-> r_cols r = [] /\ r_rows r = []) /\ (verify [] r = 0%Z \/ verify [] r = (-1)%Z).
Proof. exact verify_none. Qed.
Print Assumptions C45_none.

(** A row without nulls is read as the server sent it. *)
Theorem C45_row : forall strict ts vs ps cs, same_row ts vs ps cs -> row strict ts cs = Got vs.
Proof. exact row_ok. Qed.
Print Assumptions C45_row.

(** That verify returns zero does not make row() safe: with a null in a column
    of numbers, times, dates or arrays row() gives no value. *)
Theorem C45_null_refuted : forall strict ts cs k t, nth_error ts k = Some t -> nth_error cs k = Some None -> length cs = length ts ->
  match t with NUM _ | TIMESTAMPTZ | DATE | ARRAY _ | ARRAY_TEXT | ARRAY_WTEXT => True | _ => False end -> forall vs, row strict ts cs <> Got vs.
Proof. exact null_row. Qed.
Print Assumptions C45_null_refuted.

Example C45_ex : let r := mkRes [mkCol 25 (-1); mkCol 23 4; mkCol 1005 (-1)] [[Some [104; 105]; None; None]] in
  verify [TEXT; NUM INTEGER; ARRAY SMALLINT] r = 0%Z /\ row true [TEXT; NUM INTEGER; ARRAY SMALLINT] [Some [104; 105]; None; None] = Undefined /\
  verify [TEXT; NUM BIGINT; ARRAY SMALLINT] r = 2%Z /\ verify [TEXT; NUM INTEGER] r = (-1)%Z.
Proof. repeat split; vm_compute; reflexivity. Qed.
Example C45_ex_row : same_row [TEXT; NUM INTEGER] [existT _ TEXT [104; 105]; existT val (NUM INTEGER) (-2)%Z] [PScalar (PText [104; 105]); PScalar (PInt 4 (-2))]
  [Some [104; 105]; Some [255; 255; 255; 254]].
Proof.
  apply (same_cons TEXT [104; 105] (PScalar (PText [104; 105]))); [split; [repeat constructor|reflexivity]|].
  apply (same_cons (NUM INTEGER) (-2)%Z (PScalar (PInt 4 (-2)))); [split; [cbn; split; [discriminate|reflexivity]|reflexivity]|]; constructor.
Qed.
