(** What the sql example should do. *)
From Coq Require Import String List NArith ZArith Bool.
From Verif Require Import Model.Base Model.Sql Model.SqlExample Spec.EscapeSpec Spec.AddressSpec Spec.PgSpec Spec.SqlSpec.
Import ListNotations.
Local Open Scope N_scope.

(** The reply when something is wrong. *)
Definition error_500 : list N :=
  lit "Status: 500 Internal Server Error" ++ [10] ++ lit "Content-Type: text/html; charset=utf-8" ++ [13; 10; 13; 10] ++
  lit "<!DOCTYPE html><html lang='en'><head><title>500 Internal Server Error</title></head><body><h1>500 Internal Server Error</h1></body></html>".

(** The table: when, from where, and the string. *)
Definition db_line (l : list N * list N * list N) : list N :=
  lit "<tr><td>" ++ fst (fst l) ++ lit "</td><td>" ++ snd (fst l) ++ lit "</td><td>" ++ html_escape (snd l) ++ lit "</td></tr>".
Definition db_page (lines : list (list N * list N * list N)) : list N :=
  lit "Content-Type: text/html; charset=iso-8859-1" ++ [13; 10; 13; 10] ++ lit "<!DOCTYPE html>" ++ [10] ++
  lit "<html lang='en'><head><meta charset='iso-8859-1' /><title>fastcgi++: Database</title></head><body><table><thead><tr><th>Timestamp</th><th>IP Address</th><th>Random String</th></tr></thead>" ++
  flat_map db_line lines ++ lit "</table></body></html>".

(** The numbers libpq gives are ints, the fields bytes. *)
Definition pg_sane (r : option pgres) : Prop :=
  forall g, r = Some g -> (-2 ^ 31 <= g_affected g < 2 ^ 31)%Z /\ N.of_nat (length (r_rows (g_result g))) < 2 ^ 31 /\
    Forall (Forall (fun c => match c with Some b => bytes_ok b | None => True end)) (r_rows (g_result g)).

(** The server did the insert: a command done (PGRES_COMMAND_OK), one row. *)
Definition inserted (r : option pgres) : Prop :=
  exists g, r = Some g /\ g_status g = 1 /\ r_cols (g_result g) = [] /\ r_rows (g_result g) = [] /\ g_affected g = 1%Z.

(** The server gave rows (PGRES_TUPLES_OK) of a time, an address and a text. *)
Definition selected (r : option pgres) (rows : list (list cell)) : Prop :=
  exists g, r = Some g /\ g_status g = 2 /\ Forall2 matches [TIMESTAMPTZ; INET; TEXT] (r_cols (g_result g)) /\
    r_rows (g_result g) = rows /\ rows <> [].

(** A row without nulls whose time is between the years 1678 and 2262, and for
    which [date] has a text, and the line for it: its address is any standard
    text for it. *)
Definition readable (date : Z -> option (list N)) (cs : list cell) (z : Z) (a s d : list N) : Prop :=
  (exists ps, same_row [TIMESTAMPTZ; INET; TEXT] [existT val TIMESTAMPTZ z; existT val INET a; existT val TEXT s] ps cs) /\
  (-2 ^ 63 <= z * 1000 < 2 ^ 63)%Z /\ date (Z.quot z 1000000) = Some d.
Definition line_for (date : Z -> option (list N)) (cs : list cell) (l : list N * list N * list N) : Prop :=
  exists z a, readable date cs z a (snd l) (fst (fst l)) /\ address_text (snd (fst l)) a.

(** After how many callbacks the request is answered, with what, and the
    queries made. *)
Section Told.
Variable queue1 queue2 : bool.
Variable insert select : option pgres.
Variable date : Z -> option (list N).
Inductive told : nat -> list N -> nat -> Prop :=
| told_busy : queue1 = false -> told 0 error_500 0
| told_refused : queue1 = true -> ~ inserted insert -> told 1 error_500 1
| told_stopped : queue1 = true -> inserted insert -> queue2 = false -> told 1 error_500 1
| told_nothing : queue1 = true -> inserted insert -> queue2 = true -> (forall rows, ~ selected select rows) -> told 2 error_500 2
| told_table : forall rows lines, queue1 = true -> inserted insert -> queue2 = true -> selected select rows ->
    Forall2 (line_for date) rows lines -> told 2 (db_page lines) 2.
End Told.
