(** Model of the sql example (examples/sql.cpp) and of what it asks its
    results (src/results.cpp 431-482). *)
From Coq Require Import String List NArith ZArith Bool.
From Verif Require Import Model.Base Model.Streams Model.Environment Model.Request Model.Address Model.Sql
  Model.SessionExample Model.Examples.
Import ListNotations.
Local Open Scope N_scope.

(** ** Results *)

(** A PGresult: the number of its ExecStatusType, as in libpq-fe.h, what
    [atoi] makes of PQcmdTuples (libpq writes a number or nothing), and its
    columns and rows. *)
Record pgres := mkPg { g_status : N; g_affected : Z; g_result : result }.

(** results.hpp 45-58. *)
Inductive status :=
| SNoResult | SEmptyQuery | SCommandOk | SRowsOk | SCopyOut | SCopyIn | SBadResponse | SNonfatalError | SFatalError
| SCopyBoth | SSingleTuple.

(** results.cpp 431-455; [None]: m_res is null. *)
Definition status_of (r : option pgres) : status :=
  match r with
  | None => SNoResult
  | Some g =>
      match g_status g with
      | 0 => SEmptyQuery | 1 => SCommandOk | 2 => SRowsOk | 3 => SCopyOut | 4 => SCopyIn | 5 => SBadResponse
      | 6 => SNonfatalError | 8 => SCopyBoth | 9 => SSingleTuple | _ => SFatalError
      end
  end.

(** 457-460 and 473-476: both convert an int to unsigned. *)
Definition affectedRows (g : pgres) : N := trunc 32 (Z.to_N (g_affected g mod 2 ^ 32)).
Definition rows (g : pgres) : N := trunc 32 (N.of_nat (length (r_rows (g_result g)))).

(** ** The example *)

(** sql.cpp 257-269; [s_dist] gives 0 to 7. *)
Definition db_strings : list string :=
  ["Leviathan Wakes"; "Caliban's War"; "Abaddon's Gate"; "Cibola Burn"; "Nemesis Games"; "Babylon's Ashes";
   "Persepolis Rising"; "Tiamat's Wrath"]%string.

(** A query, without results object and callback. *)
Record asked := mkAsked { k_statement : string; k_parameters : list {t : sqlty & val t} }.

(** [m_state] and the queries given to [s_connection.queue], all of them taken. *)
Record database := mkDb { d_state : N; d_asked : list asked }.

Section Database.
(** What the connection answers to the two calls of [queue], what is in the two
    results objects when the callbacks are called, the clock and the dice, and
    what [localtime] and [put_time] make of a time_t; [None]: [localtime] gives
    a null pointer. *)
Variable queue1 queue2 : bool.
Variable insert select : option pgres.
Variable now : Z.
Variable dice : nat.
Variable date : Z -> option (list N).

(** 58-68 and 132-137. *)
Definition insert_query (address : list N) : asked :=
  mkAsked "INSERT INTO fastcgipp_example (stamp, address, string) VALUES ($1, $2, $3);"
    [existT val TIMESTAMPTZ now; existT val INET address; existT val TEXT (lit (nth dice db_strings ""%string))].
Definition select_query : asked :=
  mkAsked "SELECT stamp, address, string FROM fastcgipp_example ORDER BY stamp DESC LIMIT 20;" [].

(** 88-124. *)
Definition insert_good : bool :=
  match status_of insert, insert with
  | SCommandOk, Some g => (verify [] (g_result g) =? 0)%Z && (rows g =? 0) && (affectedRows g =? 1)
  | _, _ => false
  end.

(** [to_time_t]: the time_point has microseconds, that of its argument
    nanoseconds, and [duration_cast] cuts off. *)
Definition to_time_t (us : Z) : outcome Z :=
  if is_i64 (us * 1000) then Val (Z.quot (us * 1000) 1000000000) else UB.

(** 205-219: a row.  [operator<<] of the address writes what it prints. *)
Definition table_row (cs : list cell) : outcome (list sop) :=
  match cs with
  | [c0; c1; c2] =>
      match field true TIMESTAMPTZ c0 (default TIMESTAMPTZ), field true INET c1 (default INET),
            field true TEXT c2 (default TEXT) with
      | Got us, Got a, Got s =>
          obind (to_time_t us) (fun t =>
            match date t with
            | None => UB
            | Some d => Val ([nw "<tr><td>"; OpWrite d; nw "</td><td>"; OpWrite (print a); nw "</td><td>"] ++ shown s
                             ++ [nw "</td></tr>"])
            end)
      | _, _, _ => UB
      end
  | _ => UB
  end.
Fixpoint table_rows (l : list (list cell)) : outcome (list sop) :=
  match l with
  | [] => Val []
  | cs :: l => obind (table_row cs) (fun a => obind (table_rows l) (fun b => Val (a ++ b)))
  end.

(** 156-225; [None]: it calls [errorHandler]. *)
Definition select_table : option (outcome (list sop)) :=
  match status_of select, select with
  | SRowsOk, Some g =>
      if negb (verify [TIMESTAMPTZ; INET; TEXT] (g_result g) =? 0)%Z then None
      else if rows g =? 0 then None
      else Some (obind (table_rows (r_rows (g_result g))) (fun l =>
        Val ([nw "Content-Type: text/html; charset=iso-8859-1"; OpWrite [13; 10; 13; 10]; nw "<!DOCTYPE html>"; OpWrite [10];
              nw "<html lang='en'><head><meta charset='iso-8859-1' /><title>fastcgi++: Database</title></head><body><table><thead><tr><th>Timestamp</th><th>IP Address</th><th>Random String</th></tr></thead>"]
             ++ l ++ [nw "</table></body></html>"])))
  | _, _ => None
  end.

(** request.cpp 171-185, errorHandler, as the example calls it. *)
Definition db_error : list sop := [OpWrite (error_text "500 Internal Server Error")].

(** 44-231; nothing written stands for undefined behaviour. *)
Definition db_response (e : env) (u : database) : database * list sop * bool :=
  match d_state u with
  | 0 =>
      if queue1 then (mkDb 1 (d_asked u ++ [insert_query (e_remoteAddress e)]), [], false) else (u, db_error, true)
  | 1 =>
      if insert_good then
        if queue2 then (mkDb 2 (d_asked u ++ [select_query]), [], false) else (u, db_error, true)
      else (u, db_error, true)
  | 2 => (u, match select_table with None => db_error | Some (Val l) => l | Some UB => [] end, true)
  | _ => (u, [], true)
  end.

(** sql.cpp 10-231: the application. *)
Definition db_app : application database :=
  mkApp (fun c u =>
           match c with
           | CResponse e _ => let '(u', ops, b) := db_response e u in (u', e, map (pair false) ops, b)
           | _ => default_call c u
           end) (fun _ => (true, true)).
End Database.
