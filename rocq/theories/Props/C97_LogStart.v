(** C97: how the log comes up. *)
From Coq Require Import String List NArith Bool Lia.
From Verif Require Import Model.Base Model.Log Model.LogStart Spec.StreamSpec Spec.LogSpec Spec.LogStartSpec
  Proofs.LogStartProofs.
Import ListNotations.
Local Open Scope N_scope.

(** If the stream can write the characters, every use of a macro that is to
    appear does so as one line with date, host, program, process id, level and
    text.  Names in UTF-8 are their text; names that are no UTF-8 are
    "localhost" and "unknown", provided warnings are off. *)
Theorem C97_lines : forall can built suppress strict date before host junk prog pid after u v,
  (forall c, c < 128 -> can c = true) ->
  (length host <= 65)%nat -> ~ In 0 host -> called "localhost" host u -> called "unknown" prog v ->
  (malformed host \/ malformed prog -> built <= 1 \/ suppress = true) ->
  Forall (fun x => appears built suppress x = false) before ->
  Forall (fun c => can c = true) (u ++ v ++ pid) ->
  Forall (fun '(d, _, t) => Forall (fun c => can c = true) (d ++ t)) after ->
  exists g, log_program can built suppress strict date before host junk prog pid after = Val g /\
    g_bad g = false /\ g_out g = flat_map (log_line u v pid) (filter (appears built suppress) after).
Proof. exact lines_all. Qed.
Print Assumptions C97_lines.

(** Refuted if the stream cannot write a character of either name, as in a
    program that never calls [setlocale]: the first line is cut off there, and
    nothing is ever logged again, errors included. *)
Theorem C97_locale_refuted : forall can built suppress strict date before host junk prog pid after u v a c b,
  (length host <= 65)%nat -> ~ In 0 host -> called "localhost" host u -> called "unknown" prog v ->
  (malformed host \/ malformed prog -> built <= 1 \/ suppress = true) ->
  Forall (fun x => appears built suppress x = false) before ->
  u ++ lit " " ++ v = a ++ c :: b -> Forall (fun c => can c = true) a -> can c = false ->
  Forall (fun '(d, _, _) => Forall (fun c => can c = true) d) after ->
  exists g, log_program can built suppress strict date before host junk prog pid after = Val g /\
    g_out g = match filter (appears built suppress) after with [] => [] | (d, _, _) :: _ => d ++ a end.
Proof. exact lines_stuck. Qed.
Print Assumptions C97_locale_refuted.

(** Refuted likewise if it cannot write a character of a text that is logged,
    such as what a mail server answered: that line is cut off and is the last. *)
Theorem C97_text_refuted : forall can built suppress strict date before host junk prog pid l1 d l a c b l2 u v,
  (forall c, c < 128 -> can c = true) ->
  (length host <= 65)%nat -> ~ In 0 host -> called "localhost" host u -> called "unknown" prog v ->
  (malformed host \/ malformed prog -> built <= 1 \/ suppress = true) ->
  Forall (fun x => appears built suppress x = false) before ->
  Forall (fun c => can c = true) (u ++ v ++ pid) ->
  Forall (fun '(d, _, t) => Forall (fun c => can c = true) (d ++ t)) l1 ->
  Forall (fun c => can c = true) (d ++ a) -> can c = false ->
  appears built suppress (d, l, a ++ c :: b) = true ->
  exists g rest, log_program can built suppress strict date before host junk prog pid (l1 ++ (d, l, a ++ c :: b) :: l2) = Val g /\
    flat_map (log_line u v pid) (filter (appears built suppress) l1) ++ log_line u v pid (d, l, a ++ c :: b) = g_out g ++ c :: rest.
Proof. exact text_stuck. Qed.
Print Assumptions C97_text_refuted.

(** Refuted with warnings on: a name that is no UTF-8 is undefined behaviour
    before main is entered, since the warning about it prints the name. *)
Theorem C97_names_refuted : forall can built suppress strict date host junk prog pid after,
  2 <= built -> suppress = false -> (length host <= 65)%nat -> ~ In 0 host ->
  malformed host \/ (exists u, Forall scalar u /\ host = utf8 u) /\ malformed prog ->
  log_program can built suppress strict date [] host junk prog pid after = UB.
Proof. exact names_undefined. Qed.
Print Assumptions C97_names_refuted.

(** Refuted for initialisers of other objects: if one logs before those of
    log.cpp have run, that is undefined. *)
Theorem C97_order_refuted : forall can built suppress strict date before host junk prog pid after,
  Exists (fun x => appears built suppress x = true) before ->
  log_program can built suppress strict date before host junk prog pid after = UB.
Proof. exact before_undefined. Qed.
Print Assumptions C97_order_refuted.

Definition ascii (c : N) : bool := c <? 128.
Definition some_uses : list use :=
  [(lit "Nov 18 02:30:00 ", LInfo, lit "one"); (lit "Nov 18 02:30:01 ", LDiag, lit "two");
   (lit "Nov 18 02:30:02 ", LError, lit "three")].

Example C97_lines_case :
  let g := mkLogging true (Some (lit "box")) (Some (lit "./a[7]"))
    (lit "Nov 18 02:30:00 box ./a[7] [info]: one" ++ [10] ++ lit "Nov 18 02:30:02 box ./a[7] [error]: three" ++ [10]) false in
  log_program ascii 1 false true [] [(lit "x", LDebug, lit "y")] (lit "box") (repeat 1 70) (lit "./a") (lit "7") some_uses = Val g /\
  g_out g = flat_map (log_line (lit "box") (lit "./a") (lit "7")) (filter (appears 1 false) some_uses).
Proof. split; reflexivity. Qed.

(** Built without warnings, a host name that is no UTF-8. *)
Example C97_default_case :
  called "localhost" [99; 97; 191; 233] (lit "localhost") /\
  option_map (fun g => g_host g) (match log_program ascii 1 false true [] [] [99; 97; 191; 233] [] (lit "./a") (lit "7") some_uses with Val g => Some g | UB => None end)
  = Some (Some (lit "localhost")).
Proof.
  split; [|reflexivity]. right. split; [|reflexivity]. exists (lit "ca"), 191, [233].
  split; [repeat constructor; left; reflexivity|]. split; [reflexivity|]. left; lia.
Qed.

(** A host called "b\195\188x": two errors later the log is still "... b". *)
Example C97_locale_case :
  [98; 252; 120] ++ lit " " ++ lit "a" = [98] ++ 252 :: lit "x a" /\ utf8 [98; 252; 120] = [98; 195; 188; 120] /\
  match log_program ascii 1 false true [] [] [98; 195; 188; 120] [] (lit "a") (lit "7")
    [([49], LError, lit "one"); ([50], LError, lit "two")] with Val g => g_out g = lit "1b" | UB => False end.
Proof. repeat split. Qed.

Example C97_names_case :
  malformed [46; 47; 255] /\
  log_program ascii 2 false true [] [] (lit "box") [] [46; 47; 255] (lit "7") [] = UB /\
  log_program ascii 2 false true [] [] [255] [] (lit "a") (lit "7") [] = UB.
Proof.
  split; [|split; reflexivity]. exists (lit "./"), 255, [].
  split; [repeat constructor; left; reflexivity|]. split; [reflexivity|]. right; lia.
Qed.

Example C97_order_case :
  log_program ascii 1 false true [] [(lit "1", LInfo, lit "early")] (lit "box") [] (lit "a") (lit "7") [] = UB /\
  appears 1 false (lit "1", LInfo, lit "early") = true.
Proof. split; reflexivity. Qed.

Example C97_text_case :
  match log_program ascii 1 false true [] [] (lit "b") [] (lit "a") (lit "7")
    [([49], LError, lit "one"); ([50], LError, lit "x" ++ 252 :: lit "y"); ([51], LFail, lit "three")] with
  | Val g => g_out g = lit "1b a[7] [error]: one" ++ [10] ++ lit "2b a[7] [error]: x"
  | UB => False
  end.
Proof. reflexivity. Qed.
