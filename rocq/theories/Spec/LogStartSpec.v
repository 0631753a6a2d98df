(** Vocabulary for how the log comes up. *)
From Coq Require Import String List NArith Bool.
From Verif Require Import Model.Base Model.Log Spec.StreamSpec Spec.LogSpec.
Import ListNotations.
Local Open Scope N_scope.

(** Bytes that are no UTF-8: behind text there is a byte no character starts
    with. *)
Definition malformed (b : list N) : Prop :=
  exists u c r, Forall scalar u /\ b = utf8 u ++ c :: r /\ (128 <= c < 194 \/ 245 <= c < 256).

(** Whether a use of the macro of this level is to appear in the log. *)
Definition appears (built : N) (suppress : bool) (u : list N * level * list N) : bool :=
  let '(_, l, _) := u in enabled built (Entry l []) && (is_error (Entry l []) || negb suppress).

(** What a name in bytes is called in the log. *)
Definition called (default : string) (name text : list N) : Prop :=
  (Forall scalar text /\ name = utf8 text) \/ (malformed name /\ text = lit default).

(** A line of the log. *)
Definition log_line (host prog pid : list N) (u : list N * level * list N) : list N :=
  let '(date, l, text) := u in
  date ++ host ++ lit " " ++ prog ++ lit "[" ++ pid ++ lit "] [" ++ lit (level_name l) ++ lit "]: " ++ text ++ [10].
