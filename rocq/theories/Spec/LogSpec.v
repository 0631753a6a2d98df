(** Vocabulary for logging. *)
From Coq Require Import String List NArith Bool Arith.
From Verif Require Import Model.Base Model.Log.
Import ListNotations.

Definition level_name (l : level) : string :=
  match l with
  | LInfo => "info" | LFail => "fail" | LError => "error"
  | LWarning => "warning" | LDebug => "debug" | LDiag => "diagnostic"
  end.

Definition entry_level (e : entry) : level := let '(Entry l _) := e in l.

(** The message logs nothing itself while it is put together. *)
Definition plain (e : entry) : Prop :=
  let '(Entry _ ps) := e in exists texts, ps = map Text texts.
Definition message_text (e : entry) : list N :=
  let '(Entry _ ps) := e in flat_map (fun p => match p with Text s => s | Logs _ => [] end) ps.

(** A line of the log: a stamp (date, host and program), the level in
    brackets, a colon, the message.  [good] says what stamps look like. *)
Definition is_line (good : list N -> Prop) (e : entry) (line : list N) : Prop :=
  exists stamp, good stamp /\ line = stamp ++ lit "[" ++ lit (level_name (entry_level e)) ++ lit "]: " ++ message_text e ++ [10%N].

(** What the environment does besides letting threads go on: no logging from
    signal handlers, and plain messages. *)
Definition calm (good : list N -> Prop) (a : lact) : Prop :=
  match a with LStep _ stamp => good stamp | LSuppress _ => True | LCall _ e => plain e | LSignal _ _ => False end.

Definition logged good built at_exit (s : log) : Prop :=
  exists acts, Forall (calm good) acts /\ l_run built at_exit acts log_init = LOn s.

Definition never_suppressed (a : lact) : Prop := a <> LSuppress true.

(** Those of thread [t]. *)
Definition by_thread {A} (t : nat) (l : list (nat * A)) : list A :=
  map snd (filter (fun x => Nat.eqb (fst x) t) l).

(** The log has room for the level: which levels a build logs at all. *)
Definition enabled (built : N) (e : entry) : bool :=
  match entry_level e with
  | LInfo | LFail => true
  | LError => negb (N.eqb built 0)
  | LWarning => N.leb 2 built
  | LDebug => N.leb 3 built
  | LDiag => N.leb 4 built
  end.

Definition is_error (e : entry) : bool := match entry_level e with LError => true | _ => false end.
