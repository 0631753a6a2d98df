(** Model of the logging macros (include/fastcgi++/log.hpp 77-159, src/log.cpp 107-113).

    Any number of threads.  A step is one access to something shared: the
    flag [suppress], the mutex, or the log stream.  Left to the environment:
    when the program logs what, when it changes [suppress], what a header says
    besides the level, and what the destructors of static objects log when
    the program exits.  Not modelled: changing [logstream], exceptions, the
    initialisation of [hostname] and [program] (see Model/LogStart.v). *)
From Coq Require Import String List NArith Bool Arith.
From Verif Require Import Model.Base.
Import ListNotations.

(** log.hpp 61-69. *)
Inductive level := LInfo | LFail | LError | LWarning | LDebug | LDiag.

(** log.cpp 89-97. *)
Definition level_text (l : level) : list N :=
  lit match l with
      | LInfo => "[info]: "
      | LFail => "[fail]: "
      | LError => "[error]: "
      | LWarning => "[warning]: "
      | LDebug => "[debug]: "
      | LDiag => "[diagnostic]: "
      end.

(** log.hpp 100, 117, 135, 148: whether the macro does anything in a program
    built with FASTCGIPP_LOG_LEVEL [built]. *)
Definition compiled (built : N) (l : level) : bool :=
  match l with
  | LInfo | LFail => true
  | LError => N.ltb 0 built
  | LWarning => N.ltb 1 built
  | LDebug => N.ltb 2 built
  | LDiag => N.ltb 3 built
  end.

(** log.hpp 78, 92, 107, 125, 138, 151: whether it looks at [suppress]. *)
Definition heeds (l : level) : bool := match l with LError => false | _ => true end.

(** A use of a macro: the level and what is put out behind one another; a
    piece is a text, or an expression that logs itself when evaluated. *)
Inductive entry := Entry (l : level) (pieces : list piece)
with piece := Text (s : list N) | Logs (e : entry).

(** What a thread still has to do for its uses of the macros. *)
Inductive instr :=
| ITest (e : entry)               (* the macro: if(!suppress) *)
| ILock                           (* lock_guard *)
| IHead (l : level)               (* header(level), log.cpp 107-113 *)
| IPut (s : list N)               (* logstream << ... *)
| IExit                           (* std::exit *)
| IUnlock                         (* the destructor of lock_guard *)
| IGone.                          (* std::exit is through *)

(** The body of the macro. *)
Definition body (e : entry) : list instr :=
  let '(Entry l ps) := e in
  [ILock; IHead l]
  ++ map (fun p => match p with Text s => IPut s | Logs e => ITest e end) ps
  ++ [IPut [10%N]]
  ++ (match l with LFail => [IExit] | _ => [] end)
  ++ [IUnlock].

(** [l_made] and [l_begun] are history: the uses the program made of the
    macros, and those that went past the test. *)
Record log := mkLog {
  l_threads : nat -> list instr;
  l_holder : option nat;
  l_suppress : bool;
  l_out : list N;
  l_gone : bool;
  l_made : list (nat * entry);
  l_begun : list (nat * entry)
}.

(** Auxiliary, no counterpart in the code: the state before anything is
    logged, log.cpp 107-113. *)
Definition log_init : log := mkLog (fun _ => []) None false [] false [] [].

(** What may happen next. *)
Inductive lact :=
| LStep (t : nat) (stamp : list N)   (* thread t goes on; stamp: date, host and program *)
| LCall (t : nat) (e : entry)        (* thread t, not logging, comes to a macro *)
| LSignal (t : nat) (e : entry)      (* the same in a signal handler, whatever t is doing *)
| LSuppress (b : bool).              (* the program changes the flag *)

Inductive lres :=
| LOn (s : log)
| LNo                             (* t is blocked, or has nothing to do *)
| LUndef.                         (* a thread locks a mutex it holds *)

Section Log.
Variable built : N.
(** What the destructors of static objects log. *)
Variable at_exit : list entry.

(** Auxiliary, no counterpart in the code: the code of one thread replaced. *)
Definition at_thread (t : nat) (is : list instr) (f : nat -> list instr) : nat -> list instr :=
  fun i => if Nat.eqb i t then is else f i.

(** One step of a thread in a logging macro, log.hpp 77-159, or a change of
    [suppress]. *)
Definition l_step (a : lact) (s : log) : lres :=
  if l_gone s then LNo else
  match a with
  | LSuppress b =>
      LOn (mkLog (l_threads s) (l_holder s) b (l_out s) false (l_made s) (l_begun s))
  | LCall t e =>
      match l_threads s t with
      | [] => LOn (mkLog (at_thread t [ITest e] (l_threads s)) (l_holder s) (l_suppress s) (l_out s) false
                     (l_made s ++ [(t, e)]) (l_begun s))
      | _ => LNo
      end
  | LSignal t e =>
      LOn (mkLog (at_thread t (ITest e :: l_threads s t) (l_threads s)) (l_holder s) (l_suppress s) (l_out s) false
             (l_made s ++ [(t, e)]) (l_begun s))
  | LStep t stamp =>
      match l_threads s t with
      | [] => LNo
      | i :: r =>
          let on h o g n is :=
            LOn (mkLog (at_thread t is (l_threads s)) h (l_suppress s) o g (l_made s) (l_begun s ++ n)) in
          match i with
          | ITest e =>
              let '(Entry l _) := e in
              if negb (compiled built l) || (heeds l && l_suppress s)
              then on (l_holder s) (l_out s) false [] r
              else on (l_holder s) (l_out s) false [(t, e)] (body e ++ r)
          | ILock =>
              match l_holder s with
              | None => on (Some t) (l_out s) false [] r
              | Some t' => if Nat.eqb t' t then LUndef else LNo
              end
          | IHead l => on (l_holder s) (l_out s ++ stamp ++ level_text l) false [] r
          | IPut x => on (l_holder s) (l_out s ++ x) false [] r
          | IExit => on (l_holder s) (l_out s) false [] (map ITest at_exit ++ [IGone])
          | IUnlock => on None (l_out s) false [] r
          | IGone => on (l_holder s) (l_out s) true [] r
          end
      end
  end.

(** Auxiliary, no counterpart in the code: the execution, one step after
    another. *)
Fixpoint l_run (l : list lact) (s : log) : lres :=
  match l with
  | [] => LOn s
  | a :: l => match l_step a s with LOn s' => l_run l s' | r => r end
  end.
End Log.
