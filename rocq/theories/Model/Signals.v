(** Model of signals: manager.cpp 100-137, setupSignals and signalHandler.
    The handler runs in whatever thread the kernel picks, on top of what that
    thread is doing and with the locks it has at that moment; so it is code put
    in front of the thread's (Model/Race.v).

    Simplified: a manager is there ([instance] is not null) as long as its
    threads run; SIGPIPE does nothing and is left out; the log is left out, as
    in Model/Race.v.  That a signal is blocked while its own handler runs is
    not used: here a handler may be interrupted by either. *)
From Coq Require Import List Bool Arith.
From Verif Require Import Model.Race.
Import ListNotations.

(** The signals handled: manager.cpp 114-136. *)
Inductive signal := SigUsr1 | SigTerm.

(** 113-137: signalHandler. *)
Definition signal_code (s : signal) : list instr :=
  match s with SigUsr1 => mgr_stop | SigTerm => mgr_terminate end.

(** What may happen next. *)
Inductive happening :=
| Go (i ch : nat)                (* a step of a thread *)
| Sig (i : nat) (s : signal).    (* a signal comes to a thread that has not ended *)

Definition sstep (e : happening) (c : list thread) : option (list thread) :=
  match e with
  | Go i ch => tstep i ch c
  | Sig i s =>
      match nth_error c i with
      | None => None
      | Some t => match t_code t with
                  | [] => None
                  | k => Some (put i (mkT (t_role t) (t_held t) (signal_code s ++ k)) c)
                  end
      end
  end.
Fixpoint srun (l : list happening) (c : list thread) : option (list thread) :=
  match l with
  | [] => Some c
  | e :: l => match sstep e c with Some c => srun l c | None => None end
  end.
