(** Vocabulary for statements about the HTTP client's thread. *)
From Coq Require Import List Bool Arith.
From Verif Require Import Model.Curler.
Import ListNotations.

Definition creachable (conc : nat) (s : cst) : Prop := exists l, cexec conc l c_init = Some s.

Fixpoint queued (l : list cev) : list nat :=
  match l with [] => [] | EQueued c :: r => c :: queued r | _ :: r => queued r end.
Fixpoint started (l : list cev) : list nat :=
  match l with [] => [] | EStarted c :: r => c :: started r | _ :: r => started r end.
Fixpoint done (l : list cev) : list nat :=
  match l with [] => [] | EDone c :: r => c :: done r | _ :: r => done r end.
Fixpoint called (l : list cev) : list nat :=
  match l with [] => [] | ECalled c :: r => c :: called r | _ :: r => called r end.

Definition times (c : nat) (l : list nat) : nat := count_occ Nat.eq_dec l c.

(** What the users did with request [c]. *)
Fixpoint user_of (c : nat) (l : list cev) : list cev :=
  match l with
  | [] => []
  | ESet x :: r => if Nat.eqb x c then ESet x :: user_of c r else user_of c r
  | EQueued x :: r => if Nat.eqb x c then EQueued x :: user_of c r else user_of c r
  | _ :: r => user_of c r
  end.

(** No thread is inside one of the calls. *)
Definition quiet (s : cst) : Prop := forall t, k_threads s t = KOut.

(** Something the handler should act on. *)
Definition news (conc : nat) (s : cst) : Prop :=
  (k_queue s <> [] /\ length (k_run s) < conc) \/ k_term s = true \/ (k_stop s = true /\ k_queue s = [] /\ k_run s = []).

(** ** Cases *)
Definition h : cact := AHandler EvWake.
(** A thread calls [queue] and runs to the end of it, waking the handler. *)
Definition queues (t c : nat) : list cact := [AQueue t c; AThread t; AThread t; AThread t; AThread t; AThread t].
(** The handler notices a wake-up and is back in poll. *)
Definition wakes : list cact := [h; h; h; h; h; h].
(** libcurl reports request [c]; its callback has been called. *)
Definition reports (c : nat) : list cact := [AHandler (EvNet [c]); h; h].
(** The callback is cleared and the handler is back in poll. *)
Definition finishes : list cact := [h; h; h; h; h].
