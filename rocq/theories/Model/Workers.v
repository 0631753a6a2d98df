(** Model of starting, stopping, joining and destroying the objects with one
    thread of their own: [Curler] (src/curler.cpp 33-41, 143-200),
    [SQL::Connection] (src/connection.cpp 41-45, 207-240, 275-288) and
    [Mail::Mailer] (src/mailer.cpp 33-36, 324-361, 376-381).

    [init] of the latter two is taken to have been called.  What the threads
    do is in Curler.v, Connection.v and Mailer.v; here only when they end. *)
From Coq Require Import List Bool Arith.
From Verif Require Import Model.Lifecycle.
Import ListNotations.

(** The three classes. *)
Inductive kind := KCurler | KConnection | KMailer.

(** [None] is an indeterminate value: the constructors do not initialise
    the flags (curler.hpp 109-124, mailer.hpp 112-131, connection.hpp 141-187);
    objects of static storage duration are zeroed first. *)
Record worker := mkK {
  k_stop : option bool;       (* m_stop *)
  k_term : option bool;       (* m_terminate *)
  k_waking : option bool;     (* Curler: m_waking *)
  k_thread : slot;            (* m_thread *)
  k_work : bool               (* Curler: m_queue or m_handles is not empty;
                                 Connection: m_queue is not empty;
                                 Mailer: m_queue is not empty or inEmail() *)
}.

(** Auxiliary, no counterpart in the code: an object as constructed: zeroed
    memory when it is static, indeterminate otherwise. *)
Definition k_init (static : bool) : worker :=
  let v := if static then Some false else None in mkK v v v Vacant false.

(** What may happen next. *)
Inductive kact :=
| KStart | KStop | KTerminate | KJoin | KDestroy
| KQueue (connected : bool)   (* queue(); the argument: whether all connections are made *)
| KWake                       (* Curler: the thread takes the byte from the wake socket *)
| KWork (b : bool)            (* the thread gets work done, or has to do it again *)
| KLeave.                     (* the function of the thread returns *)

Inductive kres :=
| KOn (s : worker)
| KGone                       (* destroyed *)
| KAbort                      (* std::terminate: a joinable std::thread was destroyed *)
| KBlocked                    (* cannot happen now *)
| KUndef.                     (* an indeterminate value is examined *)

(** The loop conditions: curler.cpp 42, connection.cpp 44, mailer.cpp 36. *)
Definition k_due (s : worker) : bool :=
  match k_term s, k_stop s with
  | Some t, Some p => t || (p && negb (k_work s))
  | _, _ => false
  end.

(** curler.cpp 190-200: [if(!m_waking)]; the others write without looking. *)
Definition k_wake (k : kind) (s : worker) : kres :=
  match k with
  | KCurler =>
      match k_waking s with
      | None => KUndef
      | Some _ => KOn (mkK (k_stop s) (k_term s) (Some true) (k_thread s) (k_work s))
      end
  | _ => KOn s
  end.

(** One call or the end of the thread; lines as in the parts above. *)
Definition k_step (k : kind) (a : kact) (s : worker) : kres :=
  match a with
  | KStart =>       (* curler.cpp 164-174, connection.cpp 219-228, mailer.cpp 340-349 *)
      if joinable (k_thread s) then KOn s
      else KOn (mkK (Some false) (Some false) (match k with KCurler => Some false | _ => k_waking s end) Alive (k_work s))
  | KStop => k_wake k (mkK (Some true) (k_term s) (k_waking s) (k_thread s) (k_work s))
  | KTerminate => k_wake k (mkK (k_stop s) (Some true) (k_waking s) (k_thread s) (k_work s))
  | KJoin =>
      if is_alive (k_thread s) then KBlocked
      else KOn (mkK (k_stop s) (k_term s) (k_waking s) Vacant (k_work s))
  | KDestroy =>     (* curler.cpp 143-150, connection.cpp 236-239, mailer.cpp 357-359: nothing is joined *)
      if joinable (k_thread s) then KAbort else KGone
  | KQueue connected =>
      let more := mkK (k_stop s) (k_term s) (k_waking s) (k_thread s) true in
      match k with
      | KConnection =>
          match k_stop s with
          | None => KUndef
          | Some p => if negb p && connected then KOn more else KOn s
          end
      | _ => k_wake k more
      end
  | KWake =>
      if is_alive (k_thread s) then
        match k with
        | KCurler => KOn (mkK (k_stop s) (k_term s) (Some false) (k_thread s) (k_work s))
        | _ => KOn s
        end
      else KBlocked
  | KWork b =>
      if is_alive (k_thread s) then KOn (mkK (k_stop s) (k_term s) (k_waking s) (k_thread s) b) else KBlocked
  | KLeave =>
      if k_due s && is_alive (k_thread s)
      then KOn (mkK (k_stop s) (k_term s) (k_waking s) Ended (k_work s))
      else KBlocked
  end.

(** Auxiliary, no counterpart in the code: the execution, one step after
    another. *)
Fixpoint k_run (k : kind) (l : list kact) (s : worker) : kres :=
  match l with
  | [] => KOn s
  | a :: l' => match k_step k a s with KOn s' => k_run k l' s' | r => r end
  end.
