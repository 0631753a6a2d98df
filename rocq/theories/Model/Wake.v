(** Model of the wake-up mechanism (src/sockets.cpp 467-618) together with the
    loop of the I/O thread (src/transceiver.cpp 32-86) and the calls that wake
    it ([stop] 88-92, [terminate] 94-98, [send] 205-222), as a transition
    system: the I/O thread and any number of other threads, whose steps are
    interleaved at every access to what they share.

    Simplified: the send buffer is represented by the number of records in it
    and the connections by their number; what is sent and received is treated
    in Model/Transceiver.v, the table of sockets in Model/Sockets.v.  Any
    number of listening sockets is taken as one.  [start] is not modelled: the
    execution begins after it. *)
From Coq Require Import List NArith Bool Arith.
From Verif Require Import Model.Base.
Import ListNotations.

(** The I/O thread.  [b] is the argument of [poll], then [block] in it. *)
Inductive lpc :=
| LTop (b : bool)      (* transceiver.cpp 80; b is [flushed] *)
| LPoll (b : bool)     (* sockets.cpp 469 *)
| LRefresh (b : bool)  (* 471-476 *)
| LFresh (b : bool)    (* 480 *)
| LWait (b : bool)     (* 483: epoll_wait *)
| LLock                (* 506 *)
| LRead                (* 508-510 *)
| LClear               (* 511-513, and the mutex is released *)
| LRecv                (* transceiver.cpp 83 *)
| LTx                  (* 36-42 *)
| LTxHave              (* 44-69: a record is out of the buffer *)
| LDone                (* 86: the loop ended *)
| LFail.               (* sockets.cpp 509: FAIL_LOG *)

(** Another thread. *)
Inductive kpc :=
| KOut                 (* in none of these calls *)
| KStop                (* in stop, m_stop is set: sockets.cpp 612 *)
| KRefresh             (* 614 *)
| KAccept              (* 615 *)
| KWant                (* wake: 557 *)
| KTest                (* 558-560 *)
| KWrite               (* 562, m_waking is set *)
| KLeave.              (* 566: the mutex is released and wake returns *)

Record wst := mkW {
  w_loop : lpc;
  w_threads : nat -> kpc;
  w_owner : option (option nat);   (* m_wakingMutex; Some None: the I/O thread *)
  w_waking : bool;                 (* m_waking *)
  w_bytes : nat;                   (* bytes in the socket pair m_wakeSockets *)
  w_queue : nat;                   (* m_sendBuffer.size() *)
  w_conns : nat;                   (* m_sockets.m_sockets.size() *)
  w_terminate : bool;              (* m_terminate *)
  w_stop : bool;                   (* m_stop *)
  w_accept : bool;                 (* m_accept *)
  w_refresh : bool;                (* m_refreshListeners *)
  w_listening : bool;              (* the listener is in the poll list *)
  w_due : nat                      (* history only: the calls of wake that
      returned since m_waking was last cleared *)
}.

(** transceiver.cpp 100-110, sockets.cpp 141-146 with a listener. *)
Definition w_init : wst :=
  mkW (LTop false) (fun _ => KOut) None false 0 0 0 false false true true false 0.

(** Auxiliary, no counterpart in the code: a function changed at one point. *)
Definition kset (f : nat -> kpc) (t : nat) (k : kpc) : nat -> kpc :=
  fun x => if Nat.eqb x t then k else f x.

(** Auxiliary, no counterpart in the code: updates of one part of the state.
    *)
Definition set_loop (v : lpc) (s : wst) : wst :=
  mkW v (w_threads s) (w_owner s) (w_waking s) (w_bytes s) (w_queue s) (w_conns s) (w_terminate s)
    (w_stop s) (w_accept s) (w_refresh s) (w_listening s) (w_due s).
Definition set_thread (t : nat) (v : kpc) (s : wst) : wst :=
  mkW (w_loop s) (kset (w_threads s) t v) (w_owner s) (w_waking s) (w_bytes s) (w_queue s) (w_conns s) (w_terminate s)
    (w_stop s) (w_accept s) (w_refresh s) (w_listening s) (w_due s).
Definition set_owner (v : option (option nat)) (s : wst) : wst :=
  mkW (w_loop s) (w_threads s) v (w_waking s) (w_bytes s) (w_queue s) (w_conns s) (w_terminate s)
    (w_stop s) (w_accept s) (w_refresh s) (w_listening s) (w_due s).
Definition set_waking (v : bool) (s : wst) : wst :=
  mkW (w_loop s) (w_threads s) (w_owner s) v (w_bytes s) (w_queue s) (w_conns s) (w_terminate s)
    (w_stop s) (w_accept s) (w_refresh s) (w_listening s) (w_due s).
Definition set_bytes (v : nat) (s : wst) : wst :=
  mkW (w_loop s) (w_threads s) (w_owner s) (w_waking s) v (w_queue s) (w_conns s) (w_terminate s)
    (w_stop s) (w_accept s) (w_refresh s) (w_listening s) (w_due s).
Definition set_queue (v : nat) (s : wst) : wst :=
  mkW (w_loop s) (w_threads s) (w_owner s) (w_waking s) (w_bytes s) v (w_conns s) (w_terminate s)
    (w_stop s) (w_accept s) (w_refresh s) (w_listening s) (w_due s).
Definition set_conns (v : nat) (s : wst) : wst :=
  mkW (w_loop s) (w_threads s) (w_owner s) (w_waking s) (w_bytes s) (w_queue s) v (w_terminate s)
    (w_stop s) (w_accept s) (w_refresh s) (w_listening s) (w_due s).
Definition set_terminate (s : wst) : wst :=
  mkW (w_loop s) (w_threads s) (w_owner s) (w_waking s) (w_bytes s) (w_queue s) (w_conns s) true
    (w_stop s) (w_accept s) (w_refresh s) (w_listening s) (w_due s).
Definition set_stop (s : wst) : wst :=
  mkW (w_loop s) (w_threads s) (w_owner s) (w_waking s) (w_bytes s) (w_queue s) (w_conns s) (w_terminate s)
    true (w_accept s) (w_refresh s) (w_listening s) (w_due s).
Definition set_accept (v : bool) (s : wst) : wst :=
  mkW (w_loop s) (w_threads s) (w_owner s) (w_waking s) (w_bytes s) (w_queue s) (w_conns s) (w_terminate s)
    (w_stop s) v (w_refresh s) (w_listening s) (w_due s).
Definition set_refresh (v : bool) (s : wst) : wst :=
  mkW (w_loop s) (w_threads s) (w_owner s) (w_waking s) (w_bytes s) (w_queue s) (w_conns s) (w_terminate s)
    (w_stop s) (w_accept s) v (w_listening s) (w_due s).
Definition set_listening (v : bool) (s : wst) : wst :=
  mkW (w_loop s) (w_threads s) (w_owner s) (w_waking s) (w_bytes s) (w_queue s) (w_conns s) (w_terminate s)
    (w_stop s) (w_accept s) (w_refresh s) v (w_due s).
Definition set_due (v : nat) (s : wst) : wst :=
  mkW (w_loop s) (w_threads s) (w_owner s) (w_waking s) (w_bytes s) (w_queue s) (w_conns s) (w_terminate s)
    (w_stop s) (w_accept s) (w_refresh s) (w_listening s) v.

(** What epoll_wait may report (poll.cpp 112-136, sockets.cpp 485-550). *)
Inductive lev :=
| EvWake               (* the wake socket; needs a byte in it *)
| EvSocket             (* a connection: poll returns it *)
| EvListener           (* somebody connects; needs the listener in the list *)
| EvNone.              (* nothing: [block] is false, or a signal (EINTR) *)

(** A step of the I/O thread; [None]: it has to wait.  [e]: what the kernel
    reports; [closed]: the connections closed in [receive] (83) or by a record
    with the kill flag (63); [full]: whether the record was written in full or
    failed (47-50). *)
Definition loop_step (e : lev) (closed : nat) (full : bool) (s : wst) : option wst :=
  match w_loop s with
  | LTop b =>
      if w_terminate s || (w_stop s && (w_conns s =? 0))
      then Some (set_loop LDone s) else Some (set_loop (LPoll b) s)
  | LPoll b => Some (set_loop (LRefresh b) s)   (* there is a listener *)
  | LRefresh b =>
      if w_refresh s then Some (set_loop (LFresh b) (set_listening (w_accept s) s))
      else Some (set_loop (LWait b) s)
  | LFresh b => Some (set_loop (LWait b) (set_refresh false s))
  | LWait b =>
      match e with
      | EvWake => if w_bytes s =? 0 then None else Some (set_loop LLock s)
      | EvSocket => if w_conns s =? 0 then None else Some (set_loop LRecv s)
      | EvListener =>   (* 489-492 and createSocket 568-603 *)
          if w_listening s
          then Some (set_loop (LPoll b) (if w_accept s then set_conns (S (w_conns s)) s else s))
          else None
      | EvNone => Some (set_loop LRecv s)
      end
  | LLock =>
      match w_owner s with
      | Some _ => None
      | None => Some (set_loop LRead (set_owner (Some None) s))
      end
  | LRead =>
      if w_bytes s =? 0 then Some (set_loop LFail s)
      else Some (set_loop LClear (set_bytes (w_bytes s - 256) s))
  | LClear => Some (set_loop (LPoll false) (set_owner None (set_due 0 (set_waking false s))))
  | LRecv => Some (set_loop LTx (set_conns (w_conns s - closed) s))
  | LTx =>
      match w_queue s with
      | O => Some (set_loop (LTop true) s)
      | S n => Some (set_loop LTxHave (set_queue n s))
      end
  | LTxHave =>
      if full then Some (set_loop LTx (set_conns (w_conns s - closed) s))
      else Some (set_loop (LTop false) (set_queue (S (w_queue s)) s))
  | LDone | LFail => None
  end.

(** What may happen next. *)
Inductive wact :=
| WLoop (e : lev) (closed : nat) (full : bool)
| WSend (t : nat)      (* a call of send: 210-217 *)
| WTerminate (t : nat) (* a call of terminate: 96 *)
| WStop (t : nat)      (* a call of stop: 90 *)
| WWake (t : nat)      (* a call of wake *)
| WRun (t : nat).      (* the next step of the call *)

(** A step of another thread in one of these calls. *)
Definition run_step (t : nat) (s : wst) : option wst :=
  match w_threads s t with
  | KOut => None
  | KStop => if w_accept s then Some (set_thread t KRefresh s) else Some (set_thread t KOut s)
  | KRefresh => Some (set_thread t KAccept (set_refresh true s))
  | KAccept => Some (set_thread t KWant (set_accept false s))
  | KWant =>
      match w_owner s with
      | Some _ => None
      | None => Some (set_thread t KTest (set_owner (Some (Some t)) s))
      end
  | KTest =>
      if w_waking s then Some (set_thread t KLeave s)
      else Some (set_thread t KWrite (set_waking true s))
  | KWrite => Some (set_thread t KLeave (set_bytes (S (w_bytes s)) s))
  | KLeave => Some (set_thread t KOut (set_owner None (set_due (S (w_due s)) s)))
  end.

(** Auxiliary, no counterpart in the code: the thread is in none of the calls.
    *)
Definition idle (t : nat) (s : wst) : bool := match w_threads s t with KOut => true | _ => false end.

(** One step; [None] when it cannot happen. *)
Definition wstep (a : wact) (s : wst) : option wst :=
  match a with
  | WLoop e closed full => loop_step e closed full s
  | WSend t => if idle t s then Some (set_thread t KWant (set_queue (S (w_queue s)) s)) else None
  | WTerminate t => if idle t s then Some (set_thread t KWant (set_terminate s)) else None
  | WStop t => if idle t s then Some (set_thread t KStop (set_stop s)) else None
  | WWake t => if idle t s then Some (set_thread t KWant s) else None
  | WRun t => run_step t s
  end.

(** A sequence of steps; [None] when one of them cannot happen.  Auxiliary, no
    counterpart in the code: the execution. *)
Fixpoint wexec (l : list wact) (s : wst) : option wst :=
  match l with
  | [] => Some s
  | a :: l => match wstep a s with Some s' => wexec l s' | None => None end
  end.
