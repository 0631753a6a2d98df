(** Model of who touches which shared data under which lock: the code of the
    threads as sequences of lock, unlock and access, with branches taken and
    loops left in any way.  What is computed is left out; the order of locking,
    unlocking and accesses on every path is that of the code.

    Simplified: atomic variables (m_terminate and m_stop of all but the
    manager, m_accept, m_refreshListeners, the statistics) cannot race and are
    left out, as are the log (Model/Log.v) and what is only set before the
    threads start or after they are joined (constructors, destructors, init,
    what [start] sets when no thread runs).  A newly made request is not shared
    until it is in m_requests; when it is destroyed is in Model/Manager.v. *)
From Coq Require Import List Bool Arith.
Import ListNotations.

(** The mutexes of the library. *)
Inductive mutex :=
| MTasks | MRequests | MMessages                (* manager.hpp: m_tasksMutex, m_requestsMutex, m_messagesMutex *)
| MRequest (r : nat) | MQueue (r : nat)         (* request.hpp: mutex, m_messagesMutex *)
| MSend | MWaking                               (* transceiver.hpp: m_sendBufferMutex; sockets.hpp: m_wakingMutex *)
| MCurl | MSql | MMail | MMailWaking.           (* m_mutex of curler.hpp, connection.hpp, mailer.hpp; the mailer's sockets *)

Inductive field :=
| FTasks | FRequests | FMessages | FStop | FTerminate | FThreads   (* manager.hpp: m_tasks ... m_threads *)
| FQueue (r : nat) | FState (r : nat)           (* request.hpp: m_messages; all else in a request *)
| FSend | FBuffers | FThread                    (* transceiver.hpp: m_sendBuffer, m_receiveBuffers, m_thread *)
| FWaking | FListeners | FSockets | FPoll | FReuse | FFiles (* sockets.hpp *)
| FValid (s : nat) | FClosing (s : nat)         (* sockets.hpp 69-109: m_valid, m_closing of a connection *)
| FcQueue | FcHandles | FcWaking | FcPoll       (* curler.hpp *)
| FsQueue | FsConns | FsConn | FsPoll           (* sql/connection.hpp: m_queue, the map m_connections, what is in it, m_poll *)
| FmQueue | FmMail | FmWaking.                  (* mailer.hpp; FmMail: m_email, m_state, m_socket, m_line *)

Inductive instr :=
| Lock (m : mutex) | LockShared (m : mutex) | Unlock (m : mutex)
| Try (m : mutex) (yes no : list instr)         (* std::try_to_lock *)
| Read (f : field) | Write (f : field)
| Alt (bs : list (list instr))                  (* one of these *)
| Each (b : nat -> list instr)                  (* for some request or connection *)
| Loop (b : list instr).                        (* any number of times *)

(** A thread: its role, the locks it holds (true: exclusively), what is left to
    do. *)
Inductive role := RIo | RHandler | RControl | ROutside | RCurl | RSql | RMail.
Definition held := list (mutex * bool).
Record thread := mkT { t_role : role; t_held : held; t_code : list instr }.

(** Auxiliary, no counterpart in the code: equality. *)
Definition mutex_eqb (a b : mutex) : bool :=
  match a, b with
  | MTasks, MTasks | MRequests, MRequests | MMessages, MMessages | MSend, MSend | MWaking, MWaking
  | MCurl, MCurl | MSql, MSql | MMail, MMail | MMailWaking, MMailWaking => true
  | MRequest r, MRequest q | MQueue r, MQueue q => Nat.eqb r q
  | _, _ => false
  end.
Definition holds (m : mutex) (h : held) : bool := existsb (fun x => mutex_eqb (fst x) m) h.
Definition holds_x (m : mutex) (h : held) : bool := existsb (fun x => mutex_eqb (fst x) m && snd x) h.
Definition release (m : mutex) (h : held) : held := filter (fun x => negb (mutex_eqb (fst x) m)) h.

(** Auxiliary, no counterpart in the code: one element of a list replaced. *)
Fixpoint put {A} (i : nat) (a : A) (l : list A) : list A :=
  match i, l with
  | _, [] => []
  | O, _ :: l => a :: l
  | S i, b :: l => b :: put i a l
  end.

(** One step of thread [i]; [ch] is the branch taken.  A lock that is not free
    blocks. *)
Definition tstep (i ch : nat) (c : list thread) : option (list thread) :=
  match nth_error c i with
  | None => None
  | Some t =>
      let go h k := Some (put i (mkT (t_role t) h k) c) in
      match t_code t with
      | [] => None
      | Lock m :: k => if existsb (fun t => holds m (t_held t)) c then None else go ((m, true) :: t_held t) k
      | LockShared m :: k => if existsb (fun t => holds_x m (t_held t)) c then None else go ((m, false) :: t_held t) k
      | Unlock m :: k => go (release m (t_held t)) k
      | Try m yes no :: k =>
          if existsb (fun t => holds m (t_held t)) c || (ch =? 0)
          then go (t_held t) (no ++ k) else go ((m, true) :: t_held t) (yes ++ k)
      | Read _ :: k | Write _ :: k => go (t_held t) k
      | Alt bs :: k => match nth_error bs ch with Some b => go (t_held t) (b ++ k) | None => None end
      | Each b :: k => go (t_held t) (b ch ++ k)
      | Loop b :: k => if ch =? 0 then go (t_held t) k else go (t_held t) (b ++ Loop b :: k)
      end
  end.
Fixpoint trun (l : list (nat * nat)) (c : list thread) : option (list thread) :=
  match l with
  | [] => Some c
  | (i, ch) :: l => match tstep i ch c with Some c => trun l c | None => None end
  end.

(** ** The code. *)

(** sockets.cpp 555-566: SocketGroup::wake. *)
Definition wake : list instr := [Lock MWaking; Read FWaking; Alt [[]; [Write FWaking]]; Unlock MWaking].
(** 610-618: SocketGroup::accept. *)
Definition accept : list instr := [Alt [[]; wake]].
(** transceiver.cpp 205-222: Transceiver::send. *)
Definition send : list instr := [Lock MSend; Write FSend; Unlock MSend] ++ wake.

(** manager.cpp 413-415, the end of push. *)
Definition task : list instr := [Lock MTasks; Write FTasks; Unlock MTasks].
(** manager.cpp 372-411: push for a request, as called by callbacks. *)
Definition push_request : list instr :=
  [Lock MRequests; Read FRequests;
   Alt [[Unlock MRequests];                     (* no such request *)
        [Write FRequests; Unlock MRequests];    (* a new one *)
        [Each (fun r => [Lock (MQueue r); Write (FQueue r); Unlock (MQueue r)]); Unlock MRequests] ++ task]].
(** manager.cpp 335-415: push with any id, as called by the transceiver. *)
Definition push_any : list instr :=
  [Alt [[Lock MMessages; Write FMessages; Unlock MMessages] ++ task;
        [Lock MRequests; Read FRequests;
         Loop [Each (fun r => [Try (MRequest r) [Unlock (MRequest r); Write FRequests] [Read FRequests]])];
         Unlock MRequests];
        push_request]].

(** sockets.cpp 113-127, 59-88, 90-111: close, read and write of a connection. *)
Definition sclose (s : nat) : list instr :=
  [Read (FValid s); Alt [[]; [Write FPoll; Write (FValid s); Write FSockets]]].
Definition sread (s : nat) : list instr :=
  [Read (FValid s); Alt [[]; sclose s; Read (FClosing s) :: [Alt [[]; sclose s]]]].
Definition swrite (s : nat) : list instr :=
  [Read (FValid s); Alt [[]; Read (FClosing s) :: [Alt [[]; sclose s]]]].

(** sockets.cpp 467-553, 568-603: poll and createSocket. *)
Definition spoll : list instr :=
  [Loop [Read FListeners; Read FSockets; Loop [Read FListeners; Write FPoll]; Write FPoll;
         Alt [[];
              [Read FListeners;
               Alt [[Each (fun s => [Write FPoll; Alt [[]; sclose s]; Write FSockets])];
                    [];
                    [Lock MWaking; Write FWaking; Unlock MWaking];
                    [Read FSockets; Alt [[Write FPoll]; [Each (fun s => [Alt [[]; [Write (FClosing s)]]])]]]]]]];
   Read FListeners; Read FSockets].
(** transceiver.cpp 193-203, 134-191: cleanupSocket, receive. *)
Definition cleanup (s : nat) : list instr := Write FBuffers :: push_any ++ sclose s.
Definition receive (s : nat) : list instr :=
  [Read (FValid s);
   Alt [[];
        Write FBuffers :: [Alt [[]; sread s]; Alt [[]; cleanup s; Write FBuffers :: sread s ++ [Write FBuffers; Alt [[]; cleanup s; push_any]]]]]].
(** transceiver.cpp 32-73: transmit.  The first instruction is
    [m_sendBuffer.empty()]. *)
Definition transmit : list instr :=
  [Read FSend;
   Loop ([Lock MSend; Write FSend; Unlock MSend;
          Each (fun s => swrite s ++ [Alt [[]; [Lock MSend; Write FSend; Unlock MSend]; sclose s ++ [Write FBuffers]]])]
         ++ [Read FSend])].
(** transceiver.cpp 75-86: Transceiver::handler, one thread. *)
Definition io_thread : list instr :=
  [Read FSockets; Loop (spoll ++ [Alt [[]; [Each receive]]] ++ transmit ++ [Read FSockets])].

(** curler.cpp 190-200, 181-187: wake, queue. *)
Definition curl_wake : list instr := [Read FcWaking; Alt [[]; [Write FcWaking]]].
Definition curl_queue : list instr := [Lock MCurl; Write FcQueue] ++ curl_wake ++ [Unlock MCurl].
(** sql/connection.hpp connected, connection.cpp 262-275: queue. *)
Definition sql_queue : list instr := [Read FsConns; Alt [[]; [Lock MSql; Write FsQueue; Unlock MSql]]].
(** mailer.cpp 377-382: queue; 334-349: stop and terminate. *)
Definition mail_wake : list instr := [Lock MMailWaking; Read FmWaking; Alt [[]; [Write FmWaking]]; Unlock MMailWaking].
Definition mail_queue : list instr := [Lock MMail; Write FmQueue] ++ mail_wake ++ [Unlock MMail].
Definition mail_stop : list instr := [Lock MMail] ++ mail_wake ++ [Unlock MMail].

(** What an application may do in response() and other virtual functions. *)
Definition application : list instr := [Loop [Alt [send; push_request; curl_queue; sql_queue; mail_queue]]].

(** request.cpp 55-192: Request::handler, called with the request's mutex
    locked, up to where it returns with its lock, and without it. *)
Definition message (r : nat) : list instr :=
  [Write (FQueue r); Unlock (MQueue r); Write (FState r)] ++ application.
(** manager.cpp 290-312. *)
Definition erase_request (r : nat) : list instr :=
  [Lock MRequests; Unlock (MRequest r); Write FRequests; Unlock MRequests].
Definition run_request (r : nat) : list instr :=
  [Lock (MQueue r); Read (FQueue r);
   Loop (message r ++ [Lock (MQueue r); Read (FQueue r)]);
   Alt [[Each (fun s => [Read (FValid s)]);
         Alt [Unlock (MQueue r) :: erase_request r; [Unlock (MRequest r); Unlock (MQueue r)]]];
        message r ++ send ++ erase_request r]].
(** manager.cpp 143-252: localHandler. *)
Definition local : list instr := [Lock MMessages; Write FMessages; Unlock MMessages; Loop send].
(** manager.cpp 254-333: handler, in any number of threads. *)
Definition check : list instr := [Read FTerminate; Read FStop; Read FRequests].
Definition tasks : list instr :=
  [Read FTasks;
   Loop ([Write FTasks; Unlock MTasks;
          Alt [local;
               [LockShared MRequests; Read FRequests;
                Alt [[Unlock MRequests];
                     [Each (fun r => [Try (MRequest r) (Unlock MRequests :: run_request r) [Unlock MRequests]])]]]];
          Lock MTasks; Read FTasks])].
Definition handler_thread : list instr :=
  [Lock MTasks; LockShared MRequests] ++ check ++
  [Loop (Unlock MRequests :: tasks ++ [LockShared MRequests] ++ check ++ [Unlock MRequests]
         ++ [Unlock MTasks; Lock MTasks]        (* m_wake.wait *)
         ++ [LockShared MRequests] ++ check);
   Alt [[]; Unlock MRequests :: tasks ++ [LockShared MRequests] ++ check];  (* the break of 319-323 *)
   Unlock MRequests; Unlock MTasks].

(** curler.cpp 35-107: Curler::handler; its callbacks push messages. *)
Definition curl_thread : list instr :=
  [Lock MCurl; Read FcQueue; Read FcHandles;
   Loop ([Read FcQueue; Read FcHandles; Loop [Write FcHandles; Write FcQueue; Write FcPoll]; Unlock MCurl; Write FcPoll;
          Alt [[Lock MCurl; Write FcWaking];
               [Write FcPoll; Loop (Write FcHandles :: [Alt [[]; push_request]]); Lock MCurl]];
          Read FcQueue; Read FcHandles]);
   Unlock MCurl].

(** connection.cpp 330-354: kill, killAll. *)
Definition sql_kill : list instr := [Read FsConn; Write FsPoll; Alt [[]; [Lock MSql; Write FsQueue; Unlock MSql]]; Write FsConns].
Definition sql_kill_all : list instr := [Read FsConns; Write FsPoll; Write FsConns; Lock MSql; Write FsQueue; Unlock MSql].
(** connection.cpp 42-208: SQL::Connection::handler.  The first instruction of
    the loop is [m_queue.empty()]. *)
Definition sql_thread : list instr :=
  sql_kill_all ++
  [Read FsQueue;
   Loop ([Read FsConns; Loop [Write FsPoll; Write FsConns; Read FsConns];
          Loop ([Read FsConns; Lock MSql; Read FsQueue; Alt [[]; [Write FsConn; Write FsQueue]]; Unlock MSql;
                 Alt [[]; sql_kill; [Write FsConn]]]);
          Read FsConns; Write FsPoll;
          Alt [[]; [Write FsPoll]; [Read FsConns; Write FsConn; Alt [[]; push_request]]; Read FsConns :: sql_kill];
          Read FsQueue])]
  ++ sql_kill_all.

(** mailer.cpp 33-332: Mailer::handler; the waiting of 41. *)
Definition mail_thread : list instr :=
  [Lock MMail; Read FmQueue; Read FmMail;
   Loop ([Read FmMail; Alt [[]; [Unlock MMail; Lock MMail; Write FmMail; Read FmQueue]]; Read FmQueue; Alt [[]; [Write FmMail; Write FmQueue]];
          Unlock MMail; Read FmMail; Write FmMail;
          Alt [[]; [Lock MMailWaking; Write FmWaking; Unlock MMailWaking]];
          Write FmMail; Lock MMail; Read FmQueue; Read FmMail]);
   Unlock MMail].

(** manager.cpp 60-98, 420-429 and transceiver.cpp 88-118: what is called from
    outside; sockets.cpp 204-368 and sockets.hpp 402-406: listen and
    reuseAddress. *)
Definition mgr_stop : list instr := [Lock MTasks; Write FStop] ++ accept ++ [Unlock MTasks].
Definition mgr_terminate : list instr := [Lock MTasks; Write FTerminate] ++ wake ++ [Unlock MTasks].
Definition mgr_start : list instr := [Lock MTasks; Write FStop; Write FTerminate] ++ accept ++ [Write FThread; Write FThreads; Unlock MTasks].
Definition mgr_join : list instr := [Write FThreads; Write FThread].
Definition resize : list instr := [Read FStop; Alt [[]; [Write FThreads]]].
Definition listen : list instr := [Read FReuse; Read FListeners; Write FFiles; Write FListeners].
Definition reuse : list instr := [Write FReuse].
(** curler.cpp 145-155: stop and terminate. *)
Definition curl_stop : list instr := curl_wake.

(** The thread that sets everything up, and any number of others. *)
Definition control_thread : list instr :=
  [Loop [Alt [mgr_stop; mgr_terminate; mgr_start; mgr_join; resize; listen; reuse; curl_stop; mail_stop;
              curl_queue; sql_queue; mail_queue; push_request]]].
Definition outside_thread : list instr :=
  [Loop [Alt [mgr_stop; mgr_terminate; push_request; curl_queue; sql_queue; mail_queue; mail_stop]]].

(** The code each kind of thread runs; lines at each part above. *)
Definition code_of (r : role) : list instr :=
  match r with
  | RIo => io_thread | RHandler => handler_thread | RControl => control_thread | ROutside => outside_thread
  | RCurl => curl_thread | RSql => sql_thread | RMail => mail_thread
  end.
Definition fresh (r : role) : thread := mkT r [] (code_of r).
(** [handlers] handler threads and [others] other threads. *)
Definition t_init (handlers others : nat) : list thread :=
  map fresh ([RIo; RControl; RCurl; RSql; RMail] ++ repeat RHandler handlers ++ repeat ROutside others).
