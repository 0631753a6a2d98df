(** Model of starting, stopping, joining, resizing and destroying a [Manager]
    (src/manager.cpp 34-97, 423-438; src/transceiver.cpp 75-118, 224-226).

    One thread of the program makes the calls [start], [join], [resizeThreads]
    and destroys the object ([join] and [resizeThreads] take no lock, so that
    they may not run beside one another or [start]); [stop] and [terminate]
    may come from any thread or a signal handler and are atomic, being made
    under [m_tasksMutex].  What the threads do is in Manager.v and
    Transceiver.v; here only when they may end. *)
From Coq Require Import List Bool Arith.
Import ListNotations.

(** A [std::thread]: not joinable; joinable and its function running;
    joinable and its function ended. *)
Inductive slot := Vacant | Alive | Ended.

(** std::thread::joinable. *)
Definition joinable (t : slot) : bool := match t with Vacant => false | _ => true end.

(** The members of Manager_base and of its transceiver that matter here:
    manager.hpp 237-249, transceiver.hpp 231-237. *)
Record mgr := mkG {
  g_stop : bool;              (* m_stop *)
  g_term : bool;              (* m_terminate *)
  g_threads : list slot;      (* m_threads *)
  g_tstop : bool;             (* m_transceiver.m_stop *)
  g_tterm : bool;             (* m_transceiver.m_terminate *)
  g_io : slot;                (* m_transceiver.m_thread *)
  g_requests : bool;          (* m_requests is not empty *)
  g_sockets : bool            (* m_transceiver.m_sockets.size() is not 0 *)
}.

(** manager.cpp 34-58.  The transceiver's flags are not initialised
    (transceiver.cpp 120-131); nothing reads them before [start]. *)
Definition g_init (n : nat) (junk1 junk2 : bool) : mgr :=
  mkG true true (repeat Vacant n) junk1 junk2 Vacant false false.

(** What happens. *)
Inductive gact :=
| GStart | GStop | GTerminate | GJoin | GResize (n : nat) | GDestroy     (* calls *)
| GLeave (i : nat)            (* the function of handler thread i returns *)
| GLeaveIo                    (* that of the transceiver's thread *)
| GRequests (b : bool)        (* requests come and go *)
| GSockets (b : bool).        (* connections come and go *)

Inductive gres :=
| GOn (s : mgr)
| GGone                       (* destroyed *)
| GAbort                      (* std::terminate: a joinable std::thread was destroyed *)
| GBlocked.                   (* cannot happen now: a thread is still running *)

(** [if(!thread.joinable()) { std::thread newThread(...); thread.swap(newThread); }],
    manager.cpp 83-88, transceiver.cpp 105-109.  That the system refuses a new
    thread ([std::system_error]) is left out. *)
Definition launch (t : slot) : slot := match t with Vacant => Alive | _ => t end.

(** manager.cpp 76-89, transceiver.cpp 100-110. *)
Definition g_start (s : mgr) : mgr :=
  mkG false false (map launch (g_threads s)) false false (launch (g_io s)) (g_requests s) (g_sockets s).

(** manager.cpp 68-74, transceiver.cpp 88-92. *)
Definition g_stopped (s : mgr) : mgr :=
  mkG true (g_term s) (g_threads s) true (g_tterm s) (g_io s) (g_requests s) (g_sockets s).

(** manager.cpp 60-66, transceiver.cpp 94-98. *)
Definition g_terminated (s : mgr) : mgr :=
  mkG (g_stop s) true (g_threads s) (g_tstop s) true (g_io s) (g_requests s) (g_sockets s).

(** manager.cpp 91-97, transceiver.cpp 112-118: [std::thread::join] waits for
    the function to end; the calls for the single threads are taken together
    at the moment when the last one is through. *)
Definition is_alive (t : slot) : bool := match t with Alive => true | _ => false end.
Definition g_join (s : mgr) : gres :=
  if existsb is_alive (g_threads s) || is_alive (g_io s) then GBlocked
  else GOn (mkG (g_stop s) (g_term s) (map (fun _ => Vacant) (g_threads s))
              (g_tstop s) (g_tterm s) Vacant (g_requests s) (g_sockets s)).

(** manager.cpp 420-429.  [vector::resize] destroys the last elements. *)
Definition g_resize (n : nat) (s : mgr) : gres :=
  if g_stop s then
    if existsb joinable (skipn n (g_threads s)) then GAbort
    else GOn (mkG (g_stop s) (g_term s) (firstn n (g_threads s) ++ repeat Vacant (n - length (g_threads s)))
                (g_tstop s) (g_tterm s) (g_io s) (g_requests s) (g_sockets s))
  else GOn s.

(** manager.cpp 431-434: [terminate], then the members are destroyed, among
    them [m_threads] and, by transceiver.cpp 224-226, [m_thread]; nothing is
    joined.  A thread has no time to end in between that would make a
    difference: an ended thread is joinable as well. *)
Definition g_destroy (s : mgr) : gres :=
  if existsb joinable (g_threads s) || joinable (g_io s) then GAbort else GGone.

(** When the function of a handler thread returns (manager.cpp 262, 314; see
    C33), and when that of the transceiver's thread does (transceiver.cpp 80). *)
Definition due (s : mgr) : bool := g_term s || (g_stop s && negb (g_requests s)).
Definition io_due (s : mgr) : bool := g_tterm s || (g_tstop s && negb (g_sockets s)).

(** Auxiliary, no counterpart in the code: one element of a list replaced. *)
Fixpoint set_nth (i : nat) (t : slot) (l : list slot) : list slot :=
  match l, i with
  | [], _ => []
  | _ :: l', O => t :: l'
  | x :: l', S i' => x :: set_nth i' t l'
  end.

(** One call by the program or one end of a thread; lines of manager.cpp as in
    the parts above. *)
Definition g_step (a : gact) (s : mgr) : gres :=
  match a with
  | GStart => GOn (g_start s)
  | GStop => GOn (g_stopped s)
  | GTerminate => GOn (g_terminated s)
  | GJoin => g_join s
  | GResize n => g_resize n s
  | GDestroy => g_destroy s
  | GLeave i =>
      if due s && is_alive (nth i (g_threads s) Vacant)
      then GOn (mkG (g_stop s) (g_term s) (set_nth i Ended (g_threads s))
                  (g_tstop s) (g_tterm s) (g_io s) (g_requests s) (g_sockets s))
      else GBlocked
  | GLeaveIo =>
      if io_due s && is_alive (g_io s)
      then GOn (mkG (g_stop s) (g_term s) (g_threads s) (g_tstop s) (g_tterm s) Ended (g_requests s) (g_sockets s))
      else GBlocked
  | GRequests b => GOn (mkG (g_stop s) (g_term s) (g_threads s) (g_tstop s) (g_tterm s) (g_io s) b (g_sockets s))
  | GSockets b => GOn (mkG (g_stop s) (g_term s) (g_threads s) (g_tstop s) (g_tterm s) (g_io s) (g_requests s) b)
  end.

(** Auxiliary, no counterpart in the code: the execution, one step after
    another. *)
Fixpoint g_run (l : list gact) (s : mgr) : gres :=
  match l with
  | [] => GOn s
  | a :: l' => match g_step a s with GOn s' => g_run l' s' | r => r end
  end.
