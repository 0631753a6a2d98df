(** Concrete executions of the manager, for examples and counterexamples.
    Messages are numbers; zero stands for a BEGIN_REQUEST record.  Thread 0
    pushes messages, threads 1 and 2 handle requests. *)
From Coq Require Import List NArith Bool Arith.
From Verif Require Import Model.Base Model.RequestMap Model.Manager.
Import ListNotations.

Definition is_begin (m : N) : bool := N.eqb m 0.
Definition run (t n : nat) : list (nat * action N) := repeat (t, ARun 1) n.

(** A request begins; gets a message; a connection is reported as lost. *)
Definition do_begin (id : rid) := (0, APush id 0%N) :: run 0 4.
Definition do_push (id : rid) (m : N) := (0, APush id m) :: run 0 6.
Definition do_lost (sk : N) := (0, APush (mkRid sk 65535) 0%N) :: run 0 2.

(** A handler thread starts and finds nothing to do; starts and takes a task. *)
Definition do_sleep (t : nat) := (t, ASpawn) :: run t 7.
Definition do_take (t : nat) := (t, ASpawn) :: run t 7.

Definition a1 := mkRid 5 1.
Definition a2 := mkRid 5 2.
Definition b1 := mkRid 6 1.

(** Thread 1 is in the handler of request 0, with its first message. *)
Definition case_handling := do_begin a1 ++ do_push a1 7 ++ do_push a1 8 ++ do_take 1 ++ run 1 3.
(** Thread 1 has handled the message of request 0 and is about to release the
    request. *)
Definition case_release := do_begin a1 ++ do_push a1 7 ++ do_take 1 ++ run 1 3 ++ (1, AReturn false) :: run 1 4.
(** Then the connection is lost. *)
Definition case_freed := case_release ++ do_lost 5 ++ run 0 1.
(** A thread sleeps while a request waits for messages and [stop] was called;
    the connection of the request is lost. *)
Definition case_hang := do_sleep 1 ++ do_begin a1 ++ [(0, ASignal false)] ++ run 0 1 ++ run 1 7 ++ do_lost 5 ++ run 0 3.
(** Two requests on connection 5 and one on connection 6; thread 1 handles
    the first.  Thread 0 is about to report the loss of connection 5. *)
Definition case_loss := do_begin a1 ++ do_begin a2 ++ do_begin b1 ++ do_push a1 7 ++ do_take 1 ++ run 1 3 ++
  (0, APush (mkRid 5 65535) 0%N) :: run 0 1.
(** The connection is lost while a thread has decided to keep the request. *)
Definition case_leak := do_begin a1 ++ do_push a1 7 ++ do_take 1 ++ run 1 3 ++ (1, AReturn false) :: run 1 3 ++
  (0, AClose 5) :: do_lost 5 ++ run 0 3 ++ run 1 7.
(** A record with the id of such a report arrives on an open connection. *)
Definition case_65535 := do_begin a1 ++ do_lost 5 ++ run 0 3.
(** [stop] is called by a signal handler that interrupts a thread holding the
    lock on the tasks. *)
Definition case_signal := (1, ASpawn) :: run 1 1 ++ [(1, ASignal false)].
(** A request is complete, the manager stops, and all threads leave. *)
Definition case_stop := do_sleep 1 ++ do_sleep 2 ++ do_begin a1 ++ do_push a1 7 ++ [(0, ASignal false)] ++ run 0 1 ++
  run 1 10 ++ [(1, AReturn true)] ++ run 1 5 ++ run 1 6 ++ run 2 5.

(** The same with another request whose connection is lost after [stop]. *)
Definition case_stopping := do_sleep 1 ++ do_sleep 2 ++ do_begin a1 ++ do_begin b1 ++ do_push a1 7 ++ [(0, ASignal false)].
Definition case_stopped := do_lost 6 ++ run 0 3 ++ run 1 10 ++ [(1, AReturn true)] ++ run 1 5 ++ run 1 6 ++ run 2 5.

(** A request has got two messages, and the handler thread sleeps again. *)
Definition case_resting := case_handling ++ (1, AReturn false) :: run 1 3 ++ (1, AReturn false) :: run 1 20.

(** The manager is stopped, its only handler thread leaves, and a request comes
    in on a connection that is still open. *)
Definition case_late := do_sleep 1 ++ [(0, ASignal false)] ++ run 0 1 ++ run 1 5 ++ do_begin a1 ++ do_push a1 7.

(** The manager is terminated while a request is there. *)
Definition case_terminated := do_sleep 1 ++ do_begin a1 ++ [(0, ASignal true)] ++ run 0 1 ++ run 1 5.

(** [P] holds at the end of the execution [l]. *)
Definition after (l : list (nat * action N)) (P : Manager.state N -> Prop) : Prop :=
  exists s, exec is_begin l (st_init N) = Some s /\ P s.
