(** Vocabulary of the statements about starting and stopping. *)
From Coq Require Import List Bool Arith.
From Verif Require Import Model.Lifecycle.
Import ListNotations.

(** Every [start] was followed by a [join] that came back. *)
Definition all_joined (l : list gact) : Prop :=
  forall l1 l2, l = l1 ++ GStart :: l2 -> In GJoin l2.

(** No thread has ended since the last [join]. *)
Definition none_left (l : list gact) : Prop :=
  forall l1 a l2, l = l1 ++ a :: l2 -> a = GLeaveIo \/ (exists i, a = GLeave i) -> In GJoin l2.

(** [resizeThreads] can work: never started, or stopped since. *)
Definition stopped_last (l : list gact) : Prop :=
  forall l1 l2, l = l1 ++ GStart :: l2 -> In GStop l2.

(** Every thread runs, [n] handlers among them; no thread runs. *)
Definition all_running (n : nat) (s : mgr) : Prop :=
  g_threads s = repeat Alive n /\ g_io s = Alive /\ g_stop s = false /\ g_term s = false.
Definition none_running (s : mgr) : Prop :=
  Forall (fun t => t <> Alive) (g_threads s) /\ g_io s <> Alive.

(** Whether there were requests, connections, when last told. *)
Definition requests_left (l : list gact) : bool :=
  fold_left (fun b a => match a with GRequests c => c | _ => b end) l false.
Definition sockets_left (l : list gact) : bool :=
  fold_left (fun b a => match a with GSockets c => c | _ => b end) l false.
