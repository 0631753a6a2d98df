(** What C89 counts in an execution of the manager. *)
From Coq Require Import List NArith Bool Arith.
From Verif Require Import Model.Base Model.RequestMap Model.Manager.
Import ListNotations.

Section Spec.
Context {M : Type}.
Variable begins : M -> bool.
Notation state := (Manager.state M).

(** The step of thread [t] takes the first task; queues a task; takes a
    message out of the queue of a request. *)
Definition takes_task (t : nat) (a : action M) (s : state) : list rid :=
  match a, t_sig (s_threads s t), t_push (s_threads s t), t_base (s_threads s t), s_tasks s with
  | ARun _, None, None, HInner, id :: _ => [id]
  | _, _, _, _, _ => []
  end.
Definition adds_task (t : nat) (a : action M) (s : state) : list rid :=
  match a, t_sig (s_threads s t), t_push (s_threads s t) with
  | ARun _, None, Some (PTasks id) => [id]
  | _, _, _ => []
  end.
Definition takes_message (t : nat) (a : action M) (s : state) : nat :=
  match a, t_sig (s_threads s t), t_push (s_threads s t), t_base (s_threads s t) with
  | ARun _, None, None, RCheck _ o => match o_queue (s_objs s o) with [] => 0 | _ => 1 end
  | _, _, _, _ => 0
  end.
(** A step of the code of handler() and of Request::handler() in thread [t]. *)
Definition handler_step (t : nat) (a : action M) (s : state) : nat :=
  match a, t_sig (s_threads s t), t_push (s_threads s t) with
  | ARun _, None, None => 1
  | AReturn _, _, _ => 1
  | _, _, _ => 0
  end.
(** Something makes thread [x] start at the top of handler(): it is spawned,
    notified, or wakes for no reason. *)
Definition starts_over (x : nat) (s s' : state) : nat :=
  match t_base (s_threads s x), t_base (s_threads s' x) with
  | BOther, HStart | HWaiting, HStart => 1
  | _, _ => 0
  end.

(** Over an execution. *)
Fixpoint tasks_taken (l : list (nat * action M)) (s : state) : list rid :=
  match l with
  | [] => []
  | (t, a) :: l => takes_task t a s ++ match step begins t a s with Some s' => tasks_taken l s' | None => [] end
  end.
Fixpoint tasks_added (l : list (nat * action M)) (s : state) : list rid :=
  match l with
  | [] => []
  | (t, a) :: l => adds_task t a s ++ match step begins t a s with Some s' => tasks_added l s' | None => [] end
  end.
(** Of thread [x]: tasks and messages taken, steps, starts. *)
Fixpoint own_tasks (x : nat) (l : list (nat * action M)) (s : state) : nat :=
  match l with
  | [] => 0
  | (t, a) :: l => (if t =? x then length (takes_task t a s) else 0) + match step begins t a s with Some s' => own_tasks x l s' | None => 0 end
  end.
Fixpoint own_messages (x : nat) (l : list (nat * action M)) (s : state) : nat :=
  match l with
  | [] => 0
  | (t, a) :: l => (if t =? x then takes_message t a s else 0) + match step begins t a s with Some s' => own_messages x l s' | None => 0 end
  end.
Fixpoint own_steps (x : nat) (l : list (nat * action M)) (s : state) : nat :=
  match l with
  | [] => 0
  | (t, a) :: l => (if t =? x then handler_step t a s else 0) + match step begins t a s with Some s' => own_steps x l s' | None => 0 end
  end.
Fixpoint own_starts (x : nat) (l : list (nat * action M)) (s : state) : nat :=
  match l with
  | [] => 0
  | (t, a) :: l => match step begins t a s with Some s' => starts_over x s s' + own_starts x l s' | None => 0 end
  end.
End Spec.
