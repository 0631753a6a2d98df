(** C89: tasks get their turn in the order in which they were queued, and what
    can keep a request waiting. *)
From Coq Require Import List NArith Bool Arith.
From Verif Require Import Model.Base Model.RequestMap Model.Manager Spec.ManagerSpec Spec.ManagerCases Spec.FairSpec Proofs.FairProofs.
Import ListNotations.
Open Scope nat_scope.

(** In every execution the tasks that were queued, with those added, are the
    tasks that were taken followed by those that are queued: they are taken in
    order and none is lost. *)
Theorem C89_order : forall (M : Type) (begins : M -> bool) (l : list (nat * action M)) s s', exec begins l s = Some s' ->
  s_tasks s ++ tasks_added begins l s = tasks_taken begins l s ++ s_tasks s'.
Proof. exact @fifo. Qed.
Print Assumptions C89_order.

(** A thread makes only boundedly many steps in handler() for each task and
    each message it takes and each time it is woken. *)
Theorem C89_steps : forall (M : Type) (begins : M -> bool) s s' x (l : list (nat * action M)), reachable begins s -> exec begins l s = Some s' ->
  own_steps begins x l s <= 17 + 13 * own_tasks begins x l s + 4 * own_messages begins x l s + 8 * own_starts begins x l s.
Proof. exact @steps. Qed.
Print Assumptions C89_steps.

(** So a task with [a] before it is taken, after all of [a] and in this order,
    once a thread has made enough steps beyond those for the messages it takes
    and the times it is woken. *)
Theorem C89_served : forall (M : Type) (begins : M -> bool) s s' x (l : list (nat * action M)) a id b,
  reachable begins s -> exec begins l s = Some s' -> s_tasks s = a ++ id :: b ->
  17 + 13 * length a + 4 * own_messages begins x l s + 8 * own_starts begins x l s < own_steps begins x l s ->
  exists r, tasks_taken begins l s = a ++ id :: r.
Proof. exact @served. Qed.
Print Assumptions C89_served.

(** The number of messages cannot be left out: a thread stays with a request
    as long as messages for it come in.  There is an execution that never ends,
    with one handler thread, in which that thread takes a message of one
    request in each round; the task of another request is the first all the
    time, its message was pushed and is never taken; and [terminate] was
    called, but the thread does not leave handler(). *)
Theorem C89_starved_refuted : exists g : nat -> Manager.state N, reachable is_begin (g 0) /\
  forall i, (exists l, exec is_begin l (g i) = Some (g (S i)) /\ 0 < own_messages is_begin 1 l (g i)) /\
    (exists r, s_tasks (g i) = b1 :: r) /\ pushed 1 (s_log (g i)) = [9%N] /\ taken 1 (s_log (g i)) = [] /\
    s_terminate (g i) = true /\ t_base (s_threads (g i) 1) <> HDone /\ (forall t, t <> 1 -> t_base (s_threads (g i) t) = BOther).
Proof. exact starved. Qed.
Print Assumptions C89_starved_refuted.

(** Two requests; thread 1 has the messages of the first returned by the
    application one by one, then takes the task of the second. *)
Definition fair_start := do_begin a1 ++ do_begin b1 ++ do_push a1 7 ++ do_push b1 9 ++ do_push a1 8 ++ do_push a1 8 ++ do_push a1 8.
Definition fair_run := (1, ASpawn) :: run 1 10 ++ ((1, AReturn false) :: run 1 3) ++ ((1, AReturn false) :: run 1 3) ++ ((1, AReturn false) :: run 1 3)
  ++ ((1, AReturn false) :: run 1 13) ++ ((1, AReturn false) :: run 1 36).
Example C89_example : after fair_start (fun s => reachable is_begin s /\ s_tasks s = [a1] ++ b1 :: [a1; a1; a1] /\
  exists s', exec is_begin fair_run s = Some s' /\ tasks_taken is_begin fair_run s = [a1; b1; a1; a1; a1] /\
  own_messages is_begin 1 fair_run s = 5 /\ own_starts is_begin 1 fair_run s = 1 /\
  17 + 13 * length [a1] + 4 * 5 + 8 * 1 < own_steps is_begin 1 fair_run s).
Proof.
  eexists. split; [vm_compute; reflexivity|]. split; [exists fair_start; vm_compute; reflexivity|]. split; [reflexivity|].
  eexists. split; [vm_compute; reflexivity|]. split; [vm_compute; reflexivity|]. split; [vm_compute; reflexivity|]. split; [vm_compute; reflexivity|].
  apply Nat.ltb_lt. vm_compute. reflexivity.
Qed.
