(** C79: signals and locks. *)
From Coq Require Import List Bool Arith.
From Verif Require Import Model.Race Model.Signals Spec.RaceSpec Spec.SignalSpec Proofs.RaceProofs Proofs.SignalProofs.
Import ListNotations.

(** If SIGUSR1 and SIGTERM only come to threads that have none of the four
    locks (such as one that waits in join), no thread ever waits for itself,
    a thread that has not ended can go on or waits for one that can, locks are
    taken and given back as they should, and the data races are those there
    are without signals. *)
Theorem C79_no_cycle : forall c i, calm_reach c -> ~ waits_chain c i i.
Proof. exact calm_no_cycle. Qed.
Print Assumptions C79_no_cycle.

Theorem C79_no_deadlock : forall c i t, calm_reach c -> nth_error c i = Some t -> t_code t <> [] ->
  free_to_go c i \/ exists j, waits_chain c i j /\ free_to_go c j.
Proof. exact calm_no_deadlock. Qed.
Print Assumptions C79_no_deadlock.

Theorem C79_locks : forall c i t, calm_reach c -> nth_error c i = Some t ->
  (forall m, about_lock t = Some m -> holds m (t_held t) = false)
  /\ (forall m, about_unlock t = Some m -> holds m (t_held t) = true)
  /\ (t_code t = [] -> t_held t = []).
Proof. exact calm_disciplined. Qed.
Print Assumptions C79_locks.

Theorem C79_races : forall c f r1 w1 r2 w2, calm_reach c -> race c f r1 w1 r2 w2 ->
  known_race f r1 w1 r2 w2 \/ known_race f r2 w2 r1 w1.
Proof. exact calm_races. Qed.
Print Assumptions C79_races.

(** REFUTED: signals are safe whenever they come.  To a thread with one of the
    four locks, and no other of them, either signal can be the end. *)
Theorem C79_tasks_refuted : forall s, kills MTasks s.
Proof. exact kills_tasks. Qed.
Print Assumptions C79_tasks_refuted.
Theorem C79_waking_refuted : forall s, kills MWaking s.
Proof. exact kills_waking. Qed.
Print Assumptions C79_waking_refuted.
Theorem C79_requests_refuted : forall s, kills MRequests s.
Proof. exact kills_requests. Qed.
Print Assumptions C79_requests_refuted.
Theorem C79_queue_refuted : forall s, kills (MQueue 0) s.
Proof. exact kills_queue. Qed.
Print Assumptions C79_queue_refuted.

(** It is the end: whatever happens, the threads stuck never take a step and
    keep their locks, that of the tasks among them. *)
Theorem C79_forever : forall S l c c', stuck c S -> with_tasks c S -> srun l c = Some c' ->
  stuck c' S /\ forall i, In i S -> exists t t' pre, nth_error c i = Some t /\ nth_error c' i = Some t'
                                     /\ t_held t' = t_held t /\ t_code t' = pre ++ t_code t.
Proof. exact stuck_forever. Qed.
Print Assumptions C79_forever.

(** Thread 1 waits in join (it does nothing and has no locks), a pusher has the
    requests, a handler the tasks; the signal's handler waits for the second,
    which waits for the first. *)
Definition C79_calm : list happening :=
  [Go 6 1; Go 6 2; Go 6 0; Go 5 0; Sig 1 SigTerm].
Definition C79_state : list thread := match srun C79_calm (t_init 1 1) with Some c => c | None => [] end.
Example C79_ex_calm : calm_reach C79_state /\ waits_for C79_state 1 5 /\ waits_for C79_state 5 6 /\ waits_chain C79_state 1 6
  /\ free_to_go C79_state 6.
Proof.
  assert (A : waits_for C79_state 1 5) by (eexists; eexists; exists MTasks; repeat split; reflexivity).
  assert (B : waits_for C79_state 5 6) by (eexists; eexists; exists MRequests; repeat split; reflexivity).
  split.
  - exists 1, 1, C79_calm. split; [|reflexivity]. cbn. repeat (split; [exact I|]). split; [|exact I].
    intros t H. injection H as <-. intros m _. reflexivity.
  - split; [exact A|]. split; [exact B|]. split; [eapply chain_more; [exact A|apply chain_one; exact B]|]. split.
    + intros k (t & u & m & E & _ & F & _). injection E as <-. discriminate F.
    + exists 0. eexists. reflexivity.
Qed.
(** The thread that starts the manager gets SIGTERM while it has the tasks. *)
Definition C79_start : list happening := [Go 1 1; Go 1 2; Go 1 0; Sig 1 SigTerm].
Definition C79_dead : list thread := match srun C79_start (t_init 1 1) with Some c => c | None => [] end.
Example C79_ex_dead : stuck C79_dead [1] /\ with_tasks C79_dead [1] /\ C79_dead <> [] /\ exists c', srun [Go 6 1; Sig 1 SigUsr1; Go 0 0] C79_dead = Some c'.
Proof.
  split; [intros i [<-|[]]; one 1|]. split; [has 1|]. split; [discriminate|]. eexists. reflexivity.
Qed.
