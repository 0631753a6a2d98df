(** C77: no set of threads of the library waits for each other's locks. *)
From Coq Require Import List Bool Arith.
From Verif Require Import Model.Race Spec.RaceSpec Proofs.RaceProofs.
Import ListNotations.

(** No thread waits, through whatever others, for itself. *)
Theorem C77_no_cycle : forall c i, treach c -> ~ waits_chain c i i.
Proof. exact no_cycle. Qed.
Print Assumptions C77_no_cycle.

(** A thread that is not finished can go on, or waits for one that can. *)
Theorem C77_no_deadlock : forall c i t, treach c -> nth_error c i = Some t -> t_code t <> [] ->
  free_to_go c i \/ exists j, waits_chain c i j /\ free_to_go c j.
Proof. exact no_deadlock. Qed.
Print Assumptions C77_no_deadlock.

(** A handler waits for the requests, which a pusher has; the other handler
    waits for the first, which has the tasks. *)
Definition C77_sched : list (nat * nat) := at_thread 7 [1;2;0] ++ at_thread 5 [0].
Definition C77_three : list thread := match trun C77_sched (t_init 2 1) with Some c => c | None => [] end.
Example C77_ex_chain : treach C77_three /\ waits_for C77_three 6 5 /\ waits_for C77_three 5 7 /\ waits_chain C77_three 6 7
  /\ free_to_go C77_three 7.
Proof.
  assert (A : waits_for C77_three 6 5) by (eexists; eexists; exists MTasks; repeat split; reflexivity).
  assert (B : waits_for C77_three 5 7) by (eexists; eexists; exists MRequests; repeat split; reflexivity).
  split; [exists 2, 1, C77_sched; reflexivity|]. split; [exact A|]. split; [exact B|].
  split; [eapply chain_more; [exact A|apply chain_one; exact B]|]. split.
  - intros k (t & u & m & E & _ & F & _). injection E as <-. discriminate F.
  - exists 0. eexists. reflexivity.
Qed.
