(** C82: the HTTP client's thread never spins, and with servers that answer
    everything queued is done. *)
From Coq Require Import List Bool Arith Permutation.
From Verif Require Import Model.Curler Spec.CurlerSpec Spec.CurlerProgressSpec Proofs.CurlerProofs Proofs.CurlerProgressProofs.
Import ListNotations.

(** Whatever threads and network do, what the thread does is bounded by what
    comes to it. *)
Theorem C82_bounded : forall conc l s s', cexec conc l s = Some s' ->
  handler_steps l <= 6 + 6 * k_bytes s + 3 * (length (k_queue s) + length (k_run s)) + 6 * comes conc l s.
Proof. exact steps_bounded. Qed.
Print Assumptions C82_bounded.

(** Alone, with a network that gets something done whenever it is reported,
    there is an end in sight, … *)
Theorem C82_finite : forall conc s n s', creachable conc s -> runs_on conc s n s' ->
  n <= 8 * (1 + k_bytes s + length (k_queue s) + length (k_run s)).
Proof. exact runs_bound. Qed.
Print Assumptions C82_finite.

(** … it is reached if no call is under way, … *)
Theorem C82_reached : forall conc s, creachable conc s -> quiet s ->
  (exists n s', runs_on conc s n s' /\ idle conc s')
  /\ (idle conc s \/ exists e s', (k_pc s = HPoll -> fruitful e) /\ handler_step conc e s = Some s').
Proof. exact reached. Qed.
Print Assumptions C82_reached.

(** … and then, if none is queued twice, the thread has ended if it was told
    to; unless it was to terminate every request queued is done and the
    callback of each used once is called once. *)
Theorem C82_done : forall conc s n s', 0 < conc -> creachable conc s -> quiet s -> NoDup (queued (k_log s)) -> k_pc s <> HEnd ->
  runs_on conc s n s' -> idle conc s' ->
  (k_term s = true -> k_pc s' = HEnd)
  /\ (k_term s = false -> k_pc s' = (if k_stop s then HEnd else HPoll) /\ k_queue s' = [] /\ k_run s' = []
      /\ Permutation (done (k_log s')) (queued (k_log s))
      /\ forall c, user_of c (k_log s) = [ESet c; EQueued c] -> times c (called (k_log s')) = 1).
Proof. exact finished. Qed.
Print Assumptions C82_done.

(** With no concurrency nothing queued is ever started. *)
Theorem C82_zero_refuted : exists s, creachable 0 s /\ quiet s /\ NoDup (queued (k_log s)) /\ queued (k_log s) = [7] /\ k_term s = false
  /\ forall n s', runs_on 0 s n s' -> started (k_log s') = [].
Proof. exact zero. Qed.
Print Assumptions C82_zero_refuted.

(** Three requests with callbacks, two at once: one is done, the others are
    running; when all is done each callback has been called. *)
Definition three : list cact :=
  [h; h; ASet 7; ASet 8; ASet 9] ++ queues 1 7 ++ [AQueue 1 8; AThread 1; AThread 1; AThread 1; AQueue 2 9; AThread 2; AThread 2; AThread 2] ++ wakes ++ reports 7 ++ finishes.
Example C82_ex : exists s, cexec 2 three c_init = Some s /\ quiet s /\ k_run s = [8; 9] /\ done (k_log s) = [7] /\ handler_steps three = 16
  /\ exists n s', runs_on 2 s n s' /\ idle 2 s' /\ n <= 24 /\ k_pc s' = HPoll /\ Permutation (done (k_log s')) [7; 8; 9]
     /\ times 7 (called (k_log s')) = 1 /\ times 8 (called (k_log s')) = 1 /\ times 9 (called (k_log s')) = 1.
Proof.
  eexists. split; [vm_compute; reflexivity|]. match goal with |- quiet ?x /\ _ => set (s := x) end.
  assert (R : creachable 2 s) by (exists three; vm_compute; reflexivity).
  assert (Q : quiet s) by (intros [|[|[|t]]]; reflexivity).
  split; [exact Q|]. split; [reflexivity|]. split; [reflexivity|]. split; [reflexivity|].
  destruct (C82_reached 2 s R Q) as [(n & s' & S & Z) _]. exists n, s'. split; [exact S|]. split; [exact Z|].
  split; [exact (C82_finite 2 s n s' R S)|].
  assert (Nd : NoDup (queued (k_log s))) by (change (NoDup [7; 8; 9]); repeat constructor; cbn; intuition discriminate).
  destruct (C82_done 2 s n s' (Nat.lt_0_succ 1) R Q Nd ltac:(discriminate) S Z) as [_ D]. destruct (D eq_refl) as (P & _ & _ & Pe & C).
  split; [exact P|]. split; [exact Pe|]. split; [apply C; reflexivity|]. split; apply C; reflexivity.
Qed.
(** Told to stop with one running: the thread ends, with the request done. *)
Example C82_ex_stop : exists s, cexec 1 ([h; h] ++ queues 1 7 ++ wakes ++ [AStop 1; AThread 1; AThread 1; AThread 1]) c_init = Some s /\ quiet s /\ k_run s = [7]
  /\ forall n s', runs_on 1 s n s' -> idle 1 s' -> k_pc s' = HEnd /\ done (k_log s') = [7].
Proof.
  eexists. split; [vm_compute; reflexivity|]. match goal with |- quiet ?x /\ _ => set (s := x) end.
  assert (R : creachable 1 s) by (exists ([h; h] ++ queues 1 7 ++ wakes ++ [AStop 1; AThread 1; AThread 1; AThread 1]); vm_compute; reflexivity).
  assert (Q : quiet s) by (intros [|[|[|t]]]; reflexivity).
  split; [exact Q|]. split; [reflexivity|]. intros n s' S Z.
  assert (Nd : NoDup (queued (k_log s))) by (change (NoDup [7]); repeat constructor; cbn; tauto).
  destruct (C82_done 1 s n s' (Nat.lt_0_succ 0) R Q Nd ltac:(discriminate) S Z) as [_ D]. destruct (D eq_refl) as (P & _ & _ & Pe & _).
  split; [exact P|]. apply Permutation_length_1_inv. now apply Permutation_sym.
Qed.
