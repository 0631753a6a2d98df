(** C80: the SQL connection thread never spins, and with a server that does its
    part everything queued is done. *)
From Coq Require Import List Bool Arith.
From Verif Require Import Model.Connection Spec.ConnectionSpec Spec.ConnectionCases Spec.ProgressSpec Proofs.ConnectionProofs Proofs.ProgressProofs.
Import ListNotations.

(** However the server and other threads behave, what the thread does is
    bounded by what comes to it. *)
Theorem C80_bounded : forall conc l s s', qreach conc s -> qexec conc l s = Some s' ->
  thread_steps l <= (9 + 2 * conc) * (1 + z_bytes s + stirs l).
Proof. exact bounded. Qed.
Print Assumptions C80_bounded.

(** With a server that does its part there is an end in sight, wherever it
    starts and whatever order things come in, … *)
Theorem C80_finite : forall conc s n s', qreach conc s -> served conc s n s' ->
  n <= (9 + 2 * conc) * (2 + z_bytes s + length (pending s)).
Proof. intros conc s n s' R S. exact (proj1 (served_all conc s n s' R S)). Qed.
Print Assumptions C80_finite.

(** … it is always reached, … *)
Theorem C80_reached : forall conc s, qreach conc s ->
  (exists n s', served conc s n s' /\ at_rest conc s') /\ (at_rest conc s \/ exists e s', helpful s e /\ hstep conc e s = Some s').
Proof. intros conc s R. exact (conj (served_rest conc s R) (rest_or_go conc s R)). Qed.
Print Assumptions C80_reached.

(** … and then every query that was waiting or in flight is completed and has
    been called back. *)
Theorem C80_done : forall conc s n s', qreach conc s -> served conc s n s' -> 0 < conc -> at_work s -> z_stop s = false -> z_term s = false ->
  at_rest conc s' -> forall q, In q (pending s) -> In q (completed (z_log s')) /\ (y_cb q = true -> In q (called_back (z_log s'))).
Proof. intros conc s n s' R S. exact (proj2 (served_all conc s n s' R S)). Qed.
Print Assumptions C80_done.

(** Told to stop or to terminate, the thread ends. *)
Theorem C80_ends : forall conc s n s', 0 < conc -> qreach conc s -> served conc s n s' -> at_rest conc s' -> sane s -> z_waking s = 0 ->
  z_stop s = true \/ z_term s = true -> z_pc s' = QEnd.
Proof. exact served_ends. Qed.
Print Assumptions C80_ends.

(** Two queries in flight, one of them for the second time, and one waiting. *)
Example C80_ex : let s := q_end 2 run_two in let q i o c := mkQ i (Some o) c in
  qreach 2 s /\ at_work s /\ pending s = [q 2 2 false; q 1 1 true; q 0 0 true]
  /\ exists n s', served 2 s n s' /\ at_rest 2 s' /\ n <= 65 /\ In (q 2 2 false) (completed (z_log s'))
     /\ In (q 1 1 true) (called_back (z_log s')) /\ In (q 0 0 true) (called_back (z_log s')).
Proof.
  intros s q. assert (R : qreach 2 s) by (apply end_reach; vm_compute; reflexivity). split; [exact R|]. split; [vm_compute; exact I|]. split; [vm_compute; reflexivity|].
  destruct (C80_reached 2 s R) as [(n & s' & S & F) _]. exists n, s'. split; [exact S|]. split; [exact F|]. split; [exact (C80_finite 2 s n s' R S)|].
  assert (D := C80_done 2 s n s' R S (Nat.lt_0_succ 1) I eq_refl eq_refl F).
  split; [apply D; vm_compute; tauto|]. split; apply D; try (vm_compute; tauto).
Qed.
(** stop while a query is in flight: it ends, though the query is given up. *)
Example C80_ex_stop : let s := q_end 1 (up1 ++ ask1 (Some 0) ++ [AQStop; AQWake]) in
  qreach 1 s /\ sane s /\ z_stop s = true /\ z_waking s = 0 /\ pending s = [Q0] /\ exists n s', served 1 s n s' /\ at_rest 1 s' /\ z_pc s' = QEnd.
Proof.
  intro s. assert (R : qreach 1 s) by (apply end_reach; vm_compute; reflexivity). split; [exact R|]. split; [vm_compute; exact I|].
  split; [vm_compute; reflexivity|]. split; [vm_compute; reflexivity|]. split; [vm_compute; reflexivity|].
  destruct (C80_reached 1 s R) as [(n & s' & S & F) _]. exists n, s'. split; [exact S|]. split; [exact F|].
  apply (C80_ends 1 s n s' (Nat.lt_0_succ 0) R S F I eq_refl). left. vm_compute. reflexivity.
Qed.
