(** Logging: schedules. *)
From Coq Require Import String List NArith Bool Arith.
From Verif Require Import Model.Base Model.Log Spec.LogSpec.
Import ListNotations.

Definition say (l : level) (s : string) : entry := Entry l [Text (lit s)].
Definition date : list N := lit "Nov 17 12:00:00 host prog[1] ".
Definition steps (n : nat) (t : nat) : list lact := repeat (LStep t date) n.

(** FAIL_LOG while logging is suppressed. *)
Lemma fail_ignored : exists s,
  l_run 4 [] [LSuppress true; LCall 0 (say LFail "Unable to bind."); LStep 0 date] log_init = LOn s /\
  l_threads s 0 = [] /\ l_gone s = false /\ l_out s = [].
Proof. eexists. split; [reflexivity|]. repeat split. Qed.

(** INFO_LOG of an expression that logs. *)
Lemma nested_stuck :
  l_run 4 [] (LCall 0 (Entry LInfo [Text (lit "sum: "); Logs (say LDebug "adding"); Text (lit "5")]) :: steps 6 0)
    log_init = LUndef.
Proof. vm_compute. reflexivity. Qed.

(** A signal while the thread it comes to is logging. *)
Lemma signal_stuck :
  l_run 4 [] (LCall 0 (say LInfo "hello") :: steps 3 0
              ++ LSignal 0 (say LDiag "Received SIGTERM. Terminating fastcgi++ manager.") :: steps 2 0) log_init = LUndef.
Proof. vm_compute. reflexivity. Qed.

(** FAIL_LOG, and a destructor that logs. *)
Lemma exit_stuck :
  l_run 4 [say LInfo "closing"] (LCall 0 (say LFail "Unable to bind.") :: steps 8 0) log_init = LUndef.
Proof. vm_compute. reflexivity. Qed.

(** Two threads; the second waits for the first; then the second fails. *)
Definition demo_acts : list lact :=
  [LCall 0 (say LInfo "one"); LCall 1 (say LFail "two"); LCall 2 (say LDiag "three")]
  ++ steps 3 0 ++ steps 1 1 ++ steps 1 2 ++ steps 3 0 ++ steps 6 1.

Lemma demo_runs : exists s, l_run 3 [] demo_acts log_init = LOn s /\ l_gone s = true /\
  l_out s = date ++ lit "[info]: one" ++ [10%N] ++ date ++ lit "[fail]: two" ++ [10%N].
Proof. eexists. split; [vm_compute; reflexivity|]. split; vm_compute; reflexivity. Qed.
