(** C66: logging. *)
From Coq Require Import String List NArith Bool Arith.
From Verif Require Import Model.Base Model.Log Spec.LogSpec Proofs.LogProofs Proofs.LogExamples.
Import ListNotations.

(** Whatever the threads do and however they are scheduled, the log is whole
    lines, with at most one unfinished line at the end, that of the thread
    holding the mutex.  The lines of each thread are those of its uses of the
    macros that got past the test, in order; all of them once the thread is
    through. *)
Theorem C66_whole_lines : forall good built at_exit s, logged good built at_exit s ->
  exists lines cur,
    l_out s = concat (map snd lines) ++ cur /\
    (l_holder s = None -> cur = []) /\
    (forall t, l_holder s = Some t -> cur = [] \/ exists e line rest,
       nth_error (by_thread t (l_begun s)) (length (by_thread t lines)) = Some e /\
       is_line good e line /\ line = cur ++ rest) /\
    (forall t, exists n, Forall2 (is_line good) (firstn n (by_thread t (l_begun s))) (by_thread t lines) /\
       (l_threads s t = [] -> l_gone s = false -> firstn n (by_thread t (l_begun s)) = by_thread t (l_begun s))).
Proof. exact lines_whole. Qed.
Print Assumptions C66_whole_lines.

(** If [suppress] is never set, the uses that get past the test are those of
    the levels the program was built with. *)
Theorem C66_none_lost : forall good built at_exit acts s t,
  Forall (calm good) acts -> Forall never_suppressed acts -> l_run built at_exit acts log_init = LOn s ->
  l_threads s t = [] -> l_gone s = false ->
  by_thread t (l_begun s) = filter (enabled built) (by_thread t (l_made s)).
Proof. exact all_logged. Qed.
Print Assumptions C66_none_lost.

(** [suppress] or not, no ERROR_LOG is lost. *)
Theorem C66_errors : forall good built at_exit s t, logged good built at_exit s ->
  l_threads s t = [] -> l_gone s = false ->
  filter is_error (by_thread t (l_begun s)) = filter (fun e => is_error e && enabled built e) (by_thread t (l_made s)).
Proof. exact errors_logged. Qed.
Print Assumptions C66_errors.

(** The program exits only with the line of a FAIL_LOG written last, behind
    whole lines ... *)
Theorem C66_exit : forall good built at_exit s, logged good built at_exit s -> l_gone s = true ->
  exists before e line, l_out s = concat before ++ line /\ is_line good e line /\ entry_level e = LFail /\
    Forall (fun x => exists e, is_line good e x) before.
Proof. exact exit_why. Qed.
Print Assumptions C66_exit.

(** ... and a FAIL_LOG past the test does not return. *)
Theorem C66_fail_final : forall good built at_exit s t e, logged good built at_exit s ->
  In (t, e) (l_begun s) -> entry_level e = LFail -> l_threads s t = [] -> l_gone s = true.
Proof. exact fail_final. Qed.
Print Assumptions C66_fail_final.

(** If no destructor of a static object logs, no thread locks the mutex twice,
    and while a thread is logging some thread can go on. *)
Theorem C66_defined : forall good built s a, logged good built [] s -> calm good a -> l_step built [] a s <> LUndef.
Proof. exact log_defined. Qed.
Print Assumptions C66_defined.

Theorem C66_goes_on : forall good built s t, logged good built [] s -> l_gone s = false -> l_threads s t <> [] ->
  exists t', forall stamp, exists s', l_step built [] (LStep t' stamp) s = LOn s'.
Proof. exact log_goes_on. Qed.
Print Assumptions C66_goes_on.

(** REFUTED: FAIL_LOG exits ("log ... and then exit", log.hpp 84): with
    [suppress] set it returns. *)
Theorem C66_fail_refuted : exists s,
  l_run 4 [] [LSuppress true; LCall 0 (say LFail "Unable to bind."); LStep 0 date] log_init = LOn s /\
  l_threads s 0 = [] /\ l_gone s = false /\ l_out s = [].
Proof. exact fail_ignored. Qed.
Print Assumptions C66_fail_refuted.

(** REFUTED: any expression can be logged: one that logs has its thread lock
    the mutex it holds. *)
Theorem C66_nested_refuted :
  l_run 4 [] (LCall 0 (Entry LInfo [Text (lit "sum: "); Logs (say LDebug "adding"); Text (lit "5")]) :: steps 6 0)
    log_init = LUndef.
Proof. exact nested_stuck. Qed.
Print Assumptions C66_nested_refuted.

(** REFUTED: a signal stops the manager whatever the program is doing: the
    signal handler logs, too (manager.cpp 112-139). *)
Theorem C66_signal_refuted :
  l_run 4 [] (LCall 0 (say LInfo "hello") :: steps 3 0
              ++ LSignal 0 (say LDiag "Received SIGTERM. Terminating fastcgi++ manager.") :: steps 2 0) log_init = LUndef.
Proof. exact signal_stuck. Qed.
Print Assumptions C66_signal_refuted.

(** REFUTED: FAIL_LOG exits whatever destructors do: [std::exit] is called
    with the mutex held. *)
Theorem C66_exit_refuted :
  l_run 4 [say LInfo "closing"] (LCall 0 (say LFail "Unable to bind.") :: steps 8 0) log_init = LUndef.
Proof. exact exit_stuck. Qed.
Print Assumptions C66_exit_refuted.

(** Three threads: one logs, one fails meanwhile and waits its turn, the third
    logs below the level of the build. *)
Example C66_example : exists s, l_run 3 [] demo_acts log_init = LOn s /\ l_gone s = true /\
  l_out s = date ++ lit "[info]: one" ++ [10%N] ++ date ++ lit "[fail]: two" ++ [10%N].
Proof. exact demo_runs. Qed.

Example C66_example_calm : Forall (calm (eq date)) demo_acts /\ Forall never_suppressed demo_acts.
Proof.
  split; repeat (apply Forall_cons; [first [discriminate | reflexivity | eexists; reflexivity | (eexists (cons _ nil); reflexivity)]|]);
    apply Forall_nil.
Qed.
