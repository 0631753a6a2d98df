(** Executions of the server that end. *)
From Coq Require Import String List NArith ZArith Bool.
From Verif Require Import Model.Base Model.Protocol Model.Transceiver Model.RequestMap Model.Streams Model.Environment
  Model.Request Model.System Model.Shutdown Spec.EndianSpec Spec.WireSpec Spec.EnvironmentSpec Spec.RequestSpec Spec.TransceiverSpec
  Spec.SystemSpec Spec.SystemCases Spec.ShutdownSpec Proofs.RequestLifeProofs Proofs.ShutdownProofs.
From Verif Require Model.Manager.
Import ListNotations.
Local Open Scope N_scope.

Notation qhexec := (hexec (fun b _ => b) (repeat 0) (fun _ => 0%Z) Narrow quick 1000 0).
Notation qhreach := (hreach (fun b _ => b) (repeat 0) (fun _ => 0%Z) Narrow quick 1000 0).
Definition result (l : list hev) (x : shut (U := N)) : shut (U := N) := match qhexec l x with Some (Done x') => x' | _ => x end.
Lemma result_is : forall l x, match qhexec l x with Some (Done _) => true | _ => false end = true -> qhexec l x = Some (Done (result l x)).
Proof. intros l x H. unfold result. destruct (qhexec l x) as [[x'| |]|]; try discriminate. reflexivity. Qed.

(** Requests 5 and, if [both], 6 begin on connection 1, neither to keep it;
    5 is complete and is answered, and nothing more comes for 6.  Then [stop]. *)
Definition begin_of (id : N) : message := record_message 1 id [0; 1; 0; 0; 0; 0; 0; 0] [] 0.
Definition some_bytes (both : bool) : list N :=
  concat (map m_data (begin_of 5 :: (if both then [begin_of 6] else []) ++ quick_rest)).
Definition some_run (both : bool) : list sev :=
  drive 400 (handler_prefer ++ io_prefer)
    (start1 ++ [SNet (EPeer 1 (some_bytes both)); poll1; poll1; poll1; poll1; poll1; poll1] ++ (if both then [poll1] else []) ++ [poll0]) (y_init 0).
Definition stop_call : list sev := [SMan 2 (Manager.ASignal false); SMan 2 (Manager.ARun 0)].
Definition stop_rest (both : bool) : list sev :=
  drive 100 (handler_prefer ++ io_prefer) [poll0] (after (some_run both ++ stop_call) (y_init 0)).
Definition stopping (both : bool) := result (looped (some_run both ++ stop_call)) (h_init 0).
Definition to_end (both : bool) : list hev := tl (looped (stop_rest both)).
Definition halted (both : bool) := result (to_end both) (stopping both).

Lemma stopping_runs both : qhexec (looped (some_run both ++ stop_call)) (h_init 0) = Some (Done (stopping both)).
Proof. unfold stopping. apply result_is. destruct both; vm_compute; reflexivity. Qed.
Lemma stopping_reach both : qhreach (stopping both).
Proof. exact (ex_intro _ _ (stopping_runs both)). Qed.
Lemma to_end_runs both : qhexec (to_end both) (stopping both) = Some (Done (halted both)).
Proof. unfold halted. apply result_is. destruct both; vm_compute; reflexivity. Qed.
Lemma then_reach l x x' : qhreach x -> qhexec l x = Some (Done x') -> qhreach x'.
Proof. intros (l0 & R) H. exists (l0 ++ l). now rewrite (hexec_app _ _ _ _ _ _ _ _ _ _ _ R). Qed.
Lemma halted_reach both : qhreach (halted both).
Proof. exact (then_reach _ _ _ (stopping_reach both) (to_end_runs both)). Qed.
Lemma none_left both : none_open (stopping both) = true.
Proof. destruct both; vm_compute; reflexivity. Qed.
Lemma stopping_socks both : forall s, s_valid (t_socks (y_net (h_sys (stopping both))) s) = false.
Proof. exact (none_open_spec _ (hI_reach _ _ _ _ _ _ _ _ (stopping_reach both)) (none_left both)). Qed.
Definition threads_calm (m : Manager.state message) (t : nat) : Prop :=
  Manager.t_push (Manager.s_threads m t) = None /\ Manager.t_sig (Manager.s_threads m t) <> Some true /\ calm (Manager.t_base (Manager.s_threads m t)) = true.
Lemma halted_threads : forall t, threads_calm (y_man (h_sys (halted true))) t.
Proof. intros [|[|[|t]]]; vm_compute; (split; [reflexivity|split; [discriminate|reflexivity]]). Qed.
Lemma halted_tasks : Manager.s_tasks (y_man (h_sys (halted true))) = [].
Proof. vm_compute. reflexivity. Qed.
Lemma halted_requests : Manager.s_requests (y_man (h_sys (halted true))) = [(mkRid 1 6, 1%nat)].
Proof. vm_compute. reflexivity. Qed.
Lemma halted_flag : Manager.s_terminate (y_man (h_sys (halted true))) = false.
Proof. vm_compute. reflexivity. Qed.
Lemma halted_still : still (y_man (h_sys (halted true))).
Proof. refine (Build_still _ halted_tasks _ halted_flag halted_threads). rewrite halted_requests. discriminate. Qed.

(** An answer handed over just before [terminate]. *)
Definition late_run : list sev :=
  drive 400 ([SFeed; SMan 0 (Manager.ARun 1); SNet (ERecv (KGive 8) (KGive 500)); SNet EDone] ++ [SMan 1 (Manager.AReturn false); SMan 1 (Manager.ARun 1)])
    (start1 ++ [SNet (EPeer 1 (some_bytes false)); poll1; poll1; poll1; poll1; poll1; poll1]) (y_init 0).
Definition end_run : list hev :=
  looped late_run ++ map HSys [poll0; SNet (ERecv KAgain KAgain); SNet EDone; SSend 1; SSend 1; SMan 2 (Manager.ASignal true); SMan 2 (Manager.ARun 0)] ++ [HCheck].
Definition cut := result end_run (h_init 0).
Lemma cut_runs : qhexec end_run (h_init 0) = Some (Done cut).
Proof. unfold cut. apply result_is. vm_compute. reflexivity. Qed.
Lemma cut_reach : qhreach cut.
Proof. exact (ex_intro _ _ cut_runs). Qed.

Lemma never_ends : exists x : shut (U := N), qhreach x /\ Manager.s_stop (y_man (h_sys x)) = true /\ h_ended x = true /\
  (forall s, s_valid (t_socks (y_net (h_sys x)) s) = false) /\ Manager.t_base (Manager.s_threads (y_man (h_sys x)) 1) = Manager.HWaiting /\
  forall l x', no_calls l -> qhexec l x = Some (Done x') ->
    Manager.s_requests (y_man (h_sys x')) <> [] /\ forall t, Manager.t_base (Manager.s_threads (y_man (h_sys x')) t) <> Manager.HDone.
Proof.
  exists (halted true). split; [exact (halted_reach true)|]. split; [vm_compute; reflexivity|]. split; [vm_compute; reflexivity|]. split.
  { assert (E : h_ended (halted true) = true) by (vm_compute; reflexivity).
    destruct (leaves _ _ _ _ _ _ _ _ (halted_reach true) E) as [X|[_ X]]; [rewrite halted_flag in X; discriminate|exact X]. }
  split; [vm_compute; reflexivity|]. intros l x' NC H.
  assert (E : h_ended (halted true) = true) by (vm_compute; reflexivity).
  pose proof (still_runs _ _ _ _ _ _ _ l _ x' E halted_still NC H) as Z. split; [apply (l_requests _ Z)|].
  intros t B. destruct (l_threads _ Z t) as (_ & _ & C). rewrite B in C. discriminate.
Qed.
Lemma ends_case : qhreach (stopping true) /\ Manager.s_stop (y_man (h_sys (stopping true))) = true /\
  (forall s, s_valid (t_socks (y_net (h_sys (stopping true))) s) = false) /\ h_ended (stopping true) = false /\ io_free (h_sys (stopping true)) = true /\
  qhexec (to_end true) (stopping true) = Some (Done (halted true)) /\
  (4 + 2 * length (t_queue (y_net (h_sys (stopping true)))) + 2 * send_count (to_end true) <= io_count (to_end true))%nat.
Proof.
  split; [exact (stopping_reach true)|]. split; [vm_compute; reflexivity|]. split; [exact (stopping_socks true)|].
  split; [vm_compute; reflexivity|]. split; [vm_compute; reflexivity|]. split; [exact (to_end_runs true)|]. vm_compute. repeat constructor.
Qed.
Lemma halted_case both : qhreach (halted both) /\ Forall ev_ok (y_tr (h_sys (halted both))) /\ h_ended (halted both) = true /\
  Manager.s_terminate (y_man (h_sys (halted both))) = false /\ s_born (t_socks (y_net (h_sys (halted both))) 1) = true /\
  length (s_out (t_socks (y_net (h_sys (halted both))) 1)) = 48%nat /\ length (sends 1 (y_tr (h_sys (halted both)))) = 2%nat.
Proof.
  split; [apply halted_reach|]. split; [destruct both; vm_compute; repeat constructor|].
  destruct both; repeat (split; [vm_compute; reflexivity|]); vm_compute; reflexivity.
Qed.
