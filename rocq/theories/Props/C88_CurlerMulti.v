(** C88: the HTTP client's thread and libcurl: what is watched, what libcurl is
    told, and when the user hears of a request that is done. *)
From Coq Require Import List Bool Arith ZArith.
From Verif Require Import Model.CurlerMulti Spec.CurlerMultiSpec Proofs.CurlerMultiProofs.
Import ListNotations.

(** The sockets watched are those libcurl last wanted watched, each once. *)
Theorem C88_watched : forall conc s, ureachable conc s -> NoDup (u_poll s) /\ forall fd, In fd (u_poll s) <-> asked fd (u_log s).
Proof. exact reach_list. Qed.
Print Assumptions C88_watched.

(** Without time limits and signals libcurl is told only of such sockets. *)
Theorem C88_told : forall conc l s, Forall no_signal l -> Forall no_timeout l -> uexec conc l u_init = Some s ->
  forall a j b, u_log s = a ++ VAct j :: b -> asked j a.
Proof. exact told_of. Qed.
Print Assumptions C88_told.

(** The callback of a request is called once at most for each time libcurl is
    done with it, and only then. *)
Theorem C88_sound : forall conc s, ureachable conc s -> forall c,
  times (is_call c) (u_log s) <= times (is_done c) (u_log s) /\ times (is_done c) (u_log s) <= times (is_start c) (u_log s).
Proof. exact sound. Qed.
Print Assumptions C88_sound.

(** It has been called before the thread waits again, if libcurl was done when
    told of a socket or of the time being up, … *)
Theorem C88_called : forall conc s c, ureachable conc s -> between s -> In (VDone false c) (u_log s) -> In (VCall c) (u_log s).
Proof. exact called_later. Qed.
Print Assumptions C88_called.

(** … and if libcurl was done as soon as the request was started, after libcurl
    has been told of a socket the next time. *)
Theorem C88_called_next : forall conc s c a j b, ureachable conc s -> between s -> u_log s = a ++ VAct j :: b -> In (VDone true c) a -> In (VCall c) (u_log s).
Proof. exact called_next. Qed.
Print Assumptions C88_called_next.

(** The wait can have a limit just when a transfer is running. *)
Theorem C88_limit : forall conc s, ureachable conc s -> u_pc s = UPoll ->
  (exists j s', ustep conc (UThread (ITimeout j)) s = Some s') <-> exists c, running c (u_log s).
Proof. exact limit. Qed.
Print Assumptions C88_limit.

(** REFUTED: that the user hears of every request that is done.  When as many
    as may run at a time are done as soon as they are started, nothing is ever
    called, nor is anything else queued ever started: only [terminate] (or a
    signal) gets the thread out of its wait. *)
Theorem C88_full_refuted : forall conc cs, cs <> [] -> NoDup cs -> length cs = conc ->
  exists s, ureachable conc s /\ (forall c, In c cs -> times (is_done c) (u_log s) = 1 /\ times (is_call c) (u_log s) = 0)
  /\ forall l s', Forall no_signal l -> uexec conc l s = Some s' -> u_log s' = u_log s /\ (u_term s' = false -> u_pc s' <> UEnd).
Proof. exact full_stuck. Qed.
Print Assumptions C88_full_refuted.

(** REFUTED: that the thread ends after [stop] once nothing is queued or
    running. *)
Theorem C88_stop_refuted : forall conc c, 0 < conc -> exists s, ureachable conc s /\ u_stop s = true /\ u_queue s = []
  /\ (forall d, ~ running d (u_log s)) /\ times (is_done c) (u_log s) = 1 /\ times (is_call c) (u_log s) = 0
  /\ forall l s', Forall no_signal l -> Forall no_queue l -> uexec conc l s = Some s' -> u_log s' = u_log s /\ (u_term s' = false -> u_pc s' <> UEnd).
Proof. exact stop_hangs. Qed.
Print Assumptions C88_stop_refuted.

(** REFUTED: that libcurl is told only of sockets it knows, or of the time
    being up: whatever number was in memory can be what it is told. *)
Theorem C88_told_refuted : forall conc c j, 0 < conc -> exists s, ureachable conc s /\ u_log s = [VStart c; VAct j].
Proof. exact junk. Qed.
Print Assumptions C88_told_refuted.

(** REFUTED: that a transfer goes on when its socket is as libcurl wants it:
    one waiting for a socket to be writable is not told when it is. *)
Theorem C88_write_refuted : forall conc c fd, 0 < conc -> exists s, ureachable conc s /\ running c (u_log s) /\ u_log s = [VStart c; VAsk fd WOut]
  /\ forall l s', Forall no_signal l -> Forall no_timeout l -> Forall no_call l -> Forall only_writable l -> uexec conc l s = Some s' -> s' = s.
Proof. exact write_waits. Qed.
Print Assumptions C88_write_refuted.

(** Three requests, two at a time: the first is done as soon as it is started,
    which is told when the second is done on its socket. *)
Definition readable := mkReady true false false false.
Definition some_run : list uact :=
  [UQueue 7; UQueue 8; UQueue 9; UThread (ILib (mkR [7] [(5%Z, WOut)])); UThread IWake; UThread INone; UThread (IEvent 5 readable);
   UThread (ILib (mkR [8] [(5%Z, WRemove)])); UThread (ILib (mkR [] [])); UThread (ILib (mkR [] [])); UThread (ILib (mkR [] []));
   UThread (ILib (mkR [] [(5%Z, WIn); (6%Z, WIn)])); UStop].
Example C88_example : exists s, uexec 2 some_run u_init = Some s /\ ureachable 2 s /\ between s /\ Forall no_signal some_run /\ Forall no_timeout some_run
  /\ u_log s = [VStart 7; VStart 8; VAsk 5 WOut; VDone true 7; VAct 5; VAsk 5 WRemove; VDone false 8; VCall 7; VCall 8; VStart 9; VAsk 5 WIn; VAsk 6 WIn]
  /\ u_poll s = [5%Z; 6%Z] /\ u_pc s = UPoll /\ running 9 (u_log s).
Proof.
  eexists. split; [vm_compute; reflexivity|]. split; [exists some_run; vm_compute; reflexivity|]. split; [now right|].
  split; [repeat constructor; discriminate|]. split; [repeat constructor; discriminate|]. split; [reflexivity|]. split; [reflexivity|]. split; [reflexivity|].
  unfold running. vm_compute. repeat constructor.
Qed.
(** It ends: 9 is done, told, and the thread ends. *)
Example C88_example_end : exists s, uexec 2 (some_run ++ [UThread IWake; UThread INone; UThread (ITimeout 99%Z); UThread (ILib (mkR [9] [(5%Z, WRemove); (6%Z, WRemove)]));
    UThread (ILib (mkR [] [])); UThread (ILib (mkR [] [])); UThread INone]) u_init = Some s /\ u_pc s = UEnd /\ In (VAct 99) (u_log s) /\ In (VCall 9) (u_log s) /\ u_poll s = [].
Proof. eexists. split; [vm_compute; reflexivity|]. split; [reflexivity|]. cbn. tauto. Qed.
