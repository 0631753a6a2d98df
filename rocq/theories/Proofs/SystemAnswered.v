(** A request that came in is answered. *)
From Coq Require Import String List NArith ZArith Bool Arith Lia.
From Verif Require Import Model.Base Model.Protocol Model.Transceiver Model.RequestMap Model.Streams Model.Environment
  Model.Multipart Model.Request Model.System
  Spec.WireSpec Spec.AddressSpec Spec.EnvironmentSpec Spec.RequestSpec Spec.TransceiverSpec Spec.ManagerSpec
  Spec.TransmitProgressSpec Spec.SystemSpec Spec.SystemRestSpec Spec.SystemCases
  Proofs.RequestLifeProofs Proofs.SystemEnd Proofs.SystemSeen Proofs.SystemSent Proofs.SystemRest Proofs.SystemExamples.
From Verif Require Model.Manager.
Import ListNotations.

Lemma answered : forall vts junk http_time k (U : Type) (A : application U) maxPost u address_of,
  (forall n, length (junk n) = n) ->
  (forall t a, address_text t a -> ~ compat_text t -> address_of t = a) ->
  app_writes (any_char k) A -> app_plain A ->
  forall x, sreach vts junk http_time k A maxPost u x -> Forall ev_ok (y_tr x) ->
  resting vts junk http_time k A maxPost u x -> orderly (y_man x) -> no_dangling x ->
  forall s recs i mb ms later role flags bodies m5 e0 e2,
  t_pc (y_net x) = AtPoll -> s_in (t_socks (y_net x) s) = [] ->
  Manager.s_waiters (y_man x) <> [] -> Manager.s_stop (y_man x) = false -> Manager.s_terminate (y_man x) = false ->
  all_sent x s recs -> s_valid (t_socks (y_net x) s) = true -> Forall (fun r => fst r <> 65535%N) recs -> i <> 0%N ->
  records_for i recs = mb :: ms ++ later ->
  web_begin role flags mb -> web_request vts junk http_time address_of maxPost ms bodies m5 e0 e2 ->
  (forall o, is_request x o (mkRid s i) -> Forall (fun m => m_type m = 0%Z) (given x o)) ->
  exists o calls tl, is_request x o (mkRid s i) /\ web_calls bodies m5 e0 e2 calls /\
    q_calls (y_rq x o) = calls ++ tl /\ (later = [] -> tl = []) /\
    map (fun p => (p_data p, p_kill p)) (filter (is_for o) (to_peer x s)) = q_sent (y_rq x o) /\
    forall l x', sexec vts junk http_time k A maxPost u l x = Some (Done x') -> Forall ev_ok (y_tr x') -> Forall reading (net_of l) ->
      5 * bytes_waiting (y_net x) + 2 * length (waiting (y_net x)) + 5 <= io_steps (net_of l) ->
      s_valid (t_socks (y_net x') s) = true -> s_closing (t_socks (y_net x') s) = false ->
      exists more, s_out (t_socks (y_net x') s) = concat (map p_data (to_peer x s)) ++ more.
Proof.
  intros vts junk http_time k U A maxPost u ao HJ HA AW AP x R EV RE OR ND s recs i mb ms later role flags bodies m5 e0 e2 PC IN WT ST TE AS V N65 N0 E WB WQ G.
  destruct (rest_means _ _ _ _ _ _ _ x R EV OR ND RE) as (ID & F & _).
  destruct (arrives vts junk http_time k A maxPost u ao HJ HA AW AP x R EV s recs i mb ms later role flags bodies m5 e0 e2
    (conj ID (conj F (conj PC IN))) WT ST TE AS V N65 N0 E WB WQ G) as (o & calls & tl & IQ & _ & WC & QC & LT & SF).
  exists o, calls, tl. split; [exact IQ|]. split; [exact WC|]. split; [exact QC|]. split; [exact LT|].
  destruct (whose vts junk http_time k A maxPost u x s R) as (_ & W & _). split; [rewrite (W o i IQ); exact SF|].
  intros l x' EX EV' RD B V' C'. exact (proj1 (all_written vts junk http_time k A maxPost u x l x' R EX EV' RD B s V' C')).
Qed.

(** ** An execution *)
Definition waits_prefer : list sev :=
  [SFeed; SMan 0 (Manager.ARun 1); SNet (ERecv (KGive 8) (KGive 500)); SNet EDone] ++ handler_prefer.
Definition waits_run : list sev :=
  drive 400 waits_prefer (start1 ++ [SNet (EPeer 1 quick_bytes); poll1; poll1; poll1; poll1; poll1; poll1]) (y_init 0%N).
Definition waits_end := after waits_run (y_init 0%N).
(** The same before the handler thread takes up the last record. *)
Definition mid_end := after (firstn 160 waits_run) (y_init 0%N).
Definition writes_run : list sev :=
  drive 700 [SNet (ERecv KAgain KAgain); SNet EPop; SNet (EWrite (WTake 40)); SNet EBack; SNet EDone] (repeat poll0 200) waits_end.
Definition written_end := after writes_run waits_end.

Lemma waits_reach : qreach waits_end.
Proof. exists waits_run. apply after_is. vm_compute. reflexivity. Qed.
Lemma waits_case : qreach waits_end /\ Forall ev_ok (y_tr waits_end) /\
  resting (fun b _ => b) (repeat 0%N) (fun _ => 0%Z) Narrow quick 1000 0%N waits_end /\ orderly (y_man waits_end) /\ no_dangling waits_end /\
  t_pc (y_net waits_end) = AtPoll /\ s_in (t_socks (y_net waits_end) 1) = [] /\ Manager.s_waiters (y_man waits_end) <> [] /\
  Manager.s_stop (y_man waits_end) = false /\ Manager.s_terminate (y_man waits_end) = false /\ all_sent waits_end 1 quick_recs /\
  s_valid (t_socks (y_net waits_end) 1) = true /\ Forall (fun r => fst r <> 65535%N) quick_recs /\
  records_for 5 quick_recs = quick_begin :: quick_rest ++ [] /\
  (forall o, is_request waits_end o (mkRid 1 5) -> Forall (fun m => m_type m = 0%Z) (given waits_end o)).
Proof.
  assert (ID : forall t, idle (y_man waits_end) t) by all_idle.
  split; [exact waits_reach|]. split; [vm_compute; repeat constructor|].
  split; [apply rests; [exact ID|vm_compute; reflexivity]|]. split; [exact (idle_orderly _ ID)|]. split; [exact (idle_safe _ ID)|].
  split; [vm_compute; reflexivity|]. split; [vm_compute; reflexivity|].
  split; [vm_compute; discriminate|]. split; [vm_compute; reflexivity|]. split; [vm_compute; reflexivity|].
  split; [split; [exact quick_whole|vm_compute; reflexivity]|]. split; [vm_compute; reflexivity|].
  split; [repeat constructor; discriminate|]. split; [reflexivity|].
  intros o [L _]. assert (o = 0) as -> by (vm_compute in L; lia). vm_compute. repeat constructor.
Qed.
Lemma written_case : qexec writes_run waits_end = Some (Done written_end) /\ Forall ev_ok (y_tr written_end) /\
  Forall reading (net_of writes_run) /\ bytes_waiting (y_net waits_end) = 48 /\ length (waiting (y_net waits_end)) = 2 /\
  io_steps (net_of writes_run) = 604 /\ s_valid (t_socks (y_net written_end) 1) = true /\ s_closing (t_socks (y_net written_end) 1) = false /\
  s_out (t_socks (y_net waits_end) 1) = [] /\ length (s_out (t_socks (y_net written_end) 1)) = 48.
Proof.
  split; [apply after_is; vm_compute; reflexivity|]. split; [vm_compute; repeat constructor|].
  split; [vm_compute; repeat (constructor; [discriminate|]); constructor|]. repeat (split; [vm_compute; reflexivity|]). vm_compute. reflexivity.
Qed.
Lemma step_is : forall v x, match qstep v x with Some (Done _) => true | _ => false end = true -> exists x', qstep v x = Some (Done x').
Proof. intros v x H. destruct (qstep v x) as [[x'| |]|]; try discriminate. now exists x'. Qed.
Lemma mid_case : qreach mid_end /\ Forall ev_ok (y_tr mid_end) /\ orderly (y_man mid_end) /\ no_dangling mid_end /\
  exists x', proceeds (fun b _ => b) (repeat 0%N) (fun _ => 0%Z) Narrow quick 1000 0%N mid_end x'.
Proof.
  split; [exists (firstn 160 waits_run); apply after_is; vm_compute; reflexivity|]. split; [vm_compute; repeat constructor|].
  split; [intros [|[|t]] k0; vm_compute; discriminate|].
  split; [intros [|[|t]] o US; vm_compute in US; first [contradiction|subst; vm_compute; reflexivity]|].
  destruct (step_is (nth 160 waits_run SFeed) mid_end) as (x' & X); [vm_compute; reflexivity|].
  exists x', (nth 160 waits_run SFeed). split; [vm_compute; exact I|exact X].
Qed.
