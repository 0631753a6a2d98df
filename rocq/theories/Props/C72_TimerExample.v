(** C72: the timer example, and requests that wait for messages. *)
From Coq Require Import String List NArith ZArith Bool Permutation.
From Verif Require Import Model.Base Model.Streams Model.WebMaps Model.Environment Model.Multipart Model.Request
  Model.TimerExample Spec.WireSpec Spec.StreamSpec Spec.AddressSpec Spec.EnvironmentSpec Spec.RequestSpec Spec.PageSpec
  Spec.TimerExampleSpec Proofs.RequestLifeProofs Proofs.ResumeProofs Proofs.TimerExampleProofs Proofs.TimerExampleRuns.
Import ListNotations.
Local Open Scope N_scope.

(** Any application that overrides [response] alone: a well-formed request
    followed by messages of the application calls [response] once for the end
    of the body and once for each message, until one returns true.  What they
    wrote is then exactly what was sent, with END_REQUEST last; before, what was
    sent is a first part of it, and after a flush all of it. *)
Theorem C72_resumed : forall vts junk http_time k U (A : application U) cfg,
  c_id cfg < 65536 -> app_writes (real_char k) A -> only_responds A -> forall address_of,
  (forall n, length (junk n) = n) ->
  (forall t a, address_text t a -> ~ compat_text t -> address_of t = a) ->
  forall u rs ms4 m4 bodies ms5 m5 cbs e, c_role cfg = 1 \/ c_role cfg = 2 ->
  Forall2 params_message rs ms4 -> is_message 4 [] m4 -> Forall2 (is_message 5) bodies ms5 ->
  Forall (fun c => c <> []) bodies -> is_message 5 [] m5 ->
  let e0 := describe vts http_time address_of env_init (concat (map p_params rs)) in
  e_contentLength e0 <= c_maxPost cfg -> len (concat bodies) <= e_contentLength e0 ->
  parsePostBuffer vts junk (set_postBuffer (concat bodies) e0) = Done (true, e) ->
  Forall (fun m => m_type m <> 0%Z) cbs ->
  forall ops u' b rest, replies A (set_postBuffer [] e) u (m5 :: cbs) = (ops, u', b, rest) ->
  exists st, handler vts junk http_time k A cfg (ms4 ++ [m4] ++ ms5 ++ [m5] ++ cbs) (rq_init u) = Done (b, rest, st) /\
    q_user st = u' /\ exists recs,
    if b then exists r, q_sent st = map (fun r => (r, false)) recs ++ [(r, c_kill cfg)] /\ is_end (c_id cfg) 0 r /\
      stream_text 6 (c_id cfg) recs (text_of (encode k) E_NONE (ops_on false ops)) /\
      stream_text 7 (c_id cfg) recs (text_of (encode k) E_NONE (ops_on true ops))
    else q_sent st = map (fun r => (r, false)) recs /\ exists t later, stream_text 6 (c_id cfg) recs t /\
      t ++ later = text_of (encode k) E_NONE (ops_on false ops) /\ (flushed ops -> later = []).
Proof. exact (fun vts junk http_time k U => @resumed vts junk http_time k U). Qed.
Print Assumptions C72_resumed.

(** The request of the timer: after the n-th callback the document up to n is
    at the server; the fifth ends it; the wakeups asked for are the seconds 1
    to 5, one after the other. *)
Theorem C72_answer : forall dec, (forall n, n < 5 -> dec n = [48 + n]) ->
  forall vts junk http_time cfg address_of,
  (forall n, length (junk n) = n) ->
  (forall t a, address_text t a -> ~ compat_text t -> address_of t = a) ->
  forall rs ms4 m4 bodies ms5 m5 cbs e, c_id cfg < 65536 -> c_role cfg = 1 \/ c_role cfg = 2 ->
  Forall2 params_message rs ms4 -> is_message 4 [] m4 -> Forall2 (is_message 5) bodies ms5 ->
  Forall (fun c => c <> []) bodies -> is_message 5 [] m5 ->
  let e0 := describe vts http_time address_of env_init (concat (map p_params rs)) in
  e_contentLength e0 <= c_maxPost cfg -> len (concat bodies) <= e_contentLength e0 ->
  parsePostBuffer vts junk (set_postBuffer (concat bodies) e0) = Done (true, e) ->
  Forall (fun m => m_type m <> 0%Z) cbs ->
  let n := Nat.min 5 (S (length cbs)) in
  exists st recs,
    handler vts junk http_time Narrow (timer_app dec) cfg (ms4 ++ [m4] ++ ms5 ++ [m5] ++ cbs) (rq_init (0, []))
      = Done ((5 <=? length cbs)%nat, skipn 5 cbs, st) /\
    snd (q_user st) = map N.of_nat (seq 1 n) /\
    if (5 <=? length cbs)%nat then
      exists r, q_sent st = map (fun r => (r, false)) recs ++ [(r, c_kill cfg)] /\ is_end (c_id cfg) 0 r /\
        stream_text 6 (c_id cfg) recs (timer_text 5 ++ lit "5</p></body></html>") /\ stream_text 7 (c_id cfg) recs []
    else q_sent st = map (fun r => (r, false)) recs /\ stream_text 6 (c_id cfg) recs (timer_text n).
Proof. exact timer_answer. Qed.
Print Assumptions C72_answer.

(** The stopwatch, over all interleavings of pushes, starts, stops, turns of
    its thread (with spurious wakeups) and time.  If no two wakeups are equal,
    each item is called exactly once or still queued. *)
Theorem C72_once : forall A t (acts : list (waction A)), let s := wrun acts (watch_init t) in
  NoDup (map fst (pushed (w_log s))) -> Permutation (pushed (w_log s)) (called (w_log s) ++ w_queue s).
Proof. exact @once. Qed.
Print Assumptions C72_once.

(** Nothing is called before its time, nor before it was pushed, nor while an
    earlier one waits: an item pushed before, with no call for its time since,
    is not earlier. *)
Theorem C72_due : forall A t (acts : list (waction A)) l1 n i l2,
  w_log (wrun acts (watch_init t)) = l1 ++ Called n i :: l2 ->
  (fst i <= n)%Z /\ In i (pushed l1) /\
  forall la j lb, l1 = la ++ Pushed j :: lb -> ~ In (fst j) (map fst (called lb)) -> (fst i <= fst j)%Z.
Proof. exact @due. Qed.
Print Assumptions C72_due.

(** No wakeup is lost: the thread waits without limit only when nothing is
    queued, otherwise until the earliest item, and never after a stop. *)
Theorem C72_awake : forall A t (acts : list (waction A)), let s := wrun acts (watch_init t) in
  (w_pc s = WWait -> w_queue s = [] /\ w_kill s = false) /\
  (forall w, w_pc s = WUntil w -> (exists i q, w_queue s = i :: q /\ fst i = w) /\ w_kill s = false).
Proof. exact @awake. Qed.
Print Assumptions C72_awake.

(** An item whose time has come is called, whatever else happens but a stop,
    after a number of turns given by the earlier items alone. *)
Theorem C72_live : forall A t (acts0 acts : list (waction A)) i, let s := wrun acts0 (watch_init t) in
  running s -> w_kill s = false -> ~ In AStop acts -> In i (w_queue s) -> (fst i <= w_now s)%Z ->
  (2 + before (fst i) (w_queue s) + before (fst i) (pushes acts) <= turns acts)%nat ->
  In i (called (w_log (wrun acts s))).
Proof. exact @live. Qed.
Print Assumptions C72_live.

(** After [stop] nothing is called until [start], the items stay queued, and
    the thread ends at its next turn. *)
Theorem C72_stop : forall A (acts : list (waction A)) s, running s -> ~ In AStart acts ->
  let s' := wrun acts (wact AStop s) in
  called (w_log s') = called (w_log s) /\ (forall i, In i (w_queue s) -> In i (w_queue s')) /\
  (In ATurn acts -> ~ running s').
Proof. exact @stops. Qed.
Print Assumptions C72_stop.

(** Refuted for equal wakeups: the second item is dropped; its callback is
    never called, so that the request never ends. *)
Theorem C72_equal_refuted : forall A t w (a b : A) acts, a <> b -> ~ In (APush (w, b)) acts ->
  ~ In (w, b) (called (w_log (wrun (AStart :: APush (w, a) :: APush (w, b) :: acts) (watch_init t)))).
Proof. exact @dropped. Qed.
Print Assumptions C72_equal_refuted.

Example C72_example_request : forall n, (n <= 5)%nat -> exists st,
  handler (fun b _ => b) (repeat 0) (fun _ => 0%Z) Narrow (timer_app (fun n => [48 + n])) demo_cfg
    (demo_head ++ demo_body ++ [demo_end] ++ repeat (mkMsg 1 (lit "I was passed between threads!!")) n) (rq_init (0, []))
  = Done ((5 <=? n)%nat, [], st) /\ length (snd (q_user st)) = Nat.min 5 (S n).
Proof. exact timer_case. Qed.

(** Two items pushed in the wrong order while the thread waits for nothing; a
    stop between the calls, and a new start. *)
Example C72_example_watch :
  let acts := [AStart; ATurn; APush (7%Z, 1); ATurn; APush (3%Z, 2); ATurn; ATick 4; ATurn; ATurn; ATurn; AStop;
               ATurn; ATick 9; AJoin] in
  let s := wrun acts (watch_init 0) in
  w_log s = [Pushed (7%Z, 1); Pushed (3%Z, 2); Called 4 (3%Z, 2)] /\ w_queue s = [(7%Z, 1)] /\ w_pc s = WNone /\
  let s' := wrun [AStart] s in running s' /\ w_kill s' = false /\ w_queue s' = [(7%Z, 1)] /\
  w_log (wrun [ATurn; ATurn] s') = w_log s ++ [Called 13 (7%Z, 1)].
Proof. vm_compute. repeat split; discriminate. Qed.
