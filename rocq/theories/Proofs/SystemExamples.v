(** The whole server: concrete executions. *)
From Coq Require Import String List NArith ZArith Bool Arith Lia.
From Verif Require Import Model.Base Model.Endian Model.Protocol Model.Transceiver Model.RequestMap Model.Streams Model.Environment
  Model.Multipart Model.Request Model.System
  Spec.EndianSpec Spec.WireSpec Spec.AddressSpec Spec.EnvironmentSpec Spec.RequestSpec Spec.TransceiverSpec Spec.ManagerSpec Spec.SystemSpec Spec.SystemCases
  Proofs.EnvironmentProofs Proofs.EnvironmentExamples Proofs.RequestProofs Proofs.RequestBodyProofs Proofs.RequestLifeProofs.
From Verif Require Model.Manager.
Import ListNotations.
Local Open Scope N_scope.

Lemma after_is : forall l x, match qexec l x with Some (Done _) => true | _ => false end = true -> qexec l x = Some (Done (after l x)).
Proof. intros l x H; unfold after. destruct (qexec l x) as [[]|]; try discriminate. reflexivity. Qed.

Lemma quick_plain : app_plain quick.
Proof. intros [] u; cbn; trivial. Qed.
Lemma quick_writes : app_writes (any_char Narrow) quick.
Proof.
  intros c u. unfold writes. destruct c; cbn -[error_text lit].
  2,3: constructor.
  2,3,4: constructor; [|constructor]; cbn -[error_text lit]; unfold error_text;
    repeat (apply Forall_app; split); try apply lit_bytes; repeat constructor.
  constructor; [|constructor; [|constructor]]; cbn -[lit].
  - apply Forall_app. split; [apply lit_bytes|repeat constructor].
  - apply Forall_forall. intros x X. apply in_map_iff in X. destruct X as (y & <- & _). apply N.mod_lt. discriminate.
Qed.

Lemma quick_whole : Forall (fun '(id, r) => whole_record id r) quick_recs.
Proof.
  unfold quick_recs, quick_rest, demo_head, demo_body. cbn [map app].
  repeat apply Forall_cons; [| | | | | |constructor].
  - exists 1, 1, [0; 1; 1; 0; 0; 0; 0; 0], [], 0. repeat split; reflexivity.
  - exists 1, 4, (enc_all demo_params), [0; 0], 0. repeat split; reflexivity.
  - exists 1, 4, [], [], 0. repeat split; reflexivity.
  - exists 1, 5, (lit "x=a"), [0; 0], 0. repeat split; reflexivity.
  - exists 1, 5, (lit "%20b"), [], 0. repeat split; reflexivity.
  - exists 1, 5, [], [], 0. repeat split; reflexivity.
Qed.

Lemma quick_begins : web_begin 1 1 quick_begin.
Proof. split; [now left|]. exists [0; 0; 0; 0; 0]. apply record_is_message. reflexivity. Qed.

Lemma quick_web : forall address_of, exists e0 e2,
  web_request (fun b _ => b) (repeat 0) (fun _ => 0%Z) address_of 1000 quick_rest [lit "x=a"; lit "%20b"] demo_end e0 e2 /\
  e_posts e2 = [(lit "x", lit "a b")].
Proof.
  intro ao. eexists. eexists. split.
  - exists [demo_record], (firstn 1 demo_head), (record_message 4 5 [] [] 0), demo_body.
    split; [reflexivity|]. split; [constructor; [exact demo_record_ok|constructor]|].
    split; [apply record_is_message; reflexivity|].
    split; [repeat (constructor; [apply record_is_message; reflexivity|]); constructor|].
    split; [repeat constructor; discriminate|]. split; [apply record_is_message; reflexivity|].
    split; [vm_compute; reflexivity|]. split; [vm_compute; discriminate|]. split; [vm_compute; discriminate|]. vm_compute. reflexivity.
  - vm_compute. reflexivity.
Qed.

Definition quick_end := after quick_run (y_init 0).
Lemma quick_reach : qreach quick_end.
Proof. exists quick_run. apply after_is. vm_compute. reflexivity. Qed.

Ltac all_idle := intros [|[|t]]; vm_compute; auto.
Lemma quick_case : qreach quick_end /\ Forall ev_ok (y_tr quick_end) /\ quiet quick_end 1 /\ Manager.s_waiters (y_man quick_end) <> [] /\
  Manager.s_stop (y_man quick_end) = false /\ Manager.s_terminate (y_man quick_end) = false /\ all_sent quick_end 1 quick_recs /\
  s_valid (t_socks (y_net quick_end) 1) = true /\ Forall (fun r => fst r <> 65535) quick_recs /\
  records_for 5 quick_recs = quick_begin :: quick_rest /\ is_request quick_end 0 (mkRid 1 5) /\
  (forall o, is_request quick_end o (mkRid 1 5) -> Forall (fun m => m_type m = 0%Z) (given quick_end o)).
Proof.
  split; [exact quick_reach|]. split; [vm_compute; repeat constructor|].
  split; [split; [all_idle|split; [vm_compute; reflexivity|split; vm_compute; reflexivity]]|].
  split; [vm_compute; discriminate|]. split; [vm_compute; reflexivity|]. split; [vm_compute; reflexivity|].
  split; [split; [exact quick_whole|vm_compute; reflexivity]|]. split; [vm_compute; reflexivity|].
  split; [repeat constructor; discriminate|]. split; [reflexivity|]. split; [split; vm_compute; [lia|reflexivity]|].
  intros o [L _]. assert (o = 0%nat) as -> by (vm_compute in L; lia). vm_compute. repeat constructor.
Qed.

Definition reuse_mid := after reuse_run1 (y_init 0).
Definition reuse_end := after reuse_run2 reuse_mid.

Lemma reuse_lost : exists (A : application N) (address_of : list N -> list N) (x0 x : sys (U := N)) l1 l2 recs mb ms bodies m5 e0 e2,
  let exec := sexec (fun b _ => b) (repeat 0) (fun _ => 0%Z) Narrow A 1000 0 in
  app_writes (any_char Narrow) A /\ app_plain A /\
  exec l1 (y_init 0) = Some (Done x0) /\ exec l2 x0 = Some (Done x) /\ Forall ev_ok (y_tr x) /\
  all_sent x0 1 recs /\ records_for 5 recs = mb :: ms /\ web_begin 1 1 mb /\
  web_request (fun b _ => b) (repeat 0) (fun _ => 0%Z) address_of 1000 ms bodies m5 e0 e2 /\
  s_out (t_socks (y_net x0) 1) = concat (map p_data (to_peer x0 1)) /\
  (exists pre r, sent_for x0 0 = pre ++ [(r, false)] /\ is_end 5 0 r) /\
  all_sent x 1 (recs ++ recs) /\ quiet x 1 /\ Manager.s_waiters (y_man x) <> [] /\
  Manager.s_stop (y_man x) = false /\ Manager.s_terminate (y_man x) = false /\ s_valid (t_socks (y_net x) 1) = true /\
  (forall o id, is_request x o id -> o = 0%nat) /\ q_calls (y_rq x 0%nat) = q_calls (y_rq x0 0%nat) /\
  s_out (t_socks (y_net x) 1) = s_out (t_socks (y_net x0) 1).
Proof.
  destruct (quick_web (fun t => t)) as (e0 & e2 & QW & _).
  exists quick, (fun t => t), reuse_mid, reuse_end, reuse_run1, reuse_run2, quick_recs, quick_begin, quick_rest,
    [lit "x=a"; lit "%20b"], demo_end, e0, e2.
  split; [exact quick_writes|]. split; [exact quick_plain|].
  split; [apply after_is; vm_compute; reflexivity|]. split; [apply after_is; vm_compute; reflexivity|].
  split; [vm_compute; repeat constructor|]. split; [split; [exact quick_whole|vm_compute; reflexivity]|].
  split; [reflexivity|]. split; [exact quick_begins|]. split; [exact QW|]. split; [vm_compute; reflexivity|].
  split.
  { eexists [_], (end_record 5 0). split; [vm_compute; reflexivity|]. apply end_record_is; lia. }
  split; [split; [apply Forall_app; split; exact quick_whole|vm_compute; reflexivity]|].
  split; [split; [all_idle|split; [vm_compute; reflexivity|split; vm_compute; reflexivity]]|].
  split; [vm_compute; discriminate|]. split; [vm_compute; reflexivity|]. split; [vm_compute; reflexivity|]. split; [vm_compute; reflexivity|].
  split; [intros o id [L _]; vm_compute in L; lia|]. split; vm_compute; reflexivity.
Qed.

Definition again_end := after again_run quick_end.
Lemma qexec_app : forall l l' x x', qexec l x = Some (Done x') -> qexec (l ++ l') x = qexec l' x'.
Proof.
  induction l as [|v l IH]; cbn [sexec app]; intros l' x x' H; [now injection H as <-|].
  destruct (qstep v x) as [[y| |]|]; try discriminate H. now apply IH.
Qed.
Lemma again_reach : qreach again_end.
Proof.
  exists (quick_run ++ again_run). rewrite (qexec_app quick_run again_run (y_init 0) quick_end).
  - apply after_is. vm_compute. reflexivity.
  - apply after_is. vm_compute. reflexivity.
Qed.

Lemma again_case : qreach again_end /\ Forall ev_ok (y_tr again_end) /\ quiet again_end 1 /\ Manager.s_waiters (y_man again_end) <> [] /\
  Manager.s_stop (y_man again_end) = false /\ Manager.s_terminate (y_man again_end) = false /\
  all_sent again_end 1 (quick_recs ++ quick_recs) /\ s_valid (t_socks (y_net again_end) 1) = true /\
  Forall (fun r => fst r <> 65535) (quick_recs ++ quick_recs) /\
  records_for 5 (quick_recs ++ quick_recs) = (quick_begin :: quick_rest) ++ quick_begin :: quick_rest ++ [] /\
  is_request again_end 1 (mkRid 1 5) /\ before again_end 1 = (quick_begin :: quick_rest) ++ [quick_begin] /\
  Forall (fun m => m_type m = 0%Z) (given again_end 1).
Proof.
  split; [exact again_reach|]. split; [vm_compute; repeat constructor|].
  split; [split; [all_idle|split; [vm_compute; reflexivity|split; vm_compute; reflexivity]]|].
  split; [vm_compute; discriminate|]. split; [vm_compute; reflexivity|]. split; [vm_compute; reflexivity|].
  split; [split; [apply Forall_app; split; exact quick_whole|vm_compute; reflexivity]|]. split; [vm_compute; reflexivity|].
  split; [repeat constructor; discriminate|]. split; [reflexivity|]. split; [split; vm_compute; [lia|reflexivity]|].
  split; [vm_compute; reflexivity|]. vm_compute. repeat constructor.
Qed.
