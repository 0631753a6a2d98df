(** Messages pushed by the application: a concrete execution. *)
From Coq Require Import String List NArith ZArith Bool Arith Lia.
From Verif Require Import Model.Base Model.Protocol Model.Transceiver Model.RequestMap Model.Streams Model.Environment
  Model.Request Model.System Spec.EndianSpec Spec.WireSpec Spec.AddressSpec Spec.EnvironmentSpec Spec.RequestSpec Spec.TransceiverSpec
  Spec.ManagerSpec Spec.SystemSpec Spec.SystemCases Spec.CallbackSpec Spec.CallbackCases.
From Verif Require Model.Manager.
Import ListNotations.
Local Open Scope N_scope.

Lemma aafter_is : forall l x, match aexec l x with Some (Done _) => true | _ => false end = true -> aexec l x = Some (Done (aafter l x)).
Proof. intros l x H; unfold aafter. destruct (aexec l x) as [[]|]; try discriminate. reflexivity. Qed.

Lemma late_steps : aexec late_run1 (y_init 0) = Some (Done late_mid) /\ aexec (late_call :: late_run2) late_mid = Some (Done late_end).
Proof.
  split; [apply aafter_is; vm_compute; reflexivity|].
  assert (E : forall v l x, match aexec [v] x with Some (Done _) => true | _ => false end = true -> aexec (v :: l) x = aexec l (aafter [v] x)).
  { intros v l x. unfold aafter. cbn [sexec]. destruct (astep v x) as [[x1| |]|]; try discriminate. reflexivity. }
  rewrite E by (vm_compute; reflexivity). apply aafter_is. vm_compute. reflexivity.
Qed.

Lemma aexec_app : forall l1 l2 x x1, aexec l1 x = Some (Done x1) -> aexec (l1 ++ l2) x = aexec l2 x1.
Proof.
  induction l1 as [|v l1 IH]; intros l2 x x1 H; cbn [sexec app] in *; [now injection H as <-|].
  destruct (astep v x) as [[x2| |]|]; try discriminate. now apply IH.
Qed.

Lemma late_whole : aexec (late_run1 ++ late_call :: late_run2) (y_init 0) = Some (Done late_end).
Proof. exact (eq_trans (aexec_app late_run1 (late_call :: late_run2) _ _ (proj1 late_steps)) (proj2 late_steps)). Qed.

Definition is_callback (v : sev) : bool := match v with SMan _ (Manager.APush _ _) => true | _ => false end.

Lemma late_callback : exists (A : application N) (l1 l2 : list sev) t m (x0 x : sys (U := N)) data,
  let exec := sexec (fun b _ => b) (repeat 0) (fun _ => 0%Z) Narrow A 1000 0 in
  exec l1 (y_init 0) = Some (Done x0) /\ exec (SMan t (Manager.APush (mkRid 1 5) m) :: l2) x0 = Some (Done x) /\
  Forall ev_ok (y_tr x) /\ m_type m = 1%Z /\
  (forall t' id' m', ~ In (SMan t' (Manager.APush id' m')) (l1 ++ l2)) /\
  is_request x0 0 (mkRid 1 5) /\ ~ alive x0 0 /\ is_request x0 1 (mkRid 1 5) /\ alive x0 1 /\ given x0 1 = [] /\
  handled x 1 = [m] /\ q_calls (y_rq x 1%nat) = [CResponse env_init m] /\
  sent_for x 1 = [(data, false)] ++ skipn 1 (sent_for x 1) /\
  (exists h p, length h = 8%nat /\ data = h ++ map Some (m_data m) ++ p) /\
  (exists rest, s_out (t_socks (y_net x) 1) = s_out (t_socks (y_net x0) 1) ++ data ++ rest).
Proof.
  destruct late_steps as [S1 S2].
  exists asking, late_run1, late_run2, 7%nat, late_answer, late_mid, late_end, (fst (hd ([], false) (sent_for late_end 1))).
  split; [exact S1|]. split; [exact S2|]. split; [vm_compute; repeat constructor|]. split; [reflexivity|].
  split.
  { intros t' id' m' Y. assert (F : existsb is_callback (late_run1 ++ late_run2) = false) by (vm_compute; reflexivity).
    assert (F' : existsb is_callback (late_run1 ++ late_run2) = true) by (apply existsb_exists; eexists; split; [exact Y|reflexivity]).
    congruence. }
  split; [split; [vm_compute; lia|vm_compute; reflexivity]|]. split; [vm_compute; discriminate|].
  split; [split; [vm_compute; lia|vm_compute; reflexivity]|]. split; [vm_compute; reflexivity|]. split; [vm_compute; reflexivity|].
  split; [vm_compute; reflexivity|]. split; [vm_compute; reflexivity|]. split; [vm_compute; reflexivity|].
  split.
  - exists (firstn 8 (fst (hd ([], false) (sent_for late_end 1)))), (skipn 27 (fst (hd ([], false) (sent_for late_end 1)))).
    split; vm_compute; reflexivity.
  - exists (skipn (length (s_out (t_socks (y_net late_mid) 1)) + length (fst (hd ([], false) (sent_for late_end 1)))) (s_out (t_socks (y_net late_end) 1))).
    vm_compute. reflexivity.
Qed.
