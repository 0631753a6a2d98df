(** Proofs for C82. *)
From Coq Require Import List Bool Arith Lia Permutation.
From Verif Require Import Model.Curler Spec.CurlerSpec Spec.CurlerProgressSpec Proofs.CurlerProofs.
Import ListNotations.

(** ** What the thread does is bounded by what comes to it. *)
Definition load (s : cst) : nat := length (k_queue s) + length (k_run s).
Definition hold (s : cst) : nat :=
  3 * load s
  + match k_pc s with
    | HCheck => 2 + 6 * k_bytes s
    | HStart => 1 + 6 * k_bytes s
    | HPoll => 6 * k_bytes s
    | HWake => 5 + 6 * (k_bytes s - 1)
    | HRead => 4 + 6 * (k_bytes s - 1)
    | HClear => 3 + 6 * k_bytes s
    | HMsgs _ => 4 + 6 * k_bytes s
    | HCall _ _ => 6 + 6 * k_bytes s
    | HReset _ _ => 5 + 6 * k_bytes s
    | HWant => 3 + 6 * k_bytes s
    | HEnd | HFail => 0
    end.

Lemma remb_len : forall c l, In c l -> S (length (remb c l)) = length l.
Proof. induction l as [|y l IH]; cbn; [tauto|]. intros H. destruct (Nat.eqb_spec c y); [reflexivity|]. cbn. destruct H as [->|H]; [congruence|]. now rewrite IH. Qed.

Lemma start_load : forall conc q r e q' r' e', start_some conc q r e = Some (q', r', e') -> length q' + length r' = length q + length r.
Proof.
  induction q as [|c q IH]; cbn [start_some length]; intros r e q' r' e' H; [injection H as <- <- _; reflexivity|].
  destruct (length r <? conc); [|injection H as <- <- _; reflexivity]. destruct (memb c r); [discriminate|].
  apply IH in H. rewrite app_length in H. cbn in H. lia.
Qed.
Lemma hand_hold : forall conc e s s', handler_step conc e s = Some s' ->
  S (hold s') <= hold s + 5 * comes1 s (AHandler e).
Proof.
  intros conc e s s' H. unfold handler_step in H. unfold hold, comes1. destruct (k_pc s) as [| | | | | |[|c l]|c l|c l| | |] eqn:P.
  - destruct (k_term s || _); injection H as <-; cbn -[Nat.mul]; unfold load; cbn -[Nat.mul]; lia.
  - destruct (start_some conc (k_queue s) (k_run s) []) as [[[q r] ev]|] eqn:E; injection H as <-; cbn -[Nat.mul]; unfold load; cbn -[Nat.mul]; [|lia].
    apply start_load in E. lia.
  - destruct e as [|d].
    + destruct (Nat.eqb_spec (k_bytes s) 0); [discriminate|]. injection H as <-. cbn -[Nat.mul]. unfold load. cbn -[Nat.mul]. lia.
    + destruct (nodupb d && _); [|discriminate]. injection H as <-. cbn -[Nat.mul]. unfold load. cbn -[Nat.mul]. lia.
  - destruct (k_owner s); [discriminate|]. injection H as <-. cbn -[Nat.mul]. unfold load. cbn -[Nat.mul]. lia.
  - destruct (Nat.eqb_spec (k_bytes s) 0); injection H as <-; cbn -[Nat.mul Nat.sub]; unfold load; cbn -[Nat.mul Nat.sub]; lia.
  - injection H as <-. cbn -[Nat.mul]. unfold load. cbn -[Nat.mul]. lia.
  - injection H as <-. cbn -[Nat.mul]. unfold load. cbn -[Nat.mul]. lia.
  - destruct (memb c (k_run s)) eqn:M; injection H as <-; cbn -[Nat.mul]; unfold load; cbn -[Nat.mul]; [|lia].
    apply memb_in, remb_len in M. lia.
  - destruct (k_cb s c); injection H as <-; cbn -[Nat.mul]; unfold load; cbn -[Nat.mul]; lia.
  - injection H as <-. cbn -[Nat.mul]. unfold load. cbn -[Nat.mul]. lia.
  - destruct (k_owner s); [discriminate|]. injection H as <-. cbn -[Nat.mul]. unfold load. cbn -[Nat.mul]. lia.
  - discriminate.
  - discriminate.
Qed.
Lemma other_hold : forall conc a s s', cstep conc a s = Some s' -> (forall e, a <> AHandler e) -> hold s' <= hold s + 6 * comes1 s a.
Proof.
  intros conc a s s' H N. destruct a as [e|c|t c|t|t|t]; cbn [cstep] in H; unfold comes1.
  - now destruct (N e).
  - injection H as <-. unfold hold, load. cbn -[Nat.mul]. lia.
  - destruct (is_out _); [|discriminate]. injection H as <-. unfold hold, load. cbn -[Nat.mul]. lia.
  - destruct (is_out _); [|discriminate]. injection H as <-. unfold hold, load. cbn -[Nat.mul]. lia.
  - destruct (is_out _); [|discriminate]. injection H as <-. unfold hold, load. cbn -[Nat.mul]. lia.
  - unfold thread_step in H. destruct (k_threads s t) as [|c|b|b|b|].
    + discriminate.
    + destruct (k_owner s); [discriminate|]. injection H as <-. unfold hold, load. cbn -[Nat.mul]. rewrite app_length. cbn -[Nat.mul]. lia.
    + destruct (k_waking s); injection H as <-; unfold hold, load; cbn -[Nat.mul]; lia.
    + injection H as <-. unfold hold, load. cbn -[Nat.mul]. lia.
    + injection H as <-. unfold hold, load. cbn -[Nat.mul Nat.sub]. destruct (k_pc s); lia.
    + injection H as <-. unfold hold, load. cbn -[Nat.mul]. lia.
Qed.
Lemma steps_bounded : forall conc l s s', cexec conc l s = Some s' ->
  handler_steps l <= 6 + 6 * k_bytes s + 3 * load s + 6 * comes conc l s.
Proof.
  assert (G : forall conc l s s', cexec conc l s = Some s' -> handler_steps l + hold s' <= hold s + 6 * comes conc l s).
  { intros conc l. induction l as [|a l IH]; intros s s' H; [injection H as <-; cbn; lia|]. cbn [cexec comes] in *.
    destruct (cstep conc a s) as [s1|] eqn:E; [|discriminate]. specialize (IH s1 s' H).
    destruct a as [e|c|t c|t|t|t]; cbn [handler_steps].
    1: { pose proof (hand_hold conc e s s1 E). lia. }
    all: match type of E with cstep _ ?a _ = _ => pose proof (other_hold conc a s s1 E ltac:(intros e' X; discriminate X)) end; lia. }
  intros conc l s s' H. apply G in H. assert (hold s <= 6 + 6 * k_bytes s + 3 * load s) by (unfold hold; destruct (k_pc s); lia). lia.
Qed.

(** ** It finishes. *)
Definition weight (s : cst) : nat :=
  match k_pc s with
  | HCheck => 2 + 6 * k_bytes s + 8 * load s
  | HStart => 1 + 6 * k_bytes s + 8 * load s
  | HPoll => 6 * k_bytes s + 8 * load s
  | HWake => 5 + 6 * (k_bytes s - 1) + 8 * load s
  | HRead => 4 + 6 * (k_bytes s - 1) + 8 * load s
  | HClear => 3 + 6 * k_bytes s + 8 * load s
  | HMsgs [] => 4 + 6 * k_bytes s + 8 * load s
  | HMsgs (_ :: _) => 7 + 6 * k_bytes s + 8 * (load s - 1)
  | HCall _ _ => 6 + 6 * k_bytes s + 8 * load s
  | HReset _ _ => 5 + 6 * k_bytes s + 8 * load s
  | HWant => 3 + 6 * k_bytes s + 8 * load s
  | HEnd | HFail => 0
  end.
Lemma load_pos : forall c s, In c (k_run s) -> 0 < load s.
Proof. intros c s H. unfold load. destruct (k_run s); [contradiction|cbn; lia]. Qed.
Lemma hand_weight : forall conc e s s', creachable conc s -> handler_step conc e s = Some s' -> (k_pc s = HPoll -> fruitful e) -> weight s' < weight s.
Proof.
  intros conc e s s' R H Fr. pose proof (ainv_reach _ _ R) as [_ _ _ _ PO _]. unfold handler_step in H. unfold weight. destruct (k_pc s) as [| | | | | |[|c l]|c l|c l| | |] eqn:P.
  - destruct (k_term s || _); injection H as <-; cbn -[Nat.mul]; unfold load; cbn -[Nat.mul]; lia.
  - destruct (start_some conc (k_queue s) (k_run s) []) as [[[q r] ev]|] eqn:E; injection H as <-; cbn -[Nat.mul]; unfold load; cbn -[Nat.mul]; [|lia].
    apply start_load in E. lia.
  - destruct e as [|d].
    + destruct (Nat.eqb_spec (k_bytes s) 0); [discriminate|]. injection H as <-. cbn -[Nat.mul]. unfold load. cbn -[Nat.mul]. lia.
    + destruct (nodupb d && forallb (fun c => memb c (k_run s)) d) eqn:D; [|discriminate]. injection H as <-. cbn -[Nat.mul]. destruct d as [|c d]; [now destruct (Fr eq_refl)|].
      apply andb_true_iff in D as [_ D]. cbn in D. apply andb_true_iff in D as [D _]. apply memb_in in D. pose proof (load_pos c s D). unfold load in *. cbn -[Nat.mul]. lia.
  - destruct (k_owner s); [discriminate|]. injection H as <-. cbn -[Nat.mul]. unfold load. cbn -[Nat.mul]. lia.
  - destruct (Nat.eqb_spec (k_bytes s) 0); injection H as <-; cbn -[Nat.mul Nat.sub]; unfold load; cbn -[Nat.mul Nat.sub]; lia.
  - injection H as <-. cbn -[Nat.mul]. unfold load. cbn -[Nat.mul]. lia.
  - injection H as <-. cbn -[Nat.mul]. unfold load. cbn -[Nat.mul]. lia.
  - destruct (memb c (k_run s)) eqn:M; injection H as <-; cbn -[Nat.mul]; unfold load; cbn -[Nat.mul]; [|lia].
    apply memb_in, remb_len in M. lia.
  - cbn in PO. destruct PO as (_ & PO & _). destruct (k_cb s c); injection H as <-; cbn -[Nat.mul]; unfold load; cbn -[Nat.mul]; [lia|].
    destruct l as [|x l]; [lia|]. pose proof (load_pos x s (PO x (or_introl eq_refl))). unfold load in *. lia.
  - cbn in PO. destruct PO as (_ & PO & _). injection H as <-; cbn -[Nat.mul]; unfold load; cbn -[Nat.mul].
    destruct l as [|x l]; [lia|]. pose proof (load_pos x s (PO x (or_introl eq_refl))). unfold load in *. lia.
  - destruct (k_owner s); [discriminate|]. injection H as <-. cbn -[Nat.mul]. unfold load. cbn -[Nat.mul]. lia.
  - discriminate.
  - discriminate.
Qed.
Lemma creach_step : forall conc a s s', creachable conc s -> cstep conc a s = Some s' -> creachable conc s'.
Proof.
  intros conc a s s' [l H] St. exists (l ++ [a]). assert (X : forall l s0, cexec conc (l ++ [a]) s0 = match cexec conc l s0 with Some s1 => cstep conc a s1 | None => None end).
  { clear. induction l as [|b l IH]; intro s0; cbn; [destruct (cstep conc a s0); reflexivity|]. destruct (cstep conc b s0); [apply IH|reflexivity]. }
  rewrite X, H. exact St.
Qed.
Lemma runs_reach : forall conc s n s', creachable conc s -> runs_on conc s n s' -> creachable conc s' /\ n + weight s' <= weight s.
Proof.
  intros conc s n s' R S. induction S as [|s e s1 n s2 Fr H S IH]; [split; [exact R|lia]|].
  pose proof (creach_step conc (AHandler e) s s1 R H) as R1. destruct (IH R1) as [A B]. pose proof (hand_weight conc e s s1 R H Fr). split; [exact A|lia].
Qed.
Lemma runs_bound : forall conc s n s', creachable conc s -> runs_on conc s n s' -> n <= 8 * (1 + k_bytes s + length (k_queue s) + length (k_run s)).
Proof.
  intros conc s n s' R S. apply runs_reach in S as [_ S]; [|exact R]. assert (weight s <= 8 * (1 + k_bytes s + load s)); [|unfold load in *; lia].
  unfold weight. destruct (k_pc s) as [| | | | | |[|c l]|c l|c l| | |]; lia.
Qed.

(** Without calls under way, it can go on or there is nothing left. *)
Definition rests (s : cst) : Prop := k_pc s = HEnd \/ k_pc s = HFail \/ (k_pc s = HPoll /\ k_bytes s = 0 /\ k_run s = []).
Lemma rests_idle : forall conc s, rests s -> idle conc s.
Proof.
  intros conc s [P|[P|(P & B & Rn)]] e Fr; unfold handler_step; rewrite P; try reflexivity. rewrite B, Rn. specialize (Fr P).
  destruct e as [|[|c d]]; [reflexivity|now destruct (Fr eq_refl)|]. cbn. now rewrite andb_false_r.
Qed.
Lemma idle_or_go : forall conc s, creachable conc s -> quiet s ->
  rests s \/ exists e s', (k_pc s = HPoll -> fruitful e) /\ handler_step conc e s = Some s'.
Proof.
  intros conc s R Q. destruct (abinv_reach _ _ R) as [_ B]. unfold rests.
  assert (Ow : k_pc s = HWake \/ k_pc s = HWant -> k_owner s = None).
  { intro P. destruct (k_owner s) as [[t|]|] eqn:O; [|exfalso|reflexivity].
    - apply (b_owner _ _ B) in O. rewrite Q in O. discriminate.
    - apply (b_hand2 _ _ B) in O. destruct P as [P|P]; rewrite P in O; destruct O; discriminate. }
  unfold handler_step. destruct (k_pc s) as [| | | | | |[|c l]|c l|c l| | |] eqn:P; try (left; tauto); try rewrite Ow by auto.
  - right. exists EvWake. destruct (k_term s || _); eexists; (split; [intro X; discriminate X|reflexivity]).
  - right. exists EvWake. destruct (start_some _ _ _ _) as [[[q r] ev]|]; eexists; (split; [intro X; discriminate X|reflexivity]).
  - destruct (Nat.eqb_spec (k_bytes s) 0) as [B0|B0].
    + destruct (k_run s) as [|c r] eqn:Rn.
      * left. tauto.
      * right. exists (EvNet [c]). cbn. rewrite Nat.eqb_refl. cbn. eexists. split; [intros _ X; discriminate X|reflexivity].
    + right. exists EvWake. eexists. split; [intros _ X; discriminate X|reflexivity].
  - right. exists EvWake. eexists. split; [intro X; discriminate X|reflexivity].
  - right. exists EvWake. destruct (k_bytes s =? 0); eexists; (split; [intro X; discriminate X|reflexivity]).
  - right. exists EvWake. eexists. split; [intro X; discriminate X|reflexivity].
  - right. exists EvWake. eexists. split; [intro X; discriminate X|reflexivity].
  - right. exists EvWake. destruct (memb c (k_run s)); eexists; (split; [intro X; discriminate X|reflexivity]).
  - right. exists EvWake. destruct (k_cb s c); eexists; (split; [intro X; discriminate X|reflexivity]).
  - right. exists EvWake. eexists. split; [intro X; discriminate X|reflexivity].
  - right. exists EvWake. eexists. split; [intro X; discriminate X|reflexivity].
Qed.
Lemma idle_rests : forall conc s, creachable conc s -> quiet s -> idle conc s -> rests s.
Proof. intros conc s R Q Z. destruct (idle_or_go conc s R Q) as [H|(e & s' & Fr & H)]; [exact H|]. rewrite (Z e Fr) in H. discriminate. Qed.
Lemma hand_keeps : forall conc e s s', handler_step conc e s = Some s' ->
  k_threads s' = k_threads s /\ k_stop s' = k_stop s /\ k_term s' = k_term s /\ queued (k_log s') = queued (k_log s)
  /\ (forall c, user_of c (k_log s') = user_of c (k_log s))
  /\ (k_pc s' = HEnd -> k_term s = false -> k_queue s' = [] /\ k_run s' = [] /\ k_stop s = true).
Proof.
  intros conc e s s' H. unfold handler_step in H. destruct (k_pc s) as [| | | | | |[|c l]|c l|c l| | |] eqn:P.
  - destruct (k_term s || _) eqn:T; injection H as <-; cbn; repeat split; auto; try discriminate; intros; destruct (k_term s); try discriminate; cbn in T;
      destruct (k_stop s); try discriminate; destruct (k_queue s); try discriminate; destruct (k_run s); try discriminate; reflexivity.
  - destruct (start_some conc (k_queue s) (k_run s) []) as [[[q r] ev]|] eqn:E; injection H as <-; cbn; [|repeat split; auto; discriminate].
    assert (X : forall q r e q' r' e', start_some conc q r e = Some (q', r', e') -> exists m, e' = e ++ map EStarted m).
    { clear. induction q as [|c q IH]; cbn [start_some]; intros r e q' r' e' H; [injection H as _ _ <-; exists []; now rewrite app_nil_r|].
      destruct (length r <? conc); [|injection H as _ _ <-; exists []; now rewrite app_nil_r]. destruct (memb c r); [discriminate|].
      apply IH in H as [m ->]. exists (c :: m). cbn. now rewrite <- app_assoc. }
    apply X in E as [m ->]. cbn. rewrite queued_app, queued_started, app_nil_r. repeat split; auto; try discriminate. intro c. now rewrite user_app, user_started, app_nil_r.
  - destruct e as [|d].
    + destruct (k_bytes s =? 0); [discriminate|]. injection H as <-. cbn. repeat split; auto; discriminate.
    + destruct (nodupb d && _); [|discriminate]. injection H as <-. cbn. repeat split; auto; discriminate.
  - destruct (k_owner s); [discriminate|]. injection H as <-. cbn. repeat split; auto; discriminate.
  - destruct (k_bytes s =? 0); injection H as <-; cbn; repeat split; auto; discriminate.
  - injection H as <-. cbn. repeat split; auto; discriminate.
  - injection H as <-. cbn. repeat split; auto; discriminate.
  - destruct (memb c (k_run s)); injection H as <-; cbn; [|repeat split; auto; discriminate].
    rewrite queued_app. cbn. rewrite app_nil_r. repeat split; auto; try discriminate. intro x. rewrite user_app. cbn. now rewrite app_nil_r.
  - destruct (k_cb s c); injection H as <-; cbn; [|repeat split; auto; discriminate].
    rewrite queued_app. cbn. rewrite app_nil_r. repeat split; auto; try discriminate. intro x. rewrite user_app. cbn. now rewrite app_nil_r.
  - injection H as <-. cbn. rewrite app_nil_r. repeat split; auto; discriminate.
  - destruct (k_owner s); [discriminate|]. injection H as <-. cbn. repeat split; auto; discriminate.
  - discriminate.
  - discriminate.
Qed.
Lemma runs_keeps : forall conc s n s', runs_on conc s n s' ->
  k_threads s' = k_threads s /\ k_stop s' = k_stop s /\ k_term s' = k_term s /\ queued (k_log s') = queued (k_log s)
  /\ (forall c, user_of c (k_log s') = user_of c (k_log s))
  /\ (k_pc s' = HEnd -> k_pc s <> HEnd -> k_term s = false -> k_queue s' = [] /\ k_run s' = [] /\ k_stop s = true).
Proof.
  intros conc s n s' S. induction S as [|s e s1 n s2 Fr H S IH]; [repeat split; auto; contradiction|].
  destruct (hand_keeps conc e s s1 H) as (A1 & A2 & A3 & A4 & A5 & A6). destruct IH as (B1 & B2 & B3 & B4 & B5 & B6).
  split; [congruence|]. split; [congruence|]. split; [congruence|]. split; [congruence|]. split; [intro c; now rewrite B5|]. intros E N T.
  destruct S as [s1|s1 e' s3 n s2 Fr' H' S']; [apply A6; auto|]. assert (N1 : k_pc s1 <> HEnd) by (intro X; unfold handler_step in H'; rewrite X in H'; discriminate).
  rewrite <- A2. apply B6; auto. congruence.
Qed.
Lemma runs_idle : forall conc s, creachable conc s -> quiet s -> exists n s', runs_on conc s n s' /\ idle conc s'.
Proof.
  intros conc s R. remember (weight s) as w eqn:E. revert s R E. induction w as [w IH] using lt_wf_ind. intros s R E Q.
  destruct (idle_or_go conc s R Q) as [Z|(e & s1 & Fr & H)]; [exists 0, s; split; [apply runs_no|exact (rests_idle conc s Z)]|].
  pose proof (hand_weight conc e s s1 R H Fr) as W. destruct (hand_keeps conc e s s1 H) as (A1 & _).
  assert (Q1 : quiet s1) by (intro t; rewrite A1; apply Q).
  destruct (IH (weight s1) ltac:(lia) s1 (creach_step conc (AHandler e) s s1 R H) eq_refl Q1) as (n & s2 & S2 & Z).
  exists (S n), s2. split; [exact (runs_more conc s e s1 n s2 Fr H S2)|exact Z].
Qed.

Lemma finished : forall conc s n s', 0 < conc -> creachable conc s -> quiet s -> NoDup (queued (k_log s)) -> k_pc s <> HEnd ->
  runs_on conc s n s' -> idle conc s' ->
  (k_term s = true -> k_pc s' = HEnd)
  /\ (k_term s = false -> k_pc s' = (if k_stop s then HEnd else HPoll) /\ k_queue s' = [] /\ k_run s' = []
      /\ Permutation (done (k_log s')) (queued (k_log s))
      /\ forall c, user_of c (k_log s) = [ESet c; EQueued c] -> times c (called (k_log s')) = 1).
Proof.
  intros conc s n s' Pc R Q Nd Ne S Z. destruct (runs_reach conc s n s' R S) as [R' _]. destruct (runs_keeps conc s n s' S) as (A1 & A2 & A3 & A4 & A5 & A6).
  assert (Q' : quiet s') by (intro t; rewrite A1; apply Q).
  assert (Nf : k_pc s' <> HFail) by (apply (no_fail conc s' R'); now rewrite A4).
  pose proof (ainv_reach _ _ R') as I.
  assert (Fin : k_queue s' = [] -> k_run s' = [] -> k_pc s' = HEnd \/ k_pc s' = HPoll -> Permutation (done (k_log s')) (queued (k_log s))
    /\ forall c, user_of c (k_log s) = [ESet c; EQueued c] -> times c (called (k_log s')) = 1).
  { intros Qe Re PC. assert (D : forall c, times c (done (k_log s')) = times c (queued (k_log s))).
    { intro c. rewrite <- A4, (a_order _ _ I), Qe, app_nil_r, (a_count _ _ I c), Re. change (times c []) with 0. lia. }
    split; [apply (Permutation_count_occ Nat.eq_dec); exact D|]. intros c U.
    pose proof U as U'. rewrite <- A5 in U'. destruct (callback_once conc s' c R' U') as [C1 C2]. specialize (D c).
    rewrite user_queued, U in D. cbn [queued] in D. rewrite times_one in D. destruct (Nat.eq_dec c c) as [_|N]; [|now destruct N].
    destruct (Nat.eq_dec (times c (called (k_log s'))) 1) as [E|E]; [exact E|]. destruct C2 as [l C2]; [lia|]. destruct PC as [PC|PC]; rewrite PC in C2; discriminate. }
  destruct (idle_rests conc s' R' Q' Z) as [PC|[PC|(PC & B0 & Rn)]]; [|contradiction|].
  - split; [auto|]. intro T. destruct (A6 PC Ne T) as (Qe & Re & St). rewrite St. split; [exact PC|]. auto.
  - assert (Nn : ~ news conc s') by (intro X; exact (noticed conc s' R' Q' PC X B0)). unfold news in Nn. rewrite A2, A3, Rn in Nn.
    assert (Qe : k_queue s' = []) by (destruct (k_queue s'); [reflexivity|]; exfalso; apply Nn; left; split; [discriminate|exact Pc]).
    split; [intro T; exfalso; auto|]. intro T. destruct (k_stop s); [exfalso; apply Nn; auto|]. split; [exact PC|]. auto.
Qed.
Lemma reached : forall conc s, creachable conc s -> quiet s ->
  (exists n s', runs_on conc s n s' /\ idle conc s')
  /\ (idle conc s \/ exists e s', (k_pc s = HPoll -> fruitful e) /\ handler_step conc e s = Some s').
Proof.
  intros conc s R Q. split; [exact (runs_idle conc s R Q)|]. destruct (idle_or_go conc s R Q) as [Z|Z]; [left; exact (rests_idle conc s Z)|right; exact Z].
Qed.

(** ** With no concurrency. *)
Lemma zero_start : forall s n s', creachable 0 s -> runs_on 0 s n s' -> started (k_log s) = [] -> started (k_log s') = [].
Proof.
  intros s n s' R S E. apply runs_reach in S as [R' _]; [|exact R]. clear -R'. pose proof (bound 0 s' R') as [B _].
  revert B. destruct R' as [l H]. assert (G : forall l s s', started (k_log s) = [] -> k_run s = [] -> cexec 0 l s = Some s' -> started (k_log s') = []); [|intros _; exact (G l c_init s' eq_refl eq_refl H)].
  clear. intro l. induction l as [|a l IH]; intros s s' E Rn H; [injection H as <-; exact E|]. cbn [cexec] in H.
  destruct (cstep 0 a s) as [s1|] eqn:C; [|discriminate]. assert (X : started (k_log s1) = [] /\ k_run s1 = []); [|destruct X; eapply IH; eauto]. clear H IH.
  destruct a as [e|c|t c|t|t|t]; cbn [cstep] in C.
  - unfold handler_step in C. destruct (k_pc s) as [| | | | | |[|c l']|c l'|c l'| | |].
    + destruct (_ || _); injection C as <-; auto.
    + assert (Y : start_some 0 (k_queue s) (k_run s) [] = Some (k_queue s, k_run s, [])) by (destruct (k_queue s); reflexivity).
      rewrite Y in C. injection C as <-. cbn. rewrite app_nil_r. auto.
    + destruct e; [destruct (k_bytes s =? 0)|destruct (_ && _)]; try discriminate; injection C as <-; auto.
    + destruct (k_owner s); [discriminate|]. injection C as <-. auto.
    + destruct (k_bytes s =? 0); injection C as <-; auto.
    + injection C as <-. auto.
    + injection C as <-. auto.
    + rewrite Rn in C. cbn in C. injection C as <-. auto.
    + destruct (k_cb s c); injection C as <-; cbn; [rewrite started_app, E|]; auto.
    + injection C as <-. cbn. rewrite app_nil_r. auto.
    + destruct (k_owner s); [discriminate|]. injection C as <-. auto.
    + discriminate.
    + discriminate.
  - injection C as <-. cbn. rewrite started_app, E. auto.
  - destruct (is_out _); [|discriminate]. injection C as <-. auto.
  - destruct (is_out _); [|discriminate]. injection C as <-. auto.
  - destruct (is_out _); [|discriminate]. injection C as <-. auto.
  - unfold thread_step in C. destruct (k_threads s t) as [|c|b|b|b|].
    + discriminate.
    + destruct (k_owner s); [discriminate|]. injection C as <-. cbn. rewrite started_app, E. auto.
    + destruct (k_waking s); injection C as <-; auto.
    + injection C as <-. auto.
    + injection C as <-. auto.
    + injection C as <-. auto.
Qed.
Lemma zero : exists s, creachable 0 s /\ quiet s /\ NoDup (queued (k_log s)) /\ queued (k_log s) = [7] /\ k_term s = false
  /\ forall n s', runs_on 0 s n s' -> started (k_log s') = [].
Proof.
  destruct (cexec 0 ([h; h] ++ queues 1 7) c_init) as [s|] eqn:E; [|vm_compute in E; discriminate]. exists s.
  assert (R : creachable 0 s) by (exists ([h; h] ++ queues 1 7); exact E). split; [exact R|].
  pose proof (zero_start s) as G. vm_compute in E. injection E as <-.
  split; [intro t; cbn; repeat (destruct t as [|t]; [reflexivity|]); reflexivity|].
  split; [cbn; repeat constructor; cbn; tauto|]. split; [reflexivity|]. split; [reflexivity|]. intros n s' S. exact (G n s' R S eq_refl).
Qed.
