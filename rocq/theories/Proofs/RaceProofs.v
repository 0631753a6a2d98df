(** Lemmas for C76: a type system for lock discipline and its soundness. *)
From Coq Require Import List Bool Arith Lia.
From Verif Require Import Model.Race Spec.RaceSpec.
Import ListNotations.

Lemma mutex_eqb_eq : forall a b, mutex_eqb a b = true <-> a = b.
Proof.
  intros a b. split.
  - destruct a, b; cbn; try discriminate; auto; intro H; apply Nat.eqb_eq in H; now subst.
  - intros <-. destruct a; cbn; auto using Nat.eqb_refl.
Qed.
Lemma mutex_eqb_refl : forall a, mutex_eqb a a = true.
Proof. intro. now apply mutex_eqb_eq. Qed.

Definition role_eqb (a b : role) : bool :=
  match a, b with
  | RIo, RIo | RHandler, RHandler | RControl, RControl | ROutside, ROutside | RCurl, RCurl | RSql, RSql | RMail, RMail => true
  | _, _ => false
  end.
Lemma role_eqb_eq : forall a b, role_eqb a b = true <-> a = b.
Proof. destruct a, b; cbn; split; congruence. Qed.

(** What each access needs. *)
Definition allowed (r : role) (f : field) (w : bool) (h : held) : bool :=
  match f with
  | FTasks | FTerminate => holds_x MTasks h
  | FStop => holds_x MTasks h || (role_eqb r RControl && negb w)
  | FRequests => if w then holds_x MRequests h else holds MRequests h
  | FMessages => holds_x MMessages h
  | FQueue q => holds_x (MQueue q) h
  | FState q => holds_x (MRequest q) h
  | FThreads | FThread | FReuse | FFiles => role_eqb r RControl
  | FSend => holds_x MSend h || (role_eqb r RIo && negb w)
  | FBuffers | FSockets | FPoll | FClosing _ => role_eqb r RIo
  | FWaking => holds_x MWaking h
  | FListeners => if w then role_eqb r RControl else role_eqb r RIo || role_eqb r RControl
  | FValid _ => role_eqb r RIo || (role_eqb r RHandler && negb w)
  | FcQueue => holds_x MCurl h
  | FcHandles | FcPoll => role_eqb r RCurl
  | FcWaking => holds_x MCurl h || role_eqb r RControl
  | FsQueue => holds_x MSql h || (role_eqb r RSql && negb w)
  | FsConns => role_eqb r RSql || negb w
  | FsConn | FsPoll => role_eqb r RSql
  | FmQueue => holds_x MMail h
  | FmMail => role_eqb r RMail
  | FmWaking => holds_x MMailWaking h
  end.

(** The order in which locks are waited for. *)
Definition rank (m : mutex) : nat :=
  match m with MRequest _ => 0 | MMailWaking => 2 | MTasks => 3 | MRequests => 4 | MQueue _ => 5 | MWaking => 6 | _ => 1 end.
Definition below (m : mutex) (h : held) : bool := forallb (fun x => rank (fst x) <? rank m) h.

Inductive wt (r : role) : held -> list instr -> held -> Prop :=
| wt_nil : forall h, wt r h [] h
| wt_lock : forall m k h h', below m h = true -> holds m h = false -> wt r ((m, true) :: h) k h' -> wt r h (Lock m :: k) h'
| wt_shared : forall m k h h', below m h = true -> holds m h = false -> wt r ((m, false) :: h) k h' -> wt r h (LockShared m :: k) h'
| wt_unlock : forall m k h h', holds m h = true -> wt r (release m h) k h' -> wt r h (Unlock m :: k) h'
| wt_try : forall m yes no k h h1 h', holds m h = false -> wt r ((m, true) :: h) yes h1 -> wt r h no h1 -> wt r h1 k h' ->
    wt r h (Try m yes no :: k) h'
| wt_read : forall f k h h', allowed r f false h = true -> wt r h k h' -> wt r h (Read f :: k) h'
| wt_write : forall f k h h', allowed r f true h = true -> wt r h k h' -> wt r h (Write f :: k) h'
| wt_alt : forall bs k h h1 h', bs <> [] -> (forall b, In b bs -> wt r h b h1) -> wt r h1 k h' -> wt r h (Alt bs :: k) h'
| wt_each : forall b k h h1 h', (forall x, wt r h (b x) h1) -> wt r h1 k h' -> wt r h (Each b :: k) h'
| wt_loop : forall b k h h', wt r h b h -> wt r h k h' -> wt r h (Loop b :: k) h'.

Lemma wt_app : forall r a h h1 k h', wt r h a h1 -> wt r h1 k h' -> wt r h (a ++ k) h'.
Proof.
  intros r a h h1 k h' A K. induction A; cbn [app]; [exact K|..]; econstructor; eauto.
Qed.

(** ** The code is well typed. *)
Ltac alt_case :=
  let b := fresh "b" in let H := fresh in
  intros b H; cbn [In] in H;
  repeat (match type of H with _ \/ _ => destruct H as [<-|H] | False => destruct H end).

(** The locks of requests are compared by number. *)
Ltac side :=
  cbn [allowed holds holds_x release existsb filter fst snd mutex_eqb role_eqb negb andb orb];
  rewrite ?Nat.eqb_refl; cbn [andb orb negb]; reflexivity.
Ltac tidy :=
  cbn [release filter fst snd mutex_eqb negb]; rewrite ?Nat.eqb_refl; cbn [negb].
Ltac wtac :=
  lazymatch goal with
  | |- wt _ _ [] _ => apply wt_nil
  | |- wt _ _ (Lock _ :: _) _ => apply wt_lock; [reflexivity|side|wtac]
  | |- wt _ _ (LockShared _ :: _) _ => apply wt_shared; [reflexivity|side|wtac]
  | |- wt _ _ (Unlock _ :: _) _ => apply wt_unlock; [side|tidy; wtac]
  | |- wt _ _ (Read _ :: _) _ => apply wt_read; [side|wtac]
  | |- wt _ _ (Write _ :: _) _ => apply wt_write; [side|wtac]
  | |- wt _ _ (Try _ _ _ :: _) _ => eapply wt_try; [side|wtac|wtac|wtac]
  | |- wt _ _ (Alt _ :: _) _ => eapply wt_alt; [discriminate|alt_case; wtac|wtac]
  | |- wt _ _ (Each _ :: _) _ => eapply wt_each; [intro; cbv beta; wtac|wtac]
  | |- wt _ _ (Loop _ :: _) _ => apply wt_loop; [wtac|wtac]
  end.
Ltac code := cbv [io_thread handler_thread control_thread outside_thread curl_thread sql_thread mail_thread
  wake accept send task push_request push_any sclose sread swrite spoll cleanup receive transmit curl_wake curl_queue sql_queue
  mail_wake mail_queue mail_stop application message erase_request run_request local check tasks sql_kill sql_kill_all
  mgr_stop mgr_terminate mgr_start mgr_join resize listen reuse curl_stop app].

Lemma wt_code : forall r, wt r [] (code_of r) [].
Proof. destruct r; cbn [code_of]; code; wtac. Qed.

(** ** Soundness. *)
Lemma put_nth : forall {A} (l : list A) i a j, i < length l ->
  nth_error (put i a l) j = if j =? i then Some a else nth_error l j.
Proof.
  induction l as [|b l IH]; intros i a j H; [cbn in H; lia|]. destruct i, j; cbn; auto.
  rewrite IH by (cbn in H; lia). reflexivity.
Qed.
Lemma put_map : forall {A B} (f : A -> B) l i a, (forall b, nth_error l i = Some b -> f a = f b) -> map f (put i a l) = map f l.
Proof.
  intros A B f. induction l as [|b l IH]; intros i a H; destruct i; cbn; auto.
  - f_equal. now apply H.
  - f_equal. apply IH. intros c E. now apply H.
Qed.

Record cinv (rs : list role) (c : list thread) : Prop := {
  ci_roles : map t_role c = rs;
  ci_wt : forall i t, nth_error c i = Some t -> wt (t_role t) (t_held t) (t_code t) [];
  ci_ex : forall i j t u m, i <> j -> nth_error c i = Some t -> nth_error c j = Some u ->
    holds_x m (t_held t) = true -> holds m (t_held u) = false
}.

Lemma x_holds : forall m h, holds_x m h = true -> holds m h = true.
Proof.
  intros m h H. unfold holds_x, holds in *. apply existsb_exists in H as (x & A & B). apply existsb_exists. exists x.
  split; [exact A|]. now apply andb_true_iff in B.
Qed.

(** Replacing a thread by one that holds the same or less. *)
Lemma keep : forall rs c i t h k, cinv rs c -> nth_error c i = Some t -> wt (t_role t) h k [] ->
  (forall m, holds m h = true -> holds m (t_held t) = true) -> (forall m, holds_x m h = true -> holds_x m (t_held t) = true) ->
  cinv rs (put i (mkT (t_role t) h k) c).
Proof.
  intros rs c i t h k I E W H1 H2. assert (L : i < length c) by (apply nth_error_Some; congruence).
  constructor.
  - rewrite put_map; [apply I|]. intros b Q. cbn. congruence.
  - intros j u. rewrite put_nth by exact L. destruct (j =? i); intro Q; [injection Q as <-; exact W|]. now apply (ci_wt _ _ I) in Q.
  - intros a b u v m N A B X. rewrite put_nth in A, B by exact L.
    destruct (Nat.eqb_spec a i) as [->|Na], (Nat.eqb_spec b i) as [->|Nb]; try congruence.
    + injection A as <-. cbn in X. apply (ci_ex _ _ I i b t v m); auto.
    + injection B as <-. change (holds m h = false). destruct (holds m h) eqn:Q; [|reflexivity]. apply H1 in Q.
      rewrite (ci_ex _ _ I a i u t m) in Q; auto.
    + apply (ci_ex _ _ I a b u v m); auto.
Qed.
(** Taking a lock that is free. *)
Lemma take : forall rs c i t m x k, cinv rs c -> nth_error c i = Some t -> wt (t_role t) ((m, x) :: t_held t) k [] ->
  (forall j u, nth_error c j = Some u -> if x then holds m (t_held u) = false else holds_x m (t_held u) = false) ->
  cinv rs (put i (mkT (t_role t) ((m, x) :: t_held t) k) c).
Proof.
  intros rs c i t m x k I E W F. assert (L : i < length c) by (apply nth_error_Some; congruence).
  constructor.
  - rewrite put_map; [apply I|]. intros b Q. cbn. congruence.
  - intros j u. rewrite put_nth by exact L. destruct (j =? i); intro Q; [injection Q as <-; exact W|]. now apply (ci_wt _ _ I) in Q.
  - intros a b u v n N A B X. rewrite put_nth in A, B by exact L.
    destruct (Nat.eqb_spec a i) as [->|Na], (Nat.eqb_spec b i) as [->|Nb]; try congruence.
    + injection A as <-. cbn in X. apply orb_true_iff in X as [X|X].
      * apply andb_true_iff in X as [X1 X2]. apply mutex_eqb_eq in X1. subst n x. apply (F b v B).
      * apply (ci_ex _ _ I i b t v n); auto.
    + injection B as <-. cbn. destruct (mutex_eqb m n) eqn:Q; cbn.
      * apply mutex_eqb_eq in Q. subst n. specialize (F a u A). destruct x; [apply x_holds in X|]; congruence.
      * apply (ci_ex _ _ I a i u t n); auto.
    + apply (ci_ex _ _ I a b u v n); auto.
Qed.

Lemma free_all : forall (p : thread -> bool) c, existsb p c = false -> forall j u, nth_error c j = Some u -> p u = false.
Proof.
  intros p c H j u E. destruct (p u) eqn:Q; [|reflexivity]. rewrite <- H. symmetry. apply existsb_exists. exists u.
  split; [eapply nth_error_In; eauto|exact Q].
Qed.
Lemma release_le : forall m n h, (holds n (release m h) = true -> holds n h = true) /\ (holds_x n (release m h) = true -> holds_x n h = true).
Proof.
  intros m n h. unfold holds, holds_x, release. split; intro H; apply existsb_exists in H as (x & A & B); apply filter_In in A as [A _];
    apply existsb_exists; eauto.
Qed.

Lemma tstep_inv : forall rs i ch c c', cinv rs c -> tstep i ch c = Some c' -> cinv rs c'.
Proof.
  intros rs i ch c c' I H. unfold tstep in H. destruct (nth_error c i) as [t|] eqn:E; [|discriminate].
  pose proof (ci_wt _ _ I i t E) as W. destruct (t_code t) as [|o k]; [discriminate|].
  destruct o; inversion W; subst; clear W.
  - destruct (existsb _ c) eqn:F; [discriminate|]. injection H as <-. eapply take; eauto. cbn. now apply free_all.
  - destruct (existsb _ c) eqn:F; [discriminate|]. injection H as <-. eapply take; eauto. cbn. now apply free_all.
  - injection H as <-. eapply keep; eauto; intros n; apply release_le.
  - destruct (existsb _ c) eqn:F; cbn [orb] in H.
    + injection H as <-. eapply keep; eauto using wt_app.
    + destruct (ch =? 0); injection H as <-; [eapply keep; eauto using wt_app|].
      eapply take; eauto using wt_app. cbn. now apply free_all.
  - injection H as <-. eapply keep; eauto.
  - injection H as <-. eapply keep; eauto.
  - destruct (nth_error bs ch) as [b|] eqn:B; [|discriminate]. injection H as <-. apply nth_error_In in B.
    eapply keep; eauto. eapply wt_app; eauto.
  - injection H as <-. eapply keep; eauto. eapply wt_app; eauto.
  - destruct (ch =? 0); injection H as <-; eapply keep; eauto. eapply wt_app; eauto. econstructor; eauto.
Qed.
Lemma trun_inv : forall rs l c c', cinv rs c -> trun l c = Some c' -> cinv rs c'.
Proof.
  intros rs l. induction l as [|[i ch] l IH]; cbn; intros c c' I H; [now injection H as <-|].
  destruct (tstep i ch c) as [c1|] eqn:E; [|discriminate]. apply (IH c1); [eapply tstep_inv; eauto|exact H].
Qed.

Definition roles (n m : nat) : list role := [RIo; RControl; RCurl; RSql; RMail] ++ repeat RHandler n ++ repeat ROutside m.
Lemma init_inv : forall n m, cinv (roles n m) (t_init n m).
Proof.
  intros n m. change (t_init n m) with (map fresh (roles n m)).
  assert (G : forall i t, nth_error (map fresh (roles n m)) i = Some t -> exists r, t = fresh r).
  { intros i t H. rewrite nth_error_map in H. destruct (nth_error (roles n m) i); [|discriminate]. injection H as <-. eauto. }
  constructor.
  - rewrite map_map. now rewrite map_id.
  - intros i t H. destruct (G i t H) as [r ->]. apply wt_code.
  - intros i j t u k _ H. destruct (G i t H) as [r ->]. discriminate.
Qed.
Lemma treach_inv : forall c, treach c -> exists n m, cinv (roles n m) c.
Proof. intros c (n & m & l & H). exists n, m. eapply trun_inv; [apply init_inv|exact H]. Qed.

Lemma roles_unique : forall n m r i j, r <> RHandler -> r <> ROutside ->
  nth_error (roles n m) i = Some r -> nth_error (roles n m) j = Some r -> i = j.
Proof.
  intros n m r i j H1 H2 A B.
  assert (T : forall k, nth_error (repeat RHandler n ++ repeat ROutside m) k <> Some r).
  { intros k Q. apply nth_error_In, in_app_or in Q as [Q|Q]; apply repeat_spec in Q; congruence. }
  unfold roles in A, B.
  do 5 (destruct i as [|i]; [do 5 (destruct j as [|j]; [cbn in A, B; congruence|]); cbn in B; now apply T in B|]).
  cbn in A. now apply T in A.
Qed.

Lemma about_allowed : forall rs c i t f w, cinv rs c -> nth_error c i = Some t -> about t = Some (f, w) ->
  allowed (t_role t) f w (t_held t) = true.
Proof.
  intros rs c i t f w I E A. pose proof (ci_wt _ _ I i t E) as W. unfold about in A.
  destruct (t_code t) as [|o k]; [discriminate|]. destruct o; try discriminate; injection A as <- <-; now inversion W.
Qed.

Lemma races_inv : forall n m c f r1 w1 r2 w2, cinv (roles n m) c -> race c f r1 w1 r2 w2 ->
  known_race f r1 w1 r2 w2 \/ known_race f r2 w2 r1 w1.
Proof.
  intros n m c f r1 w1 r2 w2 I (i & j & t1 & t2 & N & E1 & E2 & <- & <- & A1 & A2 & W).
  pose proof (about_allowed _ _ _ _ _ _ I E1 A1) as P1. pose proof (about_allowed _ _ _ _ _ _ I E2 A2) as P2.
  assert (X1 : forall k, holds_x k (t_held t1) = true -> holds k (t_held t2) = true -> False).
  { intros k A B. rewrite (ci_ex _ _ I i j t1 t2 k) in B; auto. discriminate. }
  assert (X2 : forall k, holds_x k (t_held t2) = true -> holds k (t_held t1) = true -> False).
  { intros k A B. rewrite (ci_ex _ _ I j i t2 t1 k) in B; auto. discriminate. }
  assert (U : forall r, r <> RHandler -> r <> ROutside -> t_role t1 = r -> t_role t2 = r -> False).
  { intros r Q1 Q2 A B. apply N. apply (roles_unique n m r); auto; rewrite <- (ci_roles _ _ I), nth_error_map.
    - rewrite E1. cbn. congruence.
    - rewrite E2. cbn. congruence. }
  clear A1 A2 E1 E2 I N.
  assert (Ux : forall k, holds_x k (t_held t1) = true -> holds_x k (t_held t2) = true -> False) by (intros k A B; eapply X1; eauto using x_holds).
  assert (V : forall r, r <> RHandler -> r <> ROutside -> role_eqb (t_role t1) r = true -> role_eqb (t_role t2) r = true -> False).
  { intros r Q1 Q2 A B. apply role_eqb_eq in A, B. eauto. }
  destruct f; cbn [allowed known_race] in *;
    try (exfalso; first [exact (Ux _ P1 P2) | apply (V RControl); [discriminate|discriminate|exact P1|exact P2]
      | apply (V RIo); [discriminate|discriminate|exact P1|exact P2] | apply (V RCurl); [discriminate|discriminate|exact P1|exact P2]
      | apply (V RSql); [discriminate|discriminate|exact P1|exact P2] | apply (V RMail); [discriminate|discriminate|exact P1|exact P2]]).
  - (* m_requests *) destruct w1, w2; try discriminate; exfalso; eauto using x_holds.
  - (* m_stop *)
    apply orb_true_iff in P1, P2. destruct P1 as [P1|P1], P2 as [P2|P2]; try (exfalso; exact (Ux _ P1 P2)).
    + apply andb_true_iff in P2 as [Q1 Q2]. destruct w2; [discriminate|]. rewrite orb_false_r in W. subst w1.
      apply role_eqb_eq in Q1. right. repeat split; auto. intro Z. apply (U RControl); auto; discriminate.
    + apply andb_true_iff in P1 as [Q1 Q2]. destruct w1; [discriminate|]. cbn in W. subst w2.
      apply role_eqb_eq in Q1. left. repeat split; auto. intro Z. apply (U RControl); auto; discriminate.
    + apply andb_true_iff in P1 as [Q1 _], P2 as [Q2 _]. exfalso. apply (V RControl); auto; discriminate.
  - (* m_sendBuffer *)
    apply orb_true_iff in P1, P2. destruct P1 as [P1|P1], P2 as [P2|P2]; try (exfalso; exact (Ux _ P1 P2)).
    + apply andb_true_iff in P2 as [Q1 Q2]. destruct w2; [discriminate|]. rewrite orb_false_r in W. subst w1.
      apply role_eqb_eq in Q1. right. repeat split; auto. intro Z. apply (U RIo); auto; discriminate.
    + apply andb_true_iff in P1 as [Q1 Q2]. destruct w1; [discriminate|]. cbn in W. subst w2.
      apply role_eqb_eq in Q1. left. repeat split; auto. intro Z. apply (U RIo); auto; discriminate.
    + apply andb_true_iff in P1 as [Q1 _], P2 as [Q2 _]. exfalso. apply (V RIo); auto; discriminate.
  - (* m_listeners *)
    destruct w1, w2; try discriminate.
    + exfalso. apply (V RControl); auto; discriminate.
    + apply orb_true_iff in P2 as [P2|P2]; [|exfalso; apply (V RControl); auto; discriminate].
      apply role_eqb_eq in P1, P2. auto.
    + apply orb_true_iff in P1 as [P1|P1]; [|exfalso; apply (V RControl); auto; discriminate].
      apply role_eqb_eq in P1, P2. auto.
  - (* m_valid *)
    apply orb_true_iff in P1, P2. destruct P1 as [P1|P1], P2 as [P2|P2].
    + exfalso. apply (V RIo); auto; discriminate.
    + apply andb_true_iff in P2 as [Q1 Q2]. destruct w2; [discriminate|]. rewrite orb_false_r in W. subst w1.
      apply role_eqb_eq in P1, Q1. auto.
    + apply andb_true_iff in P1 as [Q1 Q2]. destruct w1; [discriminate|]. cbn in W. subst w2.
      apply role_eqb_eq in P2, Q1. auto.
    + apply andb_true_iff in P1 as [_ Q1], P2 as [_ Q2]. destruct w1, w2; discriminate.
  - (* m_waking of the curler *)
    apply orb_true_iff in P1, P2. destruct P1 as [P1|P1], P2 as [P2|P2]; try (exfalso; exact (Ux _ P1 P2)).
    + apply role_eqb_eq in P2. right. split; [exact P2|]. intro Z. apply (U RControl); auto; discriminate.
    + apply role_eqb_eq in P1. left. split; [exact P1|]. intro Z. apply (U RControl); auto; discriminate.
    + exfalso. apply (V RControl); auto; discriminate.
  - (* m_queue of the connection *)
    apply orb_true_iff in P1, P2. destruct P1 as [P1|P1], P2 as [P2|P2]; try (exfalso; exact (Ux _ P1 P2)).
    + apply andb_true_iff in P2 as [Q1 Q2]. destruct w2; [discriminate|]. rewrite orb_false_r in W. subst w1.
      apply role_eqb_eq in Q1. right. repeat split; auto. intro Z. apply (U RSql); auto; discriminate.
    + apply andb_true_iff in P1 as [Q1 Q2]. destruct w1; [discriminate|]. cbn in W. subst w2.
      apply role_eqb_eq in Q1. left. repeat split; auto. intro Z. apply (U RSql); auto; discriminate.
    + apply andb_true_iff in P1 as [Q1 _], P2 as [Q2 _]. exfalso. apply (V RSql); auto; discriminate.
  - (* m_connections *)
    destruct w1, w2; try discriminate; cbn [negb] in P1, P2; try rewrite orb_false_r in P1; try rewrite orb_false_r in P2.
    + exfalso. apply (V RSql); auto; discriminate.
    + left. apply role_eqb_eq in P1. repeat split; auto. intro Z. apply (U RSql); auto; discriminate.
    + right. apply role_eqb_eq in P2. repeat split; auto. intro Z. apply (U RSql); auto; discriminate.
Qed.

Lemma races : forall c f r1 w1 r2 w2, treach c -> race c f r1 w1 r2 w2 ->
  known_race f r1 w1 r2 w2 \/ known_race f r2 w2 r1 w1.
Proof. intros c f r1 w1 r2 w2 R. destruct (treach_inv c R) as (n & m & I). exact (races_inv n m c f r1 w1 r2 w2 I). Qed.
Lemma no_race : forall c f r1 w1 r2 w2, safe f = true -> treach c -> ~ race c f r1 w1 r2 w2.
Proof.
  intros c f r1 w1 r2 w2 S R H. destruct (races c f r1 w1 r2 w2 R H) as [K|K]; destruct f; try discriminate; exact K.
Qed.

(** The locks themselves. *)
Lemma disciplined_inv : forall rs c i t, cinv rs c -> nth_error c i = Some t ->
  (forall m, about_lock t = Some m -> holds m (t_held t) = false)
  /\ (forall m, about_unlock t = Some m -> holds m (t_held t) = true)
  /\ (t_code t = [] -> t_held t = []).
Proof.
  intros rs c i t I E. pose proof (ci_wt _ _ I i t E) as W.
  unfold about_lock, about_unlock. split; [|split].
  - intros k H. destruct (t_code t) as [|o l]; [discriminate|]. destruct o; try discriminate; injection H as <-; now inversion W.
  - intros k H. destruct (t_code t) as [|o l]; [discriminate|]. destruct o; try discriminate; injection H as <-; now inversion W.
  - intro H. rewrite H in W. now inversion W.
Qed.
Lemma disciplined : forall c i t, treach c -> nth_error c i = Some t ->
  (forall m, about_lock t = Some m -> holds m (t_held t) = false)
  /\ (forall m, about_unlock t = Some m -> holds m (t_held t) = true)
  /\ (t_code t = [] -> t_held t = []).
Proof. intros c i t R. destruct (treach_inv c R) as (n & m & I). exact (disciplined_inv _ c i t I). Qed.

(** ** No deadlock. *)
Lemma rank_bound : forall m, rank m <= 6.
Proof. destruct m; cbn; lia. Qed.
Lemma blocked_below : forall r h k m, wt r h k [] -> blocked_on (mkT r h k) = Some m -> below m h = true /\ holds m h = false.
Proof.
  intros r h k m W B. unfold blocked_on in B. cbn in B. destruct k as [|o k]; [discriminate|].
  destruct o; try discriminate; injection B as <-; inversion W; auto.
Qed.
Lemma holds_in : forall m h, holds m h = true -> exists x, In (m, x) h.
Proof.
  intros m h H. apply existsb_exists in H as ([n x] & A & B). cbn in B. apply mutex_eqb_eq in B. subst. eauto.
Qed.
Lemma wt_done : forall r h, wt r h [] [] -> h = [].
Proof. intros r h W. now inversion W. Qed.

Lemma waits_rank : forall rs c i j m t u n, cinv rs c -> nth_error c i = Some t -> nth_error c j = Some u -> blocked_on t = Some m ->
  holds m (t_held u) = true -> blocked_on u = Some n -> rank m < rank n.
Proof.
  intros rs c i j m t u n I E1 E2 B H B2. pose proof (ci_wt _ _ I j u E2) as W.
  destruct u as [r h k]. cbn in *. apply (blocked_below r h k n W) in B2 as [B2 _].
  apply holds_in in H as [x H]. unfold below in B2. rewrite forallb_forall in B2. specialize (B2 _ H).
  now apply Nat.ltb_lt in B2.
Qed.

(** Either nobody holds what [t] is about to take or somebody in [c] does. *)
Lemma held_dec : forall (c : list thread) m, {j & {u | nth_error c j = Some u /\ holds m (t_held u) = true}} + {forall j u, nth_error c j = Some u -> holds m (t_held u) = false}.
Proof.
  induction c as [|t c IH]; intro m; [right; intros [|j] u H; discriminate|].
  destruct (holds m (t_held t)) eqn:E; [left; exists 0, t; auto|].
  destruct (IH m) as [(j & u & A & B)|N]; [left; exists (S j), u; auto|].
  right. intros [|j] u H; [injection H as <-; exact E|now apply (N j)].
Qed.
Lemma none_exists : forall (p : thread -> bool) c, (forall j u, nth_error c j = Some u -> p u = false) -> existsb p c = false.
Proof.
  intros p c H. destruct (existsb p c) eqn:E; [|reflexivity]. apply existsb_exists in E as (u & A & B).
  apply In_nth_error in A as [j A]. rewrite (H j u A) in B. discriminate.
Qed.
Lemma goes : forall rs c i t, cinv rs c -> nth_error c i = Some t -> t_code t <> [] ->
  (forall m, blocked_on t = Some m -> forall j u, nth_error c j = Some u -> holds m (t_held u) = false) -> free_to_go c i.
Proof.
  intros rs c i t I E N F. split.
  - intros k (t' & u & m & E' & K & B & H). assert (t' = t) by congruence. subst t'. rewrite (F m B k u K) in H. discriminate.
  - unfold tstep. rewrite E. pose proof (ci_wt _ _ I i t E) as W. unfold blocked_on in F.
    destruct (t_code t) as [|o k]; [congruence|]. destruct o.
    + exists 0. rewrite none_exists; [eauto|]. now apply F.
    + exists 0. rewrite none_exists; [eauto|]. intros j u H. specialize (F m eq_refl j u H).
      destruct (holds_x m (t_held u)) eqn:Q; [|reflexivity]. apply x_holds in Q. congruence.
    + exists 0. eauto.
    + exists 0. rewrite orb_true_r. eauto.
    + exists 0. eauto.
    + exists 0. eauto.
    + exists 0. inversion W; subst. destruct bs as [|b bs]; [congruence|]. cbn. eauto.
    + exists 0. eauto.
    + exists 0. cbn [Nat.eqb]. eauto.
Qed.

Lemma no_deadlock_aux : forall n rs c i t, cinv rs c -> nth_error c i = Some t -> t_code t <> [] ->
  (forall m, blocked_on t = Some m -> 6 - rank m < n) -> free_to_go c i \/ exists j, waits_chain c i j /\ free_to_go c j.
Proof.
  induction n as [|n IH]; intros rs c i t I E N R; destruct (blocked_on t) as [m|] eqn:B;
    try (left; apply (goes rs c i t I E N); intros m' B'; congruence).
  - specialize (R m eq_refl). lia.
  - destruct (held_dec c m) as [(j & u & A & H)|F].
    2:{ left. apply (goes rs c i t I E N). intros m' B'. assert (m' = m) by congruence. subst. exact F. }
    right. assert (W : waits_for c i j) by (exists t, u, m; auto).
    destruct (IH rs c j u I A) as [G|(k & C & G)].
    + intro Z. pose proof (ci_wt _ _ I j u A) as Q. rewrite Z in Q. apply wt_done in Q. rewrite Q in H. discriminate.
    + intros m' B'. pose proof (waits_rank rs c i j m t u m' I E A B H B'). specialize (R m eq_refl). pose proof (rank_bound m'). lia.
    + exists j. split; [now apply chain_one|exact G].
    + exists k. split; [eapply chain_more; eauto|exact G].
Qed.
Lemma no_deadlock_inv : forall rs c i t, cinv rs c -> nth_error c i = Some t -> t_code t <> [] ->
  free_to_go c i \/ exists j, waits_chain c i j /\ free_to_go c j.
Proof. intros rs c i t I E N. apply (no_deadlock_aux 7 _ c i t I E N). intros. lia. Qed.
Lemma no_deadlock : forall c i t, treach c -> nth_error c i = Some t -> t_code t <> [] ->
  free_to_go c i \/ exists j, waits_chain c i j /\ free_to_go c j.
Proof. intros c i t R. destruct (treach_inv c R) as (a & b & I). exact (no_deadlock_inv _ c i t I). Qed.
Lemma no_cycle_inv : forall rs c i, cinv rs c -> ~ waits_chain c i i.
Proof.
  intros rs c i I H.
  assert (G : forall x y, waits_chain c x y -> forall t u m n, nth_error c x = Some t -> nth_error c y = Some u ->
     blocked_on t = Some m -> blocked_on u = Some n -> rank m < rank n).
  { induction 1 as [x y W|x y z W C IH]; intros t u m n E1 E2 B1 B2.
    - destruct W as (t' & u' & m' & F1 & F2 & F3 & F4). assert (t' = t) by congruence. assert (u' = u) by congruence. subst.
      assert (m' = m) by congruence. subst. exact (waits_rank _ c x y m t u n I F1 F2 F3 F4 B2).
    - destruct W as (t' & u' & m' & F1 & F2 & F3 & F4). assert (t' = t) by congruence. subst.
      assert (m' = m) by congruence. subst.
      assert (exists v k, nth_error c y = Some v /\ blocked_on v = Some k) as (v & k & V1 & V2).
      { inversion C as [? ? W|? ? ? W]; subst; destruct W as (v & ? & k & ? & ? & ? & ?); eauto. }
      assert (v = u') by congruence. subst. pose proof (waits_rank _ c x y m t u' k I F1 F2 B1 F4 V2). specialize (IH _ _ _ _ V1 E2 V2 B2). lia. }
  assert (exists v k, nth_error c i = Some v /\ blocked_on v = Some k) as (v & k & V1 & V2).
  { inversion H as [? ? W|? ? ? W]; subst; destruct W as (v & ? & k & ? & ? & ? & ?); eauto. }
  specialize (G i i H v v k k V1 V1 V2 V2). lia.
Qed.
Lemma no_cycle : forall c i, treach c -> ~ waits_chain c i i.
Proof. intros c i R. destruct (treach_inv c R) as (a & b & I). exact (no_cycle_inv _ c i I). Qed.

(** ** The races that are there. *)
Definition at_thread (i : nat) (l : list nat) : list (nat * nat) := map (pair i) l.
Definition handler_in : list nat := [0;0;0;0;0;1;0;0;1;0;0].
Definition sched_send := at_thread 5 (handler_in ++ [0;0;0;0;1;0]) ++ at_thread 0 [0;1;0;0;0;0].
Definition sched_stop := at_thread 1 [1;4] ++ at_thread 6 [1;0;0].
Definition sched_valid := at_thread 5 (handler_in ++ [1;0;0;1;0;1;0;0;0;0;0;0]) ++ at_thread 0 [0;1;0;0;0;1;0;0;1;0;0;1;0;1;0;0;0;0;0;1;0].
Definition sched_listeners := at_thread 1 [1;5;0;0;0] ++ at_thread 0 [0;1;1].
Definition sched_curl := at_thread 1 [1;7;0;1] ++ at_thread 2 [0;0;0;1;0;0;0;0;0;0;0].
Definition sched_sql_queue := at_thread 3 [0;0;0;0;0;0] ++ at_thread 6 [1;4;0;1;0].
Definition sched_sql_conns := at_thread 3 [0;0;0;0;0;0;0;1;0;1;0] ++ at_thread 6 [1;4].
Definition final (l : list (nat * nat)) : list thread := match trun l (t_init 1 1) with Some c => c | None => [] end.

Lemma final_reach : forall l, final l <> [] -> treach (final l).
Proof.
  intros l H. exists 1, 1, l. unfold final in *. destruct (trun l (t_init 1 1)); congruence.
Qed.
Ltac race_at l i j := exists (final l); split; [apply final_reach; vm_compute; discriminate|];
  exists i, j; eexists; eexists; split; [discriminate|]; split; [vm_compute; reflexivity|]; split; [vm_compute; reflexivity|];
  split; [reflexivity|]; split; [reflexivity|]; split; [reflexivity|]; split; reflexivity.
Lemma race_send : exists c, treach c /\ race c FSend RIo false RHandler true.
Proof. race_at sched_send 0 5. Qed.
Lemma race_stop : exists c, treach c /\ race c FStop RControl false ROutside true.
Proof. race_at sched_stop 1 6. Qed.
Lemma race_valid : exists c, treach c /\ race c (FValid 0) RIo true RHandler false.
Proof. race_at sched_valid 0 5. Qed.
Lemma race_listeners : exists c, treach c /\ race c FListeners RControl true RIo false.
Proof. race_at sched_listeners 1 0. Qed.
Lemma race_curl : exists c, treach c /\ race c FcWaking RControl true RCurl true.
Proof. race_at sched_curl 1 2. Qed.
Lemma race_sql_queue : exists c, treach c /\ race c FsQueue RSql false ROutside true.
Proof. race_at sched_sql_queue 3 6. Qed.
Lemma race_sql_connections : exists c, treach c /\ race c FsConns RSql true ROutside false.
Proof. race_at sched_sql_conns 3 6. Qed.
