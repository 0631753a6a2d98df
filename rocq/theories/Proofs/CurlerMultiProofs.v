(** Proofs for C88. *)
From Coq Require Import List Bool Arith ZArith Lia.
From Verif Require Import Model.Curler Model.CurlerMulti Spec.CurlerMultiSpec.
Import ListNotations.

Definition countn (c : nat) (l : list nat) : nat := length (filter (Nat.eqb c) l).

Lemma countn_app c a b : countn c (a ++ b) = countn c a + countn c b.
Proof. unfold countn. now rewrite filter_app, app_length. Qed.
Lemma times_app e a b : times e (a ++ b) = times e a + times e b.
Proof. unfold times. now rewrite filter_app, app_length. Qed.
Lemma countn_in c l : In c l <-> 0 < countn c l.
Proof.
  unfold countn. induction l as [|x l IH]; cbn; [split; [tauto|lia]|].
  destruct (Nat.eqb_spec c x) as [->|N]; cbn.
  - split; [lia|now left].
  - rewrite <- IH. split; [intros [E|I]; [congruence|exact I]|now right].
Qed.
Lemma memb_in c l : memb c l = true <-> In c l.
Proof.
  unfold memb. rewrite existsb_exists. split.
  - intros (x & I & E). apply Nat.eqb_eq in E. now subst.
  - intros I. exists c. split; [exact I|apply Nat.eqb_refl].
Qed.
Lemma nodupb_NoDup l : nodupb l = true <-> NoDup l.
Proof.
  induction l as [|x l IH]; cbn [nodupb]; [split; [constructor|reflexivity]|].
  rewrite andb_true_iff, negb_true_iff, IH. split.
  - intros [A B]. constructor; [|exact B]. intros I. apply memb_in in I. congruence.
  - intros N. inversion_clear N. split; [|assumption]. destruct (memb x l) eqn:E; [|reflexivity]. now apply memb_in in E.
Qed.
Lemma countn_nodup c l : NoDup l -> countn c l <= 1.
Proof.
  unfold countn. induction 1 as [|x l I N IH]; cbn; [lia|]. destruct (Nat.eqb_spec c x) as [->|D]; [|exact IH].
  cbn. enough (countn x l = 0) by (unfold countn in *; lia).
  destruct (countn x l) eqn:E; [reflexivity|]. exfalso. apply I, countn_in. lia.
Qed.

(** Events of one kind leave the others' counts alone. *)
Lemma times_map {A} e (f : A -> uev) l : (forall x, e (f x) = false) -> times e (map f l) = 0.
Proof. intros H. unfold times. induction l as [|x l IH]; cbn; [reflexivity|]. rewrite H. exact IH. Qed.
Lemma times_done c first l : times (is_done c) (map (VDone first) l) = countn c l.
Proof. unfold times, countn. induction l as [|x l IH]; cbn; [reflexivity|]. destruct (c =? x); cbn; now rewrite IH. Qed.
Lemma times_start c l : times (is_start c) (map VStart l) = countn c l.
Proof. unfold times, countn. induction l as [|x l IH]; cbn; [reflexivity|]. destruct (c =? x); cbn; now rewrite IH. Qed.

(** The messages and transfers, counted. *)
Definition kept (s : ust) : Prop :=
  u_count s = length (u_live s)
  /\ (forall c, countn c (u_live s) <= 1)
  /\ (forall c, times (is_done c) (u_log s) = times (is_call c) (u_log s) + countn c (u_msgs s))
  /\ (forall c, times (is_start c) (u_log s) = times (is_done c) (u_log s) + countn c (u_live s))
  /\ (forall c, countn c (u_handles s) = countn c (u_live s) + countn c (u_msgs s)).

Lemma filter_out c d l : countn c (filter (fun x => negb (memb x d)) l) = if memb c d then 0 else countn c l.
Proof.
  unfold countn. induction l as [|x l IH]; cbn; [now destruct (memb c d)|].
  destruct (memb x d) eqn:E; cbn; [|destruct (c =? x) eqn:F; cbn; rewrite IH].
  - rewrite IH. destruct (Nat.eqb_spec c x) as [->|N]; [now rewrite E|reflexivity].
  - apply Nat.eqb_eq in F. subst. now rewrite E.
  - reflexivity.
Qed.

(** What holds of the state inside a call of libcurl but for [handles]. *)
Definition kept' (s : ust) : Prop :=
  (forall c, countn c (u_live s) <= 1)
  /\ (forall c, times (is_done c) (u_log s) = times (is_call c) (u_log s) + countn c (u_msgs s))
  /\ (forall c, times (is_start c) (u_log s) = times (is_done c) (u_log s) + countn c (u_live s))
  /\ (forall c, countn c (u_handles s) = countn c (u_live s) + countn c (u_msgs s)).

Lemma acts_kept first r s s' : acts first r s = Some s' -> kept' s -> kept s'.
Proof.
  unfold acts. destruct (nodupb (r_done r) && _) eqn:E; [|discriminate]. intros P; injection P as <-. intros (L & M & S & H).
  apply andb_prop in E. destruct E as [N F]. apply nodupb_NoDup in N. rewrite forallb_forall in F.
  assert (D : forall c, countn c (filter (fun x => negb (memb x (r_done r))) (u_live s)) + countn c (r_done r) = countn c (u_live s)).
  { intros c. rewrite filter_out. destruct (memb c (r_done r)) eqn:E.
    - apply memb_in in E. pose proof (F c E) as G. apply memb_in in G. apply countn_in in G, E.
      pose proof (L c). pose proof (countn_nodup c _ N). lia.
    - destruct (countn c (r_done r)) eqn:G; [lia|]. assert (In c (r_done r)) as I by (apply countn_in; lia). apply memb_in in I. congruence. }
  unfold kept; cbn [u_count u_live u_msgs u_log u_handles]. split; [reflexivity|]. split; [|split; [|split]]; intros c; specialize (D c).
  - specialize (L c). lia.
  - rewrite !times_app, !(times_map _ (fun x => VAsk _ _)), times_done, (times_map (is_call c)), countn_app by reflexivity. specialize (M c). lia.
  - rewrite !times_app, !(times_map _ (fun x => VAsk _ _)), times_done, (times_map (is_start c)) by reflexivity. specialize (S c). lia.
  - rewrite countn_app. specialize (H c). lia.
Qed.

Lemma start_news conc q : forall r e q' r' e', start_some conc q r e = Some (q', r', e') ->
  exists d, e' = e ++ map EStarted d /\ r' = r ++ d /\ q = d ++ q' /\ NoDup d /\ forall c, In c d -> ~ In c r.
Proof.
  induction q as [|c q IH]; cbn [start_some]; intros r e q' r' e' P.
  - exists []. injection P as <- <- <-. rewrite !app_nil_r. repeat split; [constructor|intros ? []].
  - destruct (length r <? conc).
    + destruct (memb c r) eqn:E; [discriminate|]. destruct (IH _ _ _ _ _ P) as (d & -> & -> & -> & N & D).
      exists (c :: d). cbn. rewrite <- !app_assoc. repeat split.
      * constructor; [|exact N]. intros I. apply (D c I), in_app_iff. right. now left.
      * intros x [<-|I]; [intros I; apply memb_in in I; congruence|]. intros J. apply (D x I), in_app_iff. now left.
    + injection P as <- <- <-. exists []. rewrite !app_nil_r. repeat split; [constructor|intros ? []].
Qed.
Lemma news_started d : news (map EStarted d) = d.
Proof. induction d as [|c d IH]; cbn; [reflexivity|]. unfold news in IH. now rewrite IH. Qed.

Lemma countn_remb c x l : In x l -> countn c (remb x l) + (if c =? x then 1 else 0) = countn c l.
Proof.
  unfold countn. induction l as [|y l IH]; cbn; [intros []|]. destruct (Nat.eqb_spec x y) as [->|N].
  - intros _. destruct (c =? y); cbn; lia.
  - intros [E|I]; [congruence|]. specialize (IH I). cbn. destruct (c =? y); cbn; lia.
Qed.

Lemma kept_step conc a s s' : ustep conc a s = Some s' -> kept s -> kept s'.
Proof.
  intros P K. destruct a as [i|c| |]; cbn [ustep] in P; try (injection P as <-; exact K).
  unfold thread in P. destruct (u_pc s) eqn:E.
  - destruct (u_term s || _); [injection P as <-; exact K|].
    destruct (negb (empty (u_queue s)) && _) eqn:G; [|injection P as <-; exact K].
    destruct (start_some conc (u_queue s) (u_handles s) []) as [[[q h] e]|] eqn:T; [|injection P as <-; exact K].
    destruct i; try discriminate. apply acts_kept in P; [exact P|].
    destruct (start_news _ _ _ _ _ _ _ T) as (d & -> & -> & Q & N & D). cbn [app] in *. rewrite news_started.
    destruct K as (_ & L & M & S & H). unfold kept'; cbn [u_live u_msgs u_log u_handles]. split; [|split; [|split]]; intros c.
    + rewrite countn_app. specialize (L c). specialize (H c). pose proof (countn_nodup c d N).
      destruct (countn c d) eqn:F; [lia|]. assert (I : In c d) by (apply countn_in; lia). specialize (D c I).
      assert (countn c (u_handles s) = 0); [|lia]. destruct (countn c (u_handles s)) eqn:F'; [reflexivity|]. exfalso. apply D, countn_in. lia.
    + rewrite !times_app, !(times_map _ VStart) by reflexivity. specialize (M c). lia.
    + rewrite !times_app, times_start, (times_map _ VStart), countn_app by reflexivity. specialize (S c). lia.
    + rewrite !countn_app. specialize (H c). lia.
  - destruct i; try discriminate.
    + destruct (u_woken s); [|discriminate]. injection P as <-. exact K.
    + destruct (existsb _ _ && _); [|discriminate]. injection P as <-. exact K.
    + destruct (u_count s =? 0); [discriminate|]. injection P as <-. exact K.
    + injection P as <-. exact K.
  - destruct i; try discriminate. apply acts_kept in P; [exact P|]. destruct K as (_ & L & M & S & H).
    unfold kept'; cbn [u_live u_msgs u_log u_handles]. split; [exact L|]. split; [|split; [|exact H]]; intros c; rewrite !times_app; cbn; rewrite !Nat.add_0_r; auto.
  - destruct i; try discriminate. destruct (r_done r); [|discriminate]. destruct (u_msgs s) as [|c m] eqn:F; [injection P as <-; exact K|].
    destruct (memb c (u_handles s)) eqn:G; [|injection P as <-; exact K]. injection P as <-. apply memb_in in G.
    destruct K as (C & L & M & S & H). unfold kept; cbn [u_count u_live u_msgs u_log u_handles]. rewrite F in *.
    split; [exact C|]. split; [exact L|]. split; [|split]; intros x; specialize (M x); specialize (S x); specialize (H x).
    + rewrite !times_app, !(times_map _ (fun y => VAsk _ _)) by reflexivity. cbn in *. unfold countn, times in *. cbn in M. destruct (x =? c); cbn in *; lia.
    + rewrite !times_app, !(times_map _ (fun y => VAsk _ _)) by reflexivity. cbn in *. lia.
    + pose proof (countn_remb x c _ G) as R. unfold countn in *. cbn in H. destruct (x =? c); cbn in *; lia.
  - destruct i; discriminate.
  - destruct i; discriminate.
Qed.

Lemma exec_app conc a : forall b s, uexec conc (a ++ b) s = match uexec conc a s with Some s' => uexec conc b s' | None => None end.
Proof. induction a as [|x a IH]; cbn; intros b s; [reflexivity|]. destruct (ustep conc x s); [apply IH|reflexivity]. Qed.

Lemma exec_inv conc (P : ust -> Prop) (A : uact -> Prop) : (forall a s s', A a -> ustep conc a s = Some s' -> P s -> P s') ->
  forall l s s', Forall A l -> uexec conc l s = Some s' -> P s -> P s'.
Proof.
  intros H l. induction l as [|a l IH]; cbn; intros s s' F E I; [injection E as <-; exact I|].
  inversion_clear F. destruct (ustep conc a s) as [s1|] eqn:S; [|discriminate]. apply (IH s1 s'); auto. eauto.
Qed.
Lemma all_true {A} (l : list A) : Forall (fun _ => True) l.
Proof. apply Forall_forall. auto. Qed.

Lemma reach_kept conc s : ureachable conc s -> kept s.
Proof.
  intros [l E]. apply (exec_inv conc kept (fun _ => True)) with (l := l) (s := u_init); auto using all_true; [eauto using kept_step|].
  unfold kept. cbn. repeat split; auto. 
Qed.

(** Once for each time. *)
Lemma sound conc s : ureachable conc s -> forall c,
  times (is_call c) (u_log s) <= times (is_done c) (u_log s) /\ times (is_done c) (u_log s) <= times (is_start c) (u_log s).
Proof. intros R c. destruct (reach_kept conc s R) as (_ & _ & M & S & _). specialize (M c). specialize (S c). lia. Qed.

Lemma limit conc s : ureachable conc s -> u_pc s = UPoll ->
  (exists j s', ustep conc (UThread (ITimeout j)) s = Some s') <-> exists c, running c (u_log s).
Proof.
  intros R E. destruct (reach_kept conc s R) as (C & _ & _ & S & _). unfold running. cbn. unfold thread. rewrite E, C. split.
  - intros (j & s' & P). destruct (u_live s) as [|c l] eqn:L; [discriminate|]. exists c. rewrite S.
    assert (0 < countn c (c :: l)) by (apply countn_in; now left). lia.
  - intros (c & P). rewrite S in P. assert (I : In c (u_live s)) by (apply countn_in; lia). destruct (u_live s); [destruct I|]. cbn.
    exists 0%Z. eexists. reflexivity.
Qed.

(** Messages. *)
Lemma split_in {A} : forall (l t a b : list A) x, l ++ t = a ++ x :: b -> (exists b', l = a ++ x :: b' /\ b = b' ++ t) \/ In x t.
Proof.
  induction l as [|y l IH]; cbn; intros t a b x E.
  - right. rewrite E. apply in_app_iff. right. now left.
  - destruct a as [|z a]; cbn in E.
    + injection E as -> E. left. exists l. now split.
    + injection E as -> E. destruct (IH _ _ _ _ E) as [(b' & -> & ->)|I]; [|now right]. left. exists b'. now split.
Qed.

Definition due (c : nat) (l : list uev) : Prop :=
  In (VDone false c) l \/ exists a j b, l = a ++ VAct j :: b /\ In (VDone true c) a.
Definition told (s : ust) : Prop := u_pc s <> UMsgs -> forall c, due c (u_log s) -> In (VCall c) (u_log s).

Lemma in_times_done c l : (exists f, In (VDone f c) l) <-> 0 < times (is_done c) l.
Proof.
  unfold times. induction l as [|x l IH]; cbn; [split; [intros [f []]|lia]|]. destruct (is_done c x) eqn:E; cbn.
  - split; [lia|]. intros _. destruct x; try discriminate. cbn in E. apply Nat.eqb_eq in E. subst. exists first. now left.
  - rewrite <- IH. split; intros [f I]; exists f; [|now right]. destruct I as [->|I]; [cbn in E; rewrite Nat.eqb_refl in E; discriminate|exact I].
Qed.
Lemma in_times_call c l : In (VCall c) l <-> 0 < times (is_call c) l.
Proof.
  unfold times. induction l as [|x l IH]; cbn; [split; [intros []|lia]|]. destruct (is_call c x) eqn:E; cbn.
  - split; [lia|]. intros _. destruct x; try discriminate. cbn in E. apply Nat.eqb_eq in E. subst. now left.
  - rewrite <- IH. split; [|now right]. intros [->|I]; [cbn in E; rewrite Nat.eqb_refl in E; discriminate|exact I].
Qed.
Lemma due_done c l : due c l -> exists f, In (VDone f c) l.
Proof. intros [I|(a & j & b & -> & I)]; [now exists false|]. exists true. apply in_app_iff. now left. Qed.

Definition first_only (e : uev) : Prop := match e with VAct _ | VDone false _ => False | _ => True end.
Lemma due_app c l t : Forall first_only t -> due c (l ++ t) -> due c l.
Proof.
  intros F [I|(a & j & b & E & I)].
  - apply in_app_iff in I. destruct I as [I|I]; [now left|]. rewrite Forall_forall in F. destruct (F _ I).
  - destruct (split_in _ _ _ _ _ E) as [(b' & -> & _)|J]; [right; now exists a, j, b'|]. rewrite Forall_forall in F. destruct (F _ J).
Qed.

Lemma told_step conc a s s' : ustep conc a s = Some s' -> kept s -> told s -> told s'.
Proof.
  intros P K T. destruct a as [i|c| |]; cbn [ustep] in P; try (injection P as <-; exact T).
  unfold thread in P. unfold told in *. destruct (u_pc s) eqn:E.
  - destruct (u_term s || _); [injection P as <-; cbn; intros _; apply T; discriminate|].
    destruct (negb (empty (u_queue s)) && _) eqn:G; [|injection P as <-; cbn; intros _; apply T; discriminate].
    destruct (start_some conc (u_queue s) (u_handles s) []) as [[[q h] e]|] eqn:W; [|injection P as <-; cbn; intros _; apply T; discriminate].
    destruct i; try discriminate. unfold acts in P. destruct (nodupb _ && _); [|discriminate]. injection P as <-. cbn [u_pc u_log].
    intros _ c D. rewrite <- app_assoc in D |- *. apply due_app in D.
    + apply in_app_iff. left. apply T; [discriminate|exact D].
    + rewrite !Forall_app. repeat split; apply Forall_forall; intros x I; apply in_map_iff in I; destruct I as (y & <- & _); exact I.
  - destruct i; try discriminate.
    + destruct (u_woken s); [|discriminate]. injection P as <-. intros _. apply T; discriminate.
    + destruct (existsb _ _ && _); [|discriminate]. injection P as <-. intros _. apply T; discriminate.
    + destruct (u_count s =? 0); [discriminate|]. injection P as <-. intros _. apply T; discriminate.
    + injection P as <-. intros _. apply T; discriminate.
  - destruct i; try discriminate. unfold acts in P. destruct (nodupb _ && _); [|discriminate]. injection P as <-. cbn. congruence.
  - destruct i; try discriminate. destruct (r_done r); [|discriminate]. destruct (u_msgs s) as [|c m] eqn:F.
    + injection P as <-. cbn. intros _ c D. apply due_done in D. apply in_times_done in D. apply in_times_call.
      destruct K as (_ & _ & M & _). specialize (M c). rewrite F in M. cbn in M. lia.
    + destruct (memb c (u_handles s)) eqn:G; [injection P as <-; cbn; congruence|]. injection P as <-.
      exfalso. destruct K as (_ & _ & _ & _ & H). specialize (H c). rewrite F in H. unfold countn at 3 in H. cbn in H. rewrite Nat.eqb_refl in H. cbn in H.
      assert (I : In c (u_handles s)) by (apply countn_in; lia). apply memb_in in I. congruence.
  - destruct i; discriminate.
  - destruct i; discriminate.
Qed.

Lemma reach_told conc s : ureachable conc s -> told s.
Proof.
  intros [l E]. enough (kept s /\ told s) by tauto.
  apply (exec_inv conc (fun s => kept s /\ told s) (fun _ => True)) with (l := l) (s := u_init); auto using all_true.
  - intros a x x' _ P [K T]. split; [eauto using kept_step|eauto using told_step].
  - split; [unfold kept; cbn; repeat split; auto|]. intros _ c [[]|(a & j & b & Z & I)]. destruct a; discriminate.
Qed.

Lemma called_later conc s c : ureachable conc s -> between s -> In (VDone false c) (u_log s) -> In (VCall c) (u_log s).
Proof. intros R B I. apply (reach_told conc s R); [destruct B; congruence|now left]. Qed.
Lemma called_next conc s c a j b : ureachable conc s -> between s -> u_log s = a ++ VAct j :: b -> In (VDone true c) a -> In (VCall c) (u_log s).
Proof. intros R B E I. apply (reach_told conc s R); [destruct B; congruence|]. right. now exists a, j, b. Qed.

(** The poll list. *)
Lemma asked_snoc fd l e : asked fd (l ++ [e]) <-> (exists w, e = VAsk fd w /\ w <> WRemove) \/ ((forall w, e <> VAsk fd w) /\ asked fd l).
Proof.
  split.
  - intros (a & w & b & E & N & F). destruct b as [|x b] using rev_ind.
    + apply app_inj_tail in E. destruct E as [_ ->]. left. now exists w.
    + clear IHb. change (a ++ VAsk fd w :: b ++ [x]) with (a ++ (VAsk fd w :: b) ++ [x]) in E. rewrite app_assoc in E. apply app_inj_tail in E.
      destruct E as [-> ->]. right. split.
      * intros w' ->. apply (F w'), in_app_iff. right. now left.
      * exists a, w, b. repeat split; auto. intros w' I. apply (F w'), in_app_iff. now left.
  - intros [(w & -> & N)|(D & a & w & b & -> & N & F)].
    + exists l, w, []. repeat split; auto.
    + exists a, w, (b ++ [e]). rewrite <- app_assoc. repeat split; auto. intros w' I. apply in_app_iff in I. destruct I as [I|[I|[]]]; [eapply F, I|eapply D; eauto].
Qed.

Definition watched (p : list Z) (l : list uev) : Prop := NoDup p /\ forall fd, In fd p <-> asked fd l.

Lemma unwatch_in fd l : NoDup l -> forall x, In x (unwatch fd l) <-> In x l /\ x <> fd.
Proof.
  induction 1 as [|y l I N IH]; cbn; intros x; [tauto|]. destruct (Z.eqb_spec fd y) as [->|D].
  - split; [intros J; split; [now right|intros ->; auto]|intros [[E|J] F]; [congruence|exact J]].
  - cbn. rewrite IH. split; [intros [E|[J F]]; [split; [now left|congruence]|auto]|intros [[E|J] F]; auto].
Qed.
Lemma unwatch_nodup fd l : NoDup l -> NoDup (unwatch fd l).
Proof.
  induction 1 as [|y l I N IH]; cbn; [constructor|]. destruct (Z.eqb fd y); [exact N|]. constructor; [|exact IH].
  intros J. apply unwatch_in in J; tauto.
Qed.
Lemma watch_in fd l x : In x (watch fd l) <-> x = fd \/ In x l.
Proof.
  unfold watch. destruct (existsb (Z.eqb fd) l) eqn:E.
  - apply existsb_exists in E. destruct E as (y & I & Q). apply Z.eqb_eq in Q. subst y. split; [now right|intros [->|J]; auto].
  - rewrite in_app_iff. cbn. intuition congruence.
Qed.
Lemma watch_nodup fd l : NoDup l -> NoDup (watch fd l).
Proof.
  intros N. unfold watch. destruct (existsb (Z.eqb fd) l) eqn:E; [exact N|]. apply NoDup_rev in N. rewrite <- (rev_involutive l).
  change [fd] with (rev [fd]). rewrite <- rev_app_distr. apply NoDup_rev. cbn. constructor; [|exact N]. intros I. apply in_rev in I.
  assert (existsb (Z.eqb fd) l = true) by (apply existsb_exists; exists fd; split; [exact I|apply Z.eqb_refl]). congruence.
Qed.

Lemma watched_call x p l : watched p l -> watched (callback x p) (l ++ [VAsk (fst x) (snd x)]).
Proof.
  destruct x as [fd w]. intros [N W]. unfold callback; cbn [fst snd]. split.
  - destruct w; auto using watch_nodup, unwatch_nodup.
  - intros y. rewrite asked_snoc, <- W. destruct w; try (rewrite watch_in); try rewrite unwatch_in by exact N.
    all: split; [intros H; destruct (Z.eq_dec y fd) as [->|D]|intros [(w' & E & F)|[F J]]].
    all: try (left; eexists; split; [reflexivity|discriminate]).
    all: try (right; split; [congruence|tauto]).
    all: try (injection E as <- <-; tauto).
    all: try (now right).
    split; [exact J|]. intros ->. exact (F _ eq_refl).
Qed.
Lemma watched_calls cs : forall p l, watched p l -> watched (callbacks cs p) (l ++ map (fun x => VAsk (fst x) (snd x)) cs).
Proof.
  induction cs as [|x cs IH]; cbn; intros p l W; [now rewrite app_nil_r|]. change (VAsk (fst x) (snd x) :: map (fun x => VAsk (fst x) (snd x)) cs) with ([VAsk (fst x) (snd x)] ++ map (fun x => VAsk (fst x) (snd x)) cs).
  rewrite app_assoc. apply IH. now apply watched_call.
Qed.
Lemma watched_other p : forall t l, Forall (fun e => forall fd w, e <> VAsk fd w) t -> watched p l -> watched p (l ++ t).
Proof.
  induction t as [|e t IH]; intros l F W; [now rewrite app_nil_r|]. inversion_clear F. change (e :: t) with ([e] ++ t). rewrite app_assoc. apply IH; [assumption|].
  destruct W as [N W]. split; [exact N|]. intros fd. rewrite asked_snoc, W. split; [intros I; right; split; [intros w; apply H|exact I]|intros [(w & E & _)|[_ I]]; [destruct (H _ _ E)|exact I]].
Qed.
Lemma not_ask {A} (f : A -> uev) l : (forall x fd w, f x <> VAsk fd w) -> Forall (fun e => forall fd w, e <> VAsk fd w) (map f l).
Proof. intros H. apply Forall_forall. intros e I. apply in_map_iff in I. destruct I as (x & <- & _). apply H. Qed.

Definition list_ok (s : ust) : Prop := watched (u_poll s) (u_log s).

Lemma acts_list first r s s' : acts first r s = Some s' -> list_ok s -> list_ok s'.
Proof.
  unfold acts. destruct (nodupb (r_done r) && _); [|discriminate]. intros P; injection P as <-. intros W. unfold list_ok; cbn [u_poll u_log].
  rewrite app_assoc. apply watched_other; [apply not_ask; discriminate|]. now apply watched_calls.
Qed.

Lemma list_step conc a s s' : ustep conc a s = Some s' -> list_ok s -> list_ok s'.
Proof.
  intros P K. destruct a as [i|c| |]; cbn [ustep] in P; try (injection P as <-; exact K).
  unfold thread in P. destruct (u_pc s) eqn:E.
  - destruct (u_term s || _); [injection P as <-; exact K|].
    destruct (negb (empty (u_queue s)) && _) eqn:G; [|injection P as <-; exact K].
    destruct (start_some conc (u_queue s) (u_handles s) []) as [[[q h] e]|] eqn:T; [|injection P as <-; exact K].
    destruct i; try discriminate. apply acts_list in P; [exact P|]. unfold list_ok; cbn [u_poll u_log]. apply watched_other; [apply not_ask; discriminate|exact K].
  - destruct i; try discriminate.
    + destruct (u_woken s); [|discriminate]. injection P as <-. exact K.
    + destruct (existsb _ _ && _); [|discriminate]. injection P as <-. exact K.
    + destruct (u_count s =? 0); [discriminate|]. injection P as <-. exact K.
    + injection P as <-. exact K.
  - destruct i; try discriminate. apply acts_list in P; [exact P|]. unfold list_ok; cbn [u_poll u_log]. apply watched_other; [|exact K]. constructor; [discriminate|constructor].
  - destruct i; try discriminate. destruct (r_done r); [|discriminate]. destruct (u_msgs s) as [|c m] eqn:F; [injection P as <-; exact K|].
    destruct (memb c (u_handles s)) eqn:G; [|injection P as <-; exact K]. injection P as <-. unfold list_ok; cbn [u_poll u_log].
    rewrite app_assoc. apply watched_other; [constructor; [discriminate|constructor]|]. now apply watched_calls.
  - destruct i; discriminate.
  - destruct i; discriminate.
Qed.

Lemma list_init : list_ok u_init.
Proof. split; [constructor|]. intros fd. split; [intros []|]. intros (a & w & b & E & _). destruct a; discriminate. Qed.

Lemma reach_list conc s : ureachable conc s -> NoDup (u_poll s) /\ forall fd, In fd (u_poll s) <-> asked fd (u_log s).
Proof.
  intros [l E]. apply (exec_inv conc list_ok (fun _ => True)) with (l := l) (s := u_init); auto using all_true, list_init. eauto using list_step.
Qed.

(** What libcurl is told of. *)
Definition told_asked (s : ust) : Prop :=
  list_ok s /\ (forall j, u_pc s = UAct j -> asked j (u_log s)) /\ forall a j b, u_log s = a ++ VAct j :: b -> asked j a.
Definition no_act (e : uev) : Prop := match e with VAct _ => False | _ => True end.
Lemma no_act_map {A} (f : A -> uev) l : (forall x, no_act (f x)) -> Forall no_act (map f l).
Proof. intros H. apply Forall_forall. intros e I. apply in_map_iff in I. destruct I as (x & <- & _). apply H. Qed.
Lemma splits_app l t : Forall no_act t -> (forall a j b, l = a ++ VAct j :: b -> asked j a) -> forall a j b, l ++ t = a ++ VAct j :: b -> asked j a.
Proof. intros F H a j b E. destruct (split_in _ _ _ _ _ E) as [(b' & -> & _)|I]; [eapply H; eauto|]. rewrite Forall_forall in F. destruct (F _ I). Qed.

Lemma acts_log first r s s' : acts first r s = Some s' -> u_pc s' = u_pc s /\
  u_log s' = u_log s ++ map (fun x => VAsk (fst x) (snd x)) (r_calls r) ++ map (VDone first) (r_done r).
Proof. unfold acts. destruct (nodupb (r_done r) && _); [|discriminate]. intros P; injection P as <-. now split. Qed.
Lemma no_act_acts first r : Forall no_act (map (fun x => VAsk (fst x) (snd x)) (r_calls r) ++ map (VDone first) (r_done r)).
Proof. apply Forall_app. split; apply no_act_map; exact (fun _ => I). Qed.

Lemma asked_step conc a s s' : no_signal a -> no_timeout a -> ustep conc a s = Some s' -> told_asked s -> told_asked s'.
Proof.
  intros Ns Nt P (L & A & T). split; [eapply list_step; eassumption|]. destruct a as [i|c| |]; cbn [ustep] in P; try (injection P as <-; now split).
  unfold thread in P. destruct (u_pc s) eqn:E.
  - destruct (u_term s || _); [injection P as <-; cbn; split; [discriminate|exact T]|].
    destruct (negb (empty (u_queue s)) && _) eqn:G; [|injection P as <-; cbn; split; [discriminate|exact T]].
    destruct (start_some conc (u_queue s) (u_handles s) []) as [[[q h] e]|] eqn:W; [|injection P as <-; cbn; split; [discriminate|exact T]].
    destruct i; try discriminate. apply acts_log in P. destruct P as [Q R]. rewrite Q, R. cbn [u_pc u_log]. split; [discriminate|].
    apply splits_app; [apply no_act_acts|]. apply splits_app; [apply no_act_map; exact (fun _ => I)|exact T].
  - destruct i; try discriminate.
    + destruct (u_woken s); [|discriminate]. injection P as <-. cbn. split; [discriminate|exact T].
    + destruct (existsb (Z.eqb socket) _ && _) eqn:W; [|discriminate]. injection P as <-. cbn. split; [|exact T]. intros j Q. injection Q as <-.
      apply andb_prop in W. destruct W as [W _]. apply existsb_exists in W. destruct W as (y & I & Q). apply Z.eqb_eq in Q. subst y. now apply L.
    + destruct (Nt junk eq_refl).
    + destruct (Ns junk eq_refl).
  - destruct i; try discriminate. apply acts_log in P. destruct P as [Q R]. rewrite Q, R. cbn [u_pc u_log]. split; [discriminate|].
    apply splits_app; [apply no_act_acts|]. intros a j b Z. destruct b as [|x b] using rev_ind.
    + apply app_inj_tail in Z. destruct Z as [<- Z]. injection Z as <-. now apply A.
    + clear IHb. change (a ++ VAct j :: b ++ [x]) with (a ++ (VAct j :: b) ++ [x]) in Z. rewrite app_assoc in Z. apply app_inj_tail in Z. destruct Z as [Z _]. eauto.
  - destruct i; try discriminate. destruct (r_done r); [|discriminate]. destruct (u_msgs s) as [|c m] eqn:F; [injection P as <-; cbn; split; [discriminate|exact T]|].
    destruct (memb c (u_handles s)) eqn:G; [|injection P as <-; cbn; split; [discriminate|exact T]]. injection P as <-. cbn [u_pc u_log]. split; [discriminate|].
    apply splits_app; [|exact T]. apply Forall_app. split; [apply no_act_map; exact (fun _ => I)|]. constructor; [exact I|constructor].
  - destruct i; discriminate.
  - destruct i; discriminate.
Qed.

Lemma told_of conc l s : Forall no_signal l -> Forall no_timeout l -> uexec conc l u_init = Some s ->
  forall a j b, u_log s = a ++ VAct j :: b -> asked j a.
Proof.
  intros Fs Ft E. enough (told_asked s) as (_ & _ & T) by exact T.
  apply (exec_inv conc told_asked (fun a => no_signal a /\ no_timeout a)) with (l := l) (s := u_init); auto.
  - intros a x x' [N M]. now apply asked_step.
  - apply Forall_and; assumption.
  - split; [exact list_init|]. split; [discriminate|]. intros a j b Z. destruct a; discriminate.
Qed.

(** Stuck. *)
Definition stuck (conc : nat) (s : ust) : Prop :=
  between s /\ u_count s = 0 /\ u_poll s = [] /\ u_handles s <> [] /\ (u_queue s = [] \/ conc <= length (u_handles s)).
Definition over (conc : nat) (h : list nat) (log : list uev) (s : ust) : Prop :=
  u_log s = log /\ u_handles s = h /\ (stuck conc s \/ u_pc s = UEnd /\ u_term s = true).

Lemma stuck_step conc h log a s s' : no_signal a -> (no_queue a \/ conc <= length h) -> ustep conc a s = Some s' -> over conc h log s -> over conc h log s'.
Proof.
  intros N Q P (L & H & [K|[E T]]).
  - destruct K as (B & C & W & Hn & R). unfold over.
    destruct a as [i|c| |]; cbn [ustep] in P; try (injection P as <-; cbn; split; [exact L|]; split; [exact H|]; left; unfold stuck, between; cbn; tauto).
    + unfold thread in P. destruct B as [B|B]; rewrite B in P.
      * destruct (u_term s) eqn:T; [injection P as <-; cbn; split; [exact L|]; split; [exact H|]; right; now split|].
        assert (F : empty (u_handles s) = false) by (destruct (u_handles s); [congruence|reflexivity]). rewrite F, andb_false_r in P. cbn [orb] in P.
        assert (G : negb (empty (u_queue s)) && (length (u_handles s) <? conc) = false).
        { destruct R as [R|R]; [now rewrite R|]. apply Nat.ltb_ge in R. rewrite R. apply andb_false_r. }
        rewrite G in P. injection P as <-. cbn. split; [exact L|]. split; [exact H|]. left. unfold stuck, between. cbn. tauto.
      * destruct i; try discriminate.
        -- destruct (u_woken s); [|discriminate]. injection P as <-. cbn. split; [exact L|]. split; [exact H|]. left. unfold stuck, between. cbn. tauto.
        -- rewrite W in P. discriminate.
        -- rewrite C in P. discriminate.
        -- destruct (N junk eq_refl).
    + injection P as <-. cbn. split; [exact L|]. split; [exact H|]. left. unfold stuck, between. cbn. repeat split; try tauto.
      right. destruct Q as [Q|Q]; [destruct (Q c eq_refl)|]. now rewrite H.
  - unfold over. destruct a as [i|c| |]; cbn [ustep] in P; try (injection P as <-; cbn; auto).
    unfold thread in P. rewrite E in P. destruct i; discriminate.
Qed.

Lemma stuck_exec conc s : stuck conc s -> forall l s', Forall no_signal l -> Forall no_queue l \/ conc <= length (u_handles s) ->
  uexec conc l s = Some s' -> u_log s' = u_log s /\ (u_term s' = false -> u_pc s' <> UEnd).
Proof.
  intros K l s' Fs Fq E. assert (O : over conc (u_handles s) (u_log s) s') by
    (apply (exec_inv conc (over conc (u_handles s) (u_log s)) (fun a => no_signal a /\ (no_queue a \/ conc <= length (u_handles s)))) with (l := l) (s := s);
     [intros a x x' [N Q]; now apply stuck_step| |exact E|now split; [|split; [|left]]];
     destruct Fq as [Fq|Fq]; [apply Forall_and; [exact Fs|]; eapply Forall_impl; [|exact Fq]; auto|eapply Forall_impl; [|exact Fs]; auto]).
  destruct O as (L & _ & [K'|[P T]]); split; auto.
  - intros _ P. destruct K' as [[B|B] _]; congruence.
  - congruence.
Qed.

Lemma start_all conc q : forall r e, NoDup (r ++ q) -> length (r ++ q) <= conc -> start_some conc q r e = Some ([], r ++ q, e ++ map EStarted q).
Proof.
  induction q as [|c q IH]; cbn [start_some]; intros r e N L; [now rewrite !app_nil_r|].
  assert (X : (length r <? conc) = true) by (apply Nat.ltb_lt; rewrite app_length in L; cbn in L; lia). rewrite X.
  assert (Y : memb c r = false). { destruct (memb c r) eqn:E; [|reflexivity]. apply memb_in in E. apply NoDup_remove_2 in N. destruct N. apply in_app_iff. now left. }
  rewrite Y, IH; rewrite <- app_assoc; cbn; try assumption. now rewrite <- app_assoc.
Qed.

Lemma queue_exec conc cs : forall s, exists w, uexec conc (map UQueue cs) s =
  Some (mkU (u_pc s) (u_queue s ++ cs) (u_handles s) (u_live s) (u_msgs s) (u_count s) (u_poll s) w (u_stop s) (u_term s) (u_log s)).
Proof.
  induction cs as [|c cs IH]; intros s; [exists (u_woken s); cbn; rewrite app_nil_r; now destruct s|].
  cbn [map uexec ustep]. match goal with |- context [uexec conc _ ?x] => destruct (IH x) as [w E] end. exists w. rewrite E. cbn. now rewrite <- app_assoc.
Qed.

(** All of them queued, started and done at once. *)
Definition at_once (cs : list nat) (calls : list (Z * want)) : list uact := map UQueue cs ++ [UThread (ILib (mkR cs calls))].
Lemma at_once_exec conc cs : cs <> [] -> NoDup cs -> length cs <= conc ->
  exists w, uexec conc (at_once cs []) u_init = Some (mkU UPoll [] cs [] cs 0 [] w false false (map VStart cs ++ map (VDone true) cs)).
Proof.
  intros Ne N L. unfold at_once. rewrite exec_app. destruct (queue_exec conc cs u_init) as [w E]. rewrite E. exists w. cbn [uexec ustep].
  unfold thread. cbn [u_pc u_term u_stop u_queue u_handles u_init app orb andb empty length].
  assert (X : negb (empty cs) && (0 <? conc) = true). { destruct cs; [congruence|]. cbn [length] in L. apply Nat.ltb_lt. lia. } rewrite X.
  rewrite start_all by (cbn; assumption). cbn [app]. rewrite news_started. unfold acts. cbn [u_live u_init app r_done r_calls u_pc].
  assert (Y : nodupb cs && forallb (fun c => memb c cs) cs = true).
  { apply andb_true_intro. split; [now apply nodupb_NoDup|]. apply forallb_forall. intros c I. now apply memb_in. }
  rewrite Y. cbn [u_queue u_handles u_msgs u_poll u_woken u_stop u_term u_log app callbacks fold_left map].
  assert (Z : filter (fun c => negb (memb c cs)) cs = []).
  { assert (G : forall d, incl d cs -> filter (fun c => negb (memb c cs)) d = []).
    { induction d as [|x d IH]; cbn; intros J; [reflexivity|]. assert (memb x cs = true) as -> by (apply memb_in, J; now left). cbn. apply IH. intros y K. apply J. now right. }
    now apply G. }
  rewrite Z. reflexivity.
Qed.

Lemma times_once c cs : NoDup cs -> In c cs -> countn c cs = 1.
Proof. intros N I. pose proof (countn_nodup c cs N). apply countn_in in I. lia. Qed.

Lemma full_stuck conc cs : cs <> [] -> NoDup cs -> length cs = conc ->
  exists s, ureachable conc s /\ (forall c, In c cs -> times (is_done c) (u_log s) = 1 /\ times (is_call c) (u_log s) = 0)
  /\ forall l s', Forall no_signal l -> uexec conc l s = Some s' -> u_log s' = u_log s /\ (u_term s' = false -> u_pc s' <> UEnd).
Proof.
  intros Ne N L. destruct (at_once_exec conc cs Ne N (Nat.eq_le_incl _ _ L)) as [w E]. eexists. split; [eexists; exact E|]. split.
  - intros c I. cbn [u_log]. rewrite !times_app, !(times_map _ VStart), times_done, (times_map (is_call c)), (times_once c cs) by (reflexivity || assumption). now split.
  - intros l s' F X. apply (fun k => stuck_exec conc _ k l s' F) in X; [exact X| |].
    + unfold stuck, between. cbn. split; [now right|]. split; [reflexivity|]. split; [reflexivity|]. split; [exact Ne|now left].
    + right. cbn. lia.
Qed.

Lemma stop_hangs conc c : 0 < conc -> exists s, ureachable conc s /\ u_stop s = true /\ u_queue s = []
  /\ (forall d, ~ running d (u_log s)) /\ times (is_done c) (u_log s) = 1 /\ times (is_call c) (u_log s) = 0
  /\ forall l s', Forall no_signal l -> Forall no_queue l -> uexec conc l s = Some s' -> u_log s' = u_log s /\ (u_term s' = false -> u_pc s' <> UEnd).
Proof.
  intros C. destruct (at_once_exec conc [c]) as [w E]; [discriminate|repeat constructor; cbn; tauto|exact C|].
  assert (R : uexec conc (at_once [c] [] ++ [UStop]) u_init = Some (mkU UPoll [] [c] [] [c] 0 [] true true false [VStart c; VDone true c])) by (rewrite exec_app, E; reflexivity).
  eexists. split; [eexists; exact R|]. split; [reflexivity|]. split; [reflexivity|]. split; [|split; [|split; [reflexivity|]]].
  - intros d. unfold running, times. cbn. destruct (d =? c); cbn; lia.
  - unfold times. cbn. now rewrite Nat.eqb_refl.
  - intros l s' F Q X. apply (fun k => stuck_exec conc _ k l s' F (or_introl Q)) in X; [exact X|]. unfold stuck, between. cbn. repeat split; auto. discriminate.
Qed.

Definition begun (c : nat) (calls : list (Z * want)) : list uact := [UQueue c; UThread (ILib (mkR [] calls)); UThread IWake; UThread INone].
Lemma begun_exec conc c calls : 0 < conc -> uexec conc (begun c calls) u_init =
  Some (mkU UPoll [] [c] [c] [] 1 (callbacks calls []) false false false (VStart c :: map (fun x => VAsk (fst x) (snd x)) calls)).
Proof.
  intros C. destruct conc as [|n]; [lia|]. cbn. now rewrite app_nil_r.
Qed.

Lemma junk conc c j : 0 < conc -> exists s, ureachable conc s /\ u_log s = [VStart c; VAct j].
Proof.
  intros C. eexists. split.
  - exists (begun c [] ++ [UThread (ITimeout j); UThread (ILib (mkR [] []))]). rewrite exec_app, begun_exec by exact C. cbn. unfold thread, acts; cbn. reflexivity.
  - reflexivity.
Qed.

Lemma write_waits conc c fd : 0 < conc -> exists s, ureachable conc s /\ running c (u_log s) /\ u_log s = [VStart c; VAsk fd WOut]
  /\ forall l s', Forall no_signal l -> Forall no_timeout l -> Forall no_call l -> Forall only_writable l -> uexec conc l s = Some s' -> s' = s.
Proof.
  intros C. eexists. split; [exists (begun c [(fd, WOut)]); apply begun_exec, C|]. split; [|split; [reflexivity|]].
  - unfold running, times. cbn. rewrite Nat.eqb_refl. cbn. lia.
  - intros l s' Fs Ft Fc Fw E. destruct l as [|a l]; [cbn in E; injection E as <-; reflexivity|exfalso].
    inversion_clear Fs as [|? ? Ns _]. inversion_clear Ft as [|? ? Nt _]. inversion_clear Fc as [|? ? Nc _]. inversion_clear Fw as [|? ? Nw _].
    destruct Nc as [i ->]. cbn in E. unfold thread in E. cbn [u_pc] in E. destruct i; try discriminate.
    + destruct (Nw socket r eq_refl) as (A & B & D). unfold reported in E. rewrite A, B, D in E. cbn in E. rewrite andb_false_r in E. discriminate.
    + destruct (Nt junk0 eq_refl).
    + destruct (Ns junk0 eq_refl).
Qed.
