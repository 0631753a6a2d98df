(** Proofs about the HTTP client's thread. *)
From Coq Require Import List Bool Arith Lia.
From Verif Require Import Model.Curler Spec.CurlerSpec.
Import ListNotations.

(** * Logs *)
Lemma queued_app : forall a b, queued (a ++ b) = queued a ++ queued b.
Proof. induction a as [|[] a IH]; intros b; cbn; rewrite ?IH; reflexivity. Qed.
Lemma started_app : forall a b, started (a ++ b) = started a ++ started b.
Proof. induction a as [|[] a IH]; intros b; cbn; rewrite ?IH; reflexivity. Qed.
Lemma done_app : forall a b, done (a ++ b) = done a ++ done b.
Proof. induction a as [|[] a IH]; intros b; cbn; rewrite ?IH; reflexivity. Qed.
Lemma called_app : forall a b, called (a ++ b) = called a ++ called b.
Proof. induction a as [|[] a IH]; intros b; cbn; rewrite ?IH; reflexivity. Qed.
Lemma user_app : forall c a b, user_of c (a ++ b) = user_of c a ++ user_of c b.
Proof. induction a as [|[] a IH]; intros b; cbn; rewrite ?IH; try reflexivity; destruct (_ =? _); reflexivity. Qed.
Lemma times_app : forall c a b, times c (a ++ b) = times c a + times c b.
Proof. intros; apply count_occ_app. Qed.
Lemma times_one : forall c x, times c [x] = if Nat.eq_dec x c then 1 else 0.
Proof. intros c x; unfold times; cbn; destruct (Nat.eq_dec x c); reflexivity. Qed.

Lemma memb_in : forall c l, memb c l = true <-> In c l.
Proof.
  intros c l; unfold memb; rewrite existsb_exists; split.
  - intros (x & H & E); apply Nat.eqb_eq in E; congruence.
  - intros H; exists c; split; [exact H|apply Nat.eqb_refl].
Qed.
Lemma nodupb_ok : forall l, nodupb l = true -> NoDup l.
Proof.
  induction l as [|x l IH]; cbn; intros H; [constructor|]; apply andb_prop in H as [H1 H2]; constructor; [|auto].
  intros H; apply memb_in in H; rewrite H in H1; discriminate.
Qed.
Lemma remb_in : forall c x l, In x (remb c l) -> In x l.
Proof. induction l as [|y l IH]; cbn; [auto|]; destruct (c =? y); cbn; intuition. Qed.
Lemma remb_keep : forall c x l, In x l -> x <> c -> In x (remb c l).
Proof.
  induction l as [|y l IH]; cbn; [auto|]; intros [E|H] N; destruct (Nat.eqb_spec c y); subst; cbn; auto; congruence.
Qed.
Lemma remb_nodup : forall c l, NoDup l -> NoDup (remb c l).
Proof.
  induction l as [|y l IH]; cbn; intros N; [constructor|]; inversion N; subst; destruct (c =? y); [assumption|].
  constructor; [intros H; apply remb_in in H; auto|auto].
Qed.
Lemma remb_length : forall c l, length (remb c l) <= length l.
Proof. induction l as [|y l IH]; cbn; [lia|]; destruct (c =? y); cbn; lia. Qed.
Lemma remb_times : forall c x l, In c l -> times x l = times x (remb c l) + (if Nat.eq_dec c x then 1 else 0).
Proof.
  unfold times; induction l as [|y l IH]; cbn; [tauto|]; intros H; destruct (Nat.eqb_spec c y) as [<-|N].
  - destruct (Nat.eq_dec c x); lia.
  - destruct H as [->|H]; [congruence|]; cbn; rewrite (IH H); destruct (Nat.eq_dec y x); lia.
Qed.

Local Arguments times : simpl never.
Local Arguments news : simpl never.
(** * What is queued, runs and is done *)
Definition pc_ok (p : hpc) (run : list nat) (log : list cev) : Prop :=
  match p with
  | HMsgs l => NoDup l /\ incl l run
  | HCall c l | HReset c l => NoDup l /\ incl l run /\ In c (done log)
  | _ => True
  end.

Record ainv (conc : nat) (s : cst) : Prop := mkA {
  a_order : queued (k_log s) = started (k_log s) ++ k_queue s;
  a_count : forall c, times c (started (k_log s)) = times c (done (k_log s)) + times c (k_run s);
  a_nodup : NoDup (k_run s);
  a_bound : length (k_run s) <= conc;
  a_pc : pc_ok (k_pc s) (k_run s) (k_log s);
  a_end : k_pc s = HEnd -> k_term s = true \/ k_run s = []
}.

Lemma start_some_ok : forall conc q r e q' r' e', start_some conc q r e = Some (q', r', e') ->
  NoDup r -> length r <= conc ->
  exists m, q = m ++ q' /\ r' = r ++ m /\ e' = e ++ map EStarted m /\ NoDup r' /\ length r' <= conc /\
    (q' = [] \/ length r' = conc).
Proof.
  intros conc q; induction q as [|c q IH]; intros r e q' r' e' H N L; cbn -[Nat.ltb] in H.
  - injection H as <- <- <-; exists []; cbn; rewrite !app_nil_r; repeat split; auto.
  - destruct (Nat.ltb_spec (length r) conc).
    + destruct (memb c r) eqn:M; [discriminate|].
      destruct (IH _ _ _ _ _ H) as (m & E1 & E2 & E3 & E4 & E5 & E6).
      * assert (X : ~ In c r) by (intros X; apply memb_in in X; congruence).
        clear - N X; induction r as [|y r IH]; cbn; [repeat constructor; auto|]; inversion N; subst; constructor.
        { intros Z; apply in_app_iff in Z as [Z|[Z|[]]]; [auto|apply X; left; auto]. }
        { apply IH; auto; intros Z; apply X; now right. }
      * rewrite app_length; cbn; lia.
      * exists (c :: m); subst; cbn; rewrite <- !app_assoc in *; cbn in *; repeat split; auto.
    + injection H as <- <- <-; exists []; cbn; rewrite !app_nil_r; repeat split; auto; right; lia.
Qed.

Lemma queued_started : forall m, queued (map EStarted m) = [].
Proof. induction m; cbn; auto. Qed.
Lemma started_started : forall m, started (map EStarted m) = m.
Proof. induction m; cbn; congruence. Qed.
Lemma done_started : forall m, done (map EStarted m) = [].
Proof. induction m; cbn; auto. Qed.
Lemma called_started : forall m, called (map EStarted m) = [].
Proof. induction m; cbn; auto. Qed.
Lemma user_started : forall c m, user_of c (map EStarted m) = [].
Proof. induction m; cbn; auto. Qed.

(** Steps that leave the requests alone. *)
Lemma ainv_same : forall conc s s', ainv conc s -> k_queue s' = k_queue s -> k_run s' = k_run s -> k_log s' = k_log s ->
  pc_ok (k_pc s') (k_run s) (k_log s) -> (k_pc s' = HEnd -> k_term s' = true \/ k_run s = []) -> ainv conc s'.
Proof. intros conc s s' [A B C D E F] Q R L P T; constructor; rewrite ?Q, ?R, ?L; auto. Qed.

Lemma pc_ok_log : forall p run log e, pc_ok p run log -> pc_ok p run (log ++ e).
Proof. intros p run log e; destruct p; cbn; auto; rewrite done_app; intros (A & B & C); repeat split; auto; apply in_app_iff; auto. Qed.

Lemma astep : forall conc a s s', ainv conc s -> cstep conc a s = Some s' -> ainv conc s'.
Proof.
  intros conc a s s' I H; destruct a as [e|c|t c|t|t|t]; cbn [cstep] in H.
  - unfold handler_step in H; destruct (k_pc s) as [| | | | | |l|c l|c l| | |] eqn:P.
    + destruct (k_term s || _) eqn:Q; injection H as <-; apply (ainv_same conc s); auto; cbn; auto.
      * intros _; destruct (k_term s); [now left|right]; cbn in Q; destruct (k_run s); [reflexivity|]; rewrite andb_false_r in Q; discriminate.
      * discriminate.
    + destruct (start_some _ _ _ _) as [[[q r] ev]|] eqn:Q; injection H as <-.
      * destruct I as [A B C D E F]; apply start_some_ok in Q as (m & E1 & E2 & E3 & E4 & E5 & E6); auto; cbn in E3; subst.
        constructor; cbn; auto; try discriminate.
        -- rewrite queued_app, queued_started, started_app, started_started, app_nil_r, A, E1, app_assoc; reflexivity.
        -- intros x; rewrite started_app, started_started, done_app, done_started, app_nil_r, !times_app, B; lia.
      * apply (ainv_same conc s); cbn; auto; discriminate.
    + destruct e as [|dn].
      * destruct (k_bytes s =? 0); [discriminate|]; injection H as <-; apply (ainv_same conc s); cbn; auto; discriminate.
      * destruct (nodupb dn && _) eqn:Q; [|discriminate]; apply andb_prop in Q as [Q1 Q2]; injection H as <-.
        apply (ainv_same conc s); cbn; auto; [|discriminate]; split; [now apply nodupb_ok|].
        intros x X; rewrite forallb_forall in Q2; apply memb_in, Q2, X.
    + destruct (k_owner s); [discriminate|]; injection H as <-; apply (ainv_same conc s); cbn; auto; discriminate.
    + destruct (k_bytes s =? 0); injection H as <-; apply (ainv_same conc s); cbn; auto; discriminate.
    + injection H as <-; apply (ainv_same conc s); cbn; auto; discriminate.
    + destruct l as [|c l].
      * injection H as <-; apply (ainv_same conc s); cbn; auto; discriminate.
      * destruct (memb c (k_run s)) eqn:M; injection H as <-.
        -- destruct I as [A B C D E F]; rewrite P in E; cbn in E; destruct E as [E1 E2]; inversion E1; subst; apply memb_in in M.
           constructor; cbn; try discriminate.
           ++ rewrite queued_app, started_app; cbn; rewrite !app_nil_r; exact A.
           ++ intros x; rewrite started_app, done_app; cbn [started done]; rewrite !app_nil_r, times_app, times_one, B, (remb_times c x (k_run s) M); lia.
           ++ now apply remb_nodup.
           ++ assert (X := remb_length c (k_run s)); lia.
           ++ split; [assumption|]; split; [|rewrite done_app; apply in_app_iff; right; now left].
              intros x X; apply remb_keep; [apply E2; now right|]; intros ->; auto.
        -- apply (ainv_same conc s); cbn; auto; discriminate.
    + destruct (k_cb s c); injection H as <-.
      * destruct I as [A B C D E F]; rewrite P in E; cbn in E; constructor; cbn; auto; try discriminate.
        -- rewrite queued_app, started_app; cbn; rewrite !app_nil_r; exact A.
        -- intros x; rewrite started_app, done_app; cbn [started done]; rewrite !app_nil_r; apply B.
        -- rewrite done_app; destruct E as (E1 & E2 & E3); repeat split; auto; apply in_app_iff; auto.
      * destruct I as [A B C D E F]; rewrite P in E; cbn in E; apply (ainv_same conc s); [constructor; auto; now rewrite P|reflexivity| | | |]; cbn; auto; [tauto|discriminate].
    + injection H as <-; destruct I as [A B C D E F]; rewrite P in E; cbn in E; constructor; cbn; rewrite ?app_nil_r; auto; [tauto|discriminate].
    + destruct (k_owner s); [discriminate|]; injection H as <-; apply (ainv_same conc s); cbn; auto; discriminate.
    + discriminate.
    + discriminate.
  - injection H as <-; destruct I as [A B C D E F]; constructor; cbn; auto.
    + rewrite queued_app, started_app; cbn; rewrite !app_nil_r; exact A.
    + intros x; rewrite started_app, done_app; cbn [started done]; rewrite !app_nil_r; apply B.
    + now apply pc_ok_log.
  - destruct (is_out _); [|discriminate]; injection H as <-; apply (ainv_same conc s); cbn; auto; apply I.
  - destruct (is_out _); [|discriminate]; injection H as <-; apply (ainv_same conc s); cbn; auto; apply I.
  - destruct (is_out _); [|discriminate]; injection H as <-; apply (ainv_same conc s); cbn; auto; apply I.
  - unfold thread_step in H; destruct (k_threads s t) as [|c|b|b|b|]; [discriminate| | | | |].
    + destruct (k_owner s); [discriminate|]; injection H as <-; destruct I as [A B C D E F]; constructor; cbn; auto.
      * rewrite queued_app, started_app, A; cbn; rewrite app_nil_r, app_assoc; reflexivity.
      * intros x; rewrite started_app, done_app; cbn [started done]; rewrite !app_nil_r; apply B.
      * now apply pc_ok_log.
    + destruct (k_waking s); injection H as <-; apply (ainv_same conc s); cbn; auto; apply I.
    + injection H as <-; apply (ainv_same conc s); cbn; auto; apply I.
    + injection H as <-; apply (ainv_same conc s); cbn; auto; apply I.
    + injection H as <-; apply (ainv_same conc s); cbn; auto; apply I.
Qed.

Lemma cexec_ind : forall conc (P : cst -> Prop), (forall a s s', P s -> cstep conc a s = Some s' -> P s') ->
  forall l s s', P s -> cexec conc l s = Some s' -> P s'.
Proof.
  intros conc P ST l; induction l as [|a l IH]; intros s s' I H; cbn in H; [now injection H as <-|].
  destruct (cstep conc a s) as [s1|] eqn:E; [|discriminate]; eauto.
Qed.

Lemma ainv_init : forall conc, ainv conc c_init.
Proof. intros conc; constructor; cbn; auto; try lia; constructor. Qed.
Lemma ainv_reach : forall conc s, creachable conc s -> ainv conc s.
Proof. intros conc s [l H]; exact (cexec_ind conc (ainv conc) (astep conc) l c_init s (ainv_init conc) H). Qed.

(** * Wake-ups *)
Definition kholds (k : kpc) : bool := match k with KTest true | KSet true | KWrite true | KUnlock => true | _ => false end.
Definition hholds (p : hpc) : bool := match p with HCheck | HStart | HRead | HClear => true | _ => false end.
Definition tests (k : kpc) : bool := match k with KTest _ | KSet _ => true | _ => false end.
Definition writes (k : kpc) : bool := match k with KWrite _ => true | _ => false end.
Definition some_thread (p : kpc -> bool) (s : cst) : Prop := exists t, p (k_threads s t) = true.
Definition covered (s : cst) : Prop := k_waking s = true \/ some_thread tests s.
Definition flags (s : cst) : Prop := k_term s = true \/ (k_stop s = true /\ k_queue s = [] /\ k_run s = []).

Record binv (conc : nat) (s : cst) : Prop := mkB {
  b_owner : forall t, k_owner s = Some (Some t) <-> kholds (k_threads s t) = true;
  b_hand : hholds (k_pc s) = true -> k_owner s = Some None;
  b_hand2 : k_owner s = Some None -> hholds (k_pc s) = true \/ k_pc s = HFail;
  b_read : k_pc s = HWake \/ k_pc s = HRead -> k_bytes s <> 0;
  b_wak : k_waking s = true -> k_bytes s <> 0 \/ some_thread writes s \/ k_pc s = HClear;
  b_start : k_pc s = HStart -> flags s -> covered s;
  b_poll : k_pc s = HPoll -> news conc s -> covered s
}.

Lemma upd_eq : forall A (f : nat -> A) t v, upd f t v t = v.
Proof. intros; unfold upd; now rewrite Nat.eqb_refl. Qed.
Lemma upd_ne : forall A (f : nat -> A) t v x, x <> t -> upd f t v x = f x.
Proof. intros A f t v x N; unfold upd; apply Nat.eqb_neq in N; now rewrite N. Qed.

Lemma some_move : forall p s s' t v, some_thread p s -> k_threads s' = upd (k_threads s) t v ->
  (p (k_threads s t) = true -> p v = true) -> some_thread p s'.
Proof.
  intros p s s' t v [x H] E I; exists x; rewrite E; destruct (Nat.eq_dec x t) as [->|N]; [rewrite upd_eq; auto|now rewrite upd_ne].
Qed.
Lemma some_here : forall p s s' t v, k_threads s' = upd (k_threads s) t v -> p v = true -> some_thread p s'.
Proof. intros p s s' t v E H; exists t; now rewrite E, upd_eq. Qed.

(** The handler's steps: the threads stay where they are. *)
Lemma hstep_inv : forall conc e s s', ainv conc s -> binv conc s -> handler_step conc e s = Some s' -> binv conc s'.
Proof.
  intros conc e s s' AI I H; unfold handler_step in H; destruct I as [O H1 H2 R W S P].
  destruct (k_pc s) as [| | | | | |l|c l|c l| | |] eqn:E.
  - destruct (k_term s || _) eqn:Q; injection H as <-.
    + assert (X := H1 eq_refl); constructor; cbn; try discriminate; auto.
      * intros t; split; [discriminate|]; intros K; apply O in K; congruence.
      * intros [|]; discriminate.
      * intros K; destruct (W K) as [?|[?|?]]; auto; discriminate.
    + constructor; cbn; auto; try discriminate.
      * intros [|]; discriminate.
      * intros K; destruct (W K) as [?|[?|?]]; auto; discriminate.
      * intros _ [F|(F1 & F2 & F3)]; cbn in *; [rewrite F in Q; discriminate|]; rewrite F1, F2, F3 in Q; rewrite orb_true_r in Q; discriminate.
  - destruct (start_some _ _ _ _) as [[[q r] ev]|] eqn:Q; injection H as <-.
    + assert (X := H1 eq_refl); apply start_some_ok in Q as (m & E1 & E2 & E3 & E4 & E5 & E6); [|apply AI|apply AI]; subst.
      constructor; cbn; try discriminate; auto.
      * intros t; split; [discriminate|]; intros K; apply O in K; congruence.
      * intros [|]; discriminate.
      * intros K; destruct (W K) as [?|[?|?]]; auto; discriminate.
      * intros _ N; unfold news in N; cbn in N; apply S; auto; destruct N as [[N1 N2]|[N|(N1 & N2 & N3)]].
        -- destruct E6; [congruence|lia].
        -- now left.
        -- right; subst q; apply app_eq_nil in N3 as [N3 N4]; subst; rewrite E1; auto.
    + constructor; cbn; auto; try discriminate.
      * intros [|]; discriminate.
      * intros K; destruct (W K) as [?|[?|?]]; auto; discriminate.
  - destruct e as [|dn].
    + destruct (Nat.eqb_spec (k_bytes s) 0) as [Z|Z]; [discriminate|]; injection H as <-; constructor; cbn; auto; try discriminate.
      * intros K; apply H2 in K as [K|K]; discriminate.
    + destruct (nodupb dn && _); [|discriminate]; injection H as <-; constructor; cbn; auto; try discriminate.
      * intros K; apply H2 in K as [K|K]; discriminate.
      * intros [|]; discriminate.
      * intros K; destruct (W K) as [?|[?|?]]; auto; discriminate.
  - destruct (k_owner s) eqn:OW; [discriminate|]; injection H as <-; constructor; cbn; auto; try discriminate.
    + intros t; split; [discriminate|]; intros K; apply O in K; discriminate.
  - destruct (Nat.eqb_spec (k_bytes s) 0) as [Z|Z]; injection H as <-; constructor; cbn; auto; try discriminate;
      try (intros [|]; discriminate); try (intros K; destruct (W K) as [?|[?|?]]; auto; discriminate).
  - injection H as <-; constructor; cbn; auto; try discriminate. intros [|]; discriminate.
  - destruct l as [|c l]; [|destruct (memb c (k_run s))]; injection H as <-; constructor; cbn; auto; try discriminate;
      try (intros [|]; discriminate); try (intros K; destruct (W K) as [?|[?|?]]; auto; discriminate); try (intros K; apply H2 in K as [K|K]; discriminate).
  - destruct (k_cb s c); injection H as <-; constructor; cbn; auto; try discriminate;
      try (intros [|]; discriminate); try (intros K; destruct (W K) as [?|[?|?]]; auto; discriminate); try (intros K; apply H2 in K as [K|K]; discriminate).
  - injection H as <-; constructor; cbn; auto; try discriminate;
      try (intros [|]; discriminate); try (intros K; destruct (W K) as [?|[?|?]]; auto; discriminate); try (intros K; apply H2 in K as [K|K]; discriminate).
  - destruct (k_owner s) eqn:OW; [discriminate|]; injection H as <-; constructor; cbn; auto; try discriminate;
      try (intros [|]; discriminate); try (intros K; destruct (W K) as [?|[?|?]]; auto; discriminate).
    intros t; split; [discriminate|]; intros K; apply O in K; discriminate.
  - discriminate.
  - discriminate.
Qed.

(** Another thread moves from one place to another. *)
Lemma tstep_inv : forall conc s s' t v, binv conc s -> k_pc s' = k_pc s -> k_threads s' = upd (k_threads s) t v ->
  (k_owner s' = k_owner s /\ kholds v = kholds (k_threads s t) \/
   k_owner s = None /\ k_owner s' = Some (Some t) /\ kholds v = true \/
   k_owner s = Some (Some t) /\ k_owner s' = None /\ kholds v = false) ->
  k_bytes s <= k_bytes s' ->
  (k_waking s' = true -> k_waking s = true \/ writes v = true) ->
  (writes (k_threads s t) = true -> writes v = true \/ k_bytes s' <> 0) ->
  (k_waking s = true -> k_waking s' = true) ->
  (tests (k_threads s t) = true -> tests v = true \/ k_waking s' = true) ->
  ((flags s' -> flags s) /\ (news conc s' -> news conc s) \/ tests v = true) ->
  binv conc s'.
Proof.
  intros conc s s' t v [O H1 H2 R W S P] EP ET EO EB EW1 EW2 EW3 ET2 EF.
  assert (CV : covered s -> covered s').
  { intros [K|[x K]]; [left; auto|]; destruct (Nat.eq_dec x t) as [->|N].
    - destruct (ET2 K) as [V|V]; [right; exact (some_here tests s s' t v ET V)|now left].
    - right; exists x; now rewrite ET, upd_ne. }
  constructor; rewrite ?EP; auto.
  - intros x; rewrite ET; destruct (Nat.eq_dec x t) as [->|N].
    + rewrite upd_eq; destruct EO as [[E1 E2]|[(E1 & E2 & E3)|(E1 & E2 & E3)]].
      * rewrite E1, E2; apply O.
      * rewrite E2, E3; tauto.
      * rewrite E2, E3; split; discriminate.
    + rewrite upd_ne by exact N; destruct EO as [[E1 E2]|[(E1 & E2 & E3)|(E1 & E2 & E3)]].
      * rewrite E1; apply O.
      * rewrite E2; split; [intros X; injection X as ->; congruence|intros X; apply O in X; congruence].
      * rewrite E2; split; [discriminate|intros X; apply O in X; congruence].
  - intros K; assert (X := H1 K); destruct EO as [[E1 E2]|[(E1 & E2 & E3)|(E1 & E2 & E3)]]; congruence.
  - intros K; apply H2; destruct EO as [[E1 E2]|[(E1 & E2 & E3)|(E1 & E2 & E3)]]; congruence.
  - intros K; assert (X := R K); lia.
  - intros K; destruct (EW1 K) as [K2|K2]; [|right; left; exact (some_here writes s s' t v ET K2)].
    destruct (W K2) as [K3|[[x K3]|K3]]; [left; lia| |auto].
    destruct (Nat.eq_dec x t) as [->|N].
    + destruct (EW2 K3) as [V|V]; [right; left; exact (some_here writes s s' t v ET V)|now left].
    + right; left; exists x; now rewrite ET, upd_ne.
  - intros K F; destruct EF as [[EF _]|EF]; [auto|right; exact (some_here tests s s' t v ET EF)].
  - intros K F; destruct EF as [[_ EF]|EF]; [auto|right; exact (some_here tests s s' t v ET EF)].
Qed.

Lemma bstep : forall conc a s s', ainv conc s -> binv conc s -> cstep conc a s = Some s' -> binv conc s'.
Proof.
  intros conc a s s' AI I H; destruct a as [e|c|t c|t|t|t]; cbn [cstep] in H.
  - eapply hstep_inv; eauto.
  - injection H as <-; destruct I; constructor; auto.
  - destruct (k_threads s t) eqn:K; try discriminate; injection H as <-.
    apply (tstep_inv conc s _ t (KLock c) I); cbn; rewrite ?K; auto; try discriminate; left; split; auto.
  - destruct (k_threads s t) eqn:K; try discriminate; injection H as <-.
    apply (tstep_inv conc s _ t (KTest false) I); cbn; rewrite ?K; auto; discriminate.
  - destruct (k_threads s t) eqn:K; try discriminate; injection H as <-.
    apply (tstep_inv conc s _ t (KTest false) I); cbn; rewrite ?K; auto; discriminate.
  - unfold thread_step in H; destruct (k_threads s t) as [|c|b|b|b|] eqn:K; [discriminate| | | | |].
    + destruct (k_owner s) eqn:OW; [discriminate|]; injection H as <-.
      apply (tstep_inv conc s _ t (KTest true) I); cbn; rewrite ?K, ?OW; auto; discriminate.
    + destruct (k_waking s) eqn:WK; injection H as <-.
      * apply (tstep_inv conc s _ t (if b then KUnlock else KOut) I); cbn; rewrite ?K, ?WK; auto; try discriminate; left; split; auto; destruct b; reflexivity.
      * apply (tstep_inv conc s _ t (KSet b) I); cbn; rewrite ?K, ?WK; auto; try discriminate; left; split; auto; destruct b; reflexivity.
    + injection H as <-; apply (tstep_inv conc s _ t (KWrite b) I); cbn; rewrite ?K; auto; try discriminate; left; split; auto; destruct b; reflexivity.
    + injection H as <-; apply (tstep_inv conc s _ t (if b then KUnlock else KOut) I); cbn; rewrite ?K; auto; try discriminate; left; split; auto; destruct b; reflexivity.
    + injection H as <-; assert (OW := proj2 (b_owner _ _ I t)); rewrite K in OW; specialize (OW eq_refl).
      apply (tstep_inv conc s _ t KOut I); cbn; rewrite ?K, ?OW; auto; try discriminate; left; split; auto.
Qed.

Lemma binv_init : forall conc, binv conc c_init.
Proof.
  intros conc; constructor; cbn; auto; try discriminate.
  - intros t; split; discriminate.
  - intros [|]; discriminate.
Qed.
Lemma abinv_reach : forall conc s, creachable conc s -> ainv conc s /\ binv conc s.
Proof.
  intros conc s [l H]; apply (cexec_ind conc (fun s => ainv conc s /\ binv conc s)) with (l := l) (s := c_init); auto.
  - intros a s1 s2 [A B] ST; split; [eapply astep|eapply bstep]; eauto.
  - split; [apply ainv_init|apply binv_init].
Qed.

(** * Results *)
Lemma bound : forall conc s, creachable conc s -> length (k_run s) <= conc /\
  forall c, times c (k_run s) = times c (started (k_log s)) - times c (done (k_log s)).
Proof. intros conc s R; apply ainv_reach in R; split; [apply R|]; intros c; rewrite (a_count _ _ R c); lia. Qed.
Lemma in_order : forall conc s, creachable conc s -> queued (k_log s) = started (k_log s) ++ k_queue s.
Proof. intros conc s R; apply ainv_reach in R; apply R. Qed.
Lemma done_once : forall conc s c, creachable conc s ->
  times c (done (k_log s)) <= times c (started (k_log s)) <= times c (queued (k_log s)).
Proof.
  intros conc s c R; apply ainv_reach in R; assert (X := a_count _ _ R c); rewrite (a_order _ _ R), times_app; lia.
Qed.
Lemma stopped : forall conc s, creachable conc s -> k_pc s = HEnd -> k_term s = false ->
  forall c, times c (done (k_log s)) = times c (started (k_log s)).
Proof.
  intros conc s R E T c; apply ainv_reach in R; assert (X := a_count _ _ R c); destruct (a_end _ _ R E) as [Y|Y]; [congruence|].
  rewrite Y in X; change (times c []) with 0 in X; lia.
Qed.
Lemma noticed : forall conc s, creachable conc s -> quiet s -> k_pc s = HPoll -> news conc s -> k_bytes s <> 0.
Proof.
  intros conc s R Q P N; apply abinv_reach in R as [_ B]; destruct (b_poll _ _ B P N) as [W|[t W]]; [|rewrite (Q t) in W; discriminate].
  destruct (b_wak _ _ B W) as [Z|[[t Z]|Z]]; [exact Z|rewrite (Q t) in Z; discriminate|congruence].
Qed.
Lemma no_block : forall conc s, creachable conc s -> k_pc s = HWake \/ k_pc s = HWant -> k_owner s <> None ->
  exists t s', k_owner s = Some (Some t) /\ cstep conc (AThread t) s = Some s'.
Proof.
  intros conc s R P O; apply abinv_reach in R as [_ B]; destruct (k_owner s) as [[t|]|] eqn:E; [|exfalso|congruence].
  - exists t; assert (K := proj1 (b_owner _ _ B t) E); cbn [cstep]; unfold thread_step; destruct (k_threads s t) as [|c|b|b|b|]; try discriminate.
    + destruct (k_waking s); eexists; split; reflexivity.
    + eexists; split; reflexivity.
    + eexists; split; reflexivity.
    + eexists; split; reflexivity.
  - apply (b_hand2 _ _ B) in E; destruct P as [P|P]; rewrite P in E; destruct E; discriminate.
Qed.

Lemma start_none : forall conc q r e, start_some conc q r e = None -> exists c a b, q = a ++ c :: b /\ (In c r \/ In c a).
Proof.
  intros conc q; induction q as [|c q IH]; intros r e H; cbn -[Nat.ltb] in H; [discriminate|].
  destruct (length r <? conc); [|discriminate]; destruct (memb c r) eqn:M.
  - exists c, [], q; split; [reflexivity|left; now apply memb_in].
  - destruct (IH _ _ H) as (d & a & b & -> & X); exists d, (c :: a), b; split; [reflexivity|].
    destruct X as [X|X]; [apply in_app_iff in X as [X|[X|[]]]; [now left|right; left; auto]|right; now right].
Qed.
Lemma NoDup_app_l : forall (a b : list nat), NoDup (a ++ b) -> NoDup a.
Proof. induction a as [|x a IH]; cbn; intros b N; [constructor|]; inversion N; subst; constructor; [rewrite in_app_iff in *; tauto|eauto]. Qed.
Lemma no_fail : forall conc s, creachable conc s -> NoDup (queued (k_log s)) -> k_pc s <> HFail.
Proof.
  intros conc s [l H]; assert (G : ainv conc s /\ binv conc s /\ (NoDup (queued (k_log s)) -> k_pc s <> HFail)); [|apply G].
  apply (cexec_ind conc (fun s => ainv conc s /\ binv conc s /\ (NoDup (queued (k_log s)) -> k_pc s <> HFail))) with (l := l) (s := c_init); auto.
  2:{ split; [apply ainv_init|]; split; [apply binv_init|discriminate]. }
  clear l s H; intros a s s' (A & B & F) ST; split; [eapply astep; eauto|]; split; [eapply bstep; eauto|]; intros N.
  destruct a as [e|c|t c|t|t|t]; cbn [cstep] in ST.
  - unfold handler_step in ST; destruct (k_pc s) as [| | | | | |dn|c dn|c dn| | |] eqn:E.
    + destruct (k_term s || _); injection ST as <-; discriminate.
    + destruct (start_some _ _ _ _) as [[[q r] ev]|] eqn:Q; injection ST as <-; [discriminate|]; cbn in N; exfalso.
      apply start_none in Q as (c & a & b & Q & X); rewrite (a_order _ _ A), Q in N.
      assert (Y := a_count _ _ A c); apply (NoDup_count_occ Nat.eq_dec) with (x := c) in N; fold (times c (started (k_log s) ++ a ++ c :: b)) in N.
      rewrite !times_app in N; unfold times at 3 in N; cbn in N; destruct (Nat.eq_dec c c); [|congruence]; fold (times c b) in N.
      destruct X as [X|X]; apply (count_occ_In Nat.eq_dec) in X; [fold (times c (k_run s)) in X|fold (times c a) in X]; lia.
    + destruct e; [destruct (k_bytes s =? 0)|destruct (nodupb _ && _)]; inversion ST; subst; discriminate.
    + destruct (k_owner s); inversion ST; subst; discriminate.
    + destruct (Nat.eqb_spec (k_bytes s) 0) as [Z|Z]; injection ST as <-; [|discriminate]; exfalso; apply (b_read _ _ B); auto.
    + injection ST as <-; discriminate.
    + destruct dn as [|c dn]; [injection ST as <-; discriminate|]; destruct (memb c (k_run s)) eqn:M; injection ST as <-; [discriminate|].
      assert (X := a_pc _ _ A); rewrite E in X; destruct X as [_ X]; assert (Y : In c (k_run s)) by (apply X; now left); apply memb_in in Y; congruence.
    + destruct (k_cb s c); injection ST as <-; discriminate.
    + injection ST as <-; discriminate.
    + destruct (k_owner s); inversion ST; subst; discriminate.
    + discriminate.
    + discriminate.
  - injection ST as <-; cbn in *; apply F; rewrite queued_app in N; cbn in N; rewrite app_nil_r in N; exact N.
  - destruct (is_out _); [|discriminate]; injection ST as <-; apply F; exact N.
  - destruct (is_out _); [|discriminate]; injection ST as <-; apply F; exact N.
  - destruct (is_out _); [|discriminate]; injection ST as <-; apply F; exact N.
  - unfold thread_step in ST; destruct (k_threads s t) as [|c|b|b|b|]; [discriminate| | | | |].
    + destruct (k_owner s); [discriminate|]; injection ST as <-; cbn in *; apply F; rewrite queued_app in N; apply NoDup_app_l in N; exact N.
    + destruct (k_waking s); injection ST as <-; apply F; exact N.
    + injection ST as <-; apply F; exact N.
    + injection ST as <-; apply F; exact N.
    + injection ST as <-; apply F; exact N.
Qed.

(** * Callbacks *)
Definition calling (c : nat) (p : hpc) : bool := match p with HCall x _ => x =? c | _ => false end.

Record cinv (c : nat) (s : cst) : Prop := mkC {
  c_some : times c (called (k_log s)) <= times c (done (k_log s));
  c_less : calling c (k_pc s) = true -> times c (called (k_log s)) < times c (done (k_log s));
  c_one : user_of c (k_log s) = [ESet c] \/ user_of c (k_log s) = [ESet c; EQueued c] ->
          (times c (done (k_log s)) = 0 -> k_cb s c = true) /\
          (calling c (k_pc s) = true -> k_cb s c = true) /\
          (calling c (k_pc s) = false -> times c (called (k_log s)) = times c (done (k_log s)))
}.

Lemma user_queued : forall c l, times c (queued l) = times c (queued (user_of c l)).
Proof.
  intros c l; induction l as [|[x|x|x|x|x] l IH]; cbn; auto.
  - destruct (x =? c); cbn; exact IH.
  - destruct (Nat.eqb_spec x c) as [->|N]; cbn [queued]; [change (c :: ?l) with ([c] ++ l); rewrite !times_app, IH; reflexivity|].
    change (x :: queued l) with ([x] ++ queued l); rewrite times_app, times_one, IH; destruct (Nat.eq_dec x c); [congruence|reflexivity].
Qed.
Lemma one_done : forall conc c s, ainv conc s -> user_of c (k_log s) = [ESet c] \/ user_of c (k_log s) = [ESet c; EQueued c] ->
  times c (done (k_log s)) + times c (k_run s) + times c (k_queue s) <= 1.
Proof.
  intros conc c s A U; assert (X := user_queued c (k_log s)); rewrite (a_order _ _ A), times_app, (a_count _ _ A) in X.
  assert (Y : times c (queued (user_of c (k_log s))) <= 1); [|lia].
  destruct U as [->| ->]; cbn [queued]; [unfold times; cbn; lia|rewrite times_one; destruct (Nat.eq_dec c c); lia].
Qed.

(** Steps that do nothing to request [c]. *)
Lemma cinv_same : forall c s s', cinv c s -> times c (called (k_log s')) = times c (called (k_log s)) ->
  times c (done (k_log s')) = times c (done (k_log s)) -> k_cb s' c = k_cb s c ->
  calling c (k_pc s') = calling c (k_pc s) -> user_of c (k_log s') = user_of c (k_log s) -> cinv c s'.
Proof. intros c s s' [A B C] E1 E2 E3 E4 E5; constructor; rewrite ?E1, ?E2, ?E3, ?E4, ?E5; auto. Qed.
(** Steps that make no request wait for its callback. *)
Lemma cinv_still : forall c s s', cinv c s -> k_log s' = k_log s -> k_cb s' = k_cb s ->
  calling c (k_pc s) = false -> calling c (k_pc s') = false -> cinv c s'.
Proof. intros c s s' I L K C D; apply (cinv_same c s); rewrite ?L, ?K, ?C, ?D; auto. Qed.

Lemma snoc2 : forall (l : list cev) x, l ++ [x] = [x] -> l = [].
Proof. intros [|y [|z l]] x H; [reflexivity|discriminate|]; apply (f_equal (@length cev)) in H; rewrite app_length in H; cbn in H; lia. Qed.

Lemma cstep_inv : forall conc c a s s', ainv conc s -> cinv c s -> cstep conc a s = Some s' -> cinv c s'.
Proof.
  intros conc c a s s' A I H; assert (A' := astep _ _ _ _ A H); destruct a as [e|x|t x|t|t|t]; cbn [cstep] in H.
  - unfold handler_step in H; destruct (k_pc s) as [| | | | | |l|x l|x l| | |] eqn:P.
    + destruct (k_term s || _); injection H as <-; apply (cinv_still c s); rewrite ?P; auto.
    + destruct (start_some _ _ _ _) as [[[q r] ev]|] eqn:Q; injection H as <-; [|apply (cinv_still c s); rewrite ?P; auto].
      apply start_some_ok in Q as (m & E1 & E2 & E3 & _); [|apply A|apply A]; cbn in E3; subst ev.
      apply (cinv_same c s); cbn; rewrite ?P; auto.
      * now rewrite called_app, called_started, app_nil_r.
      * now rewrite done_app, done_started, app_nil_r.
      * now rewrite user_app, user_started, app_nil_r.
    + destruct e; [destruct (k_bytes s =? 0)|destruct (nodupb _ && _)]; inversion H; subst; apply (cinv_still c s); rewrite ?P; auto.
    + destruct (k_owner s); inversion H; subst; apply (cinv_still c s); rewrite ?P; auto.
    + destruct (k_bytes s =? 0); injection H as <-; apply (cinv_still c s); rewrite ?P; auto.
    + injection H as <-; apply (cinv_still c s); rewrite ?P; auto.
    + destruct l as [|x l]; [injection H as <-; apply (cinv_still c s); rewrite ?P; auto|].
      destruct (memb x (k_run s)); injection H as <-; [|apply (cinv_still c s); rewrite ?P; auto].
      destruct I as [B C D]; rewrite P in *; cbn [calling] in *; constructor; cbn [k_log k_pc k_cb with_pc with_reqs calling] in *.
      * rewrite called_app, done_app; cbn [called done]; rewrite app_nil_r, times_app; lia.
      * rewrite called_app, done_app; cbn [called done]; rewrite app_nil_r, times_app, times_one; intros X; apply Nat.eqb_eq in X; destruct (Nat.eq_dec x c); [lia|congruence].
      * intros U; assert (L := one_done _ _ _ A' U); cbn [k_log k_run k_queue with_pc with_reqs] in L.
        rewrite user_app in U; cbn [user_of] in U; rewrite app_nil_r in U; destruct (D U) as (D1 & D2 & D3).
        rewrite done_app in *; cbn [done] in *; rewrite times_app, times_one in *; rewrite called_app; cbn [called]; rewrite app_nil_r.
        destruct (Nat.eqb_spec x c) as [->|N]; destruct (Nat.eq_dec _ c) as [E|E]; try congruence.
        -- split; [lia|]; split; [intros _; apply D1; lia|discriminate].
        -- split; [intros Z; apply D1; lia|]; split; [discriminate|]; intros _; rewrite D3 by reflexivity; lia.
    + destruct I as [B C D]; rewrite P in *; cbn [calling] in *; destruct (k_cb s x) eqn:CB; injection H as <-;
        constructor; cbn [k_log k_pc k_cb with_pc with_reqs calling] in *; try discriminate; auto.
      * rewrite called_app, done_app; cbn [called done]; rewrite app_nil_r, times_app, times_one; destruct (Nat.eq_dec x c) as [E|E]; [|lia].
        apply Nat.eqb_eq in E; specialize (C E); lia.
      * intros U; assert (L := one_done _ _ _ A' U); cbn [k_log k_run k_queue with_pc with_reqs] in L.
        rewrite user_app in U; cbn [user_of] in U; rewrite app_nil_r in U; destruct (D U) as (D1 & D2 & D3).
        rewrite done_app in *; cbn [done] in *; rewrite app_nil_r in *; rewrite called_app; cbn [called]; rewrite times_app, times_one.
        split; [auto|]; split; [discriminate|]; intros _; destruct (Nat.eqb_spec x c) as [->|N]; destruct (Nat.eq_dec _ c) as [E|E]; try congruence.
        -- specialize (C eq_refl); lia.
        -- rewrite D3 by reflexivity; lia.
      * intros U; destruct (D U) as (D1 & D2 & D3); split; [auto|]; split; [discriminate|]; intros _; apply D3.
        destruct (Nat.eqb_spec x c) as [->|N]; [|reflexivity]; specialize (D2 eq_refl); congruence.
    + injection H as <-; destruct I as [B C D]; rewrite P in *; cbn [calling] in *;
        constructor; cbn [k_log k_pc k_cb with_pc with_cb calling] in *; rewrite ?app_nil_r in *; auto; try discriminate.
      intros U; destruct (D U) as (D1 & D2 & D3); split; [|split; [discriminate|auto]]; intros Z.
      destruct (Nat.eq_dec c x) as [->|N]; [|rewrite upd_ne; auto].
      assert (X := a_pc _ _ A); rewrite P in X; destruct X as (_ & _ & X); apply (count_occ_In Nat.eq_dec) in X; unfold times in Z; lia.
    + destruct (k_owner s); inversion H; subst; apply (cinv_still c s); rewrite ?P; auto.
    + discriminate.
    + discriminate.
  - injection H as <-; destruct (Nat.eq_dec x c) as [->|N].
    + destruct I as [B C D]; constructor; cbn [k_log k_pc k_cb with_cb] in *; rewrite ?called_app, ?done_app; cbn [called done]; rewrite ?app_nil_r; auto.
      rewrite upd_eq; intros U; split; [auto|]; split; [auto|]; intros _.
      rewrite user_app in U; cbn [user_of] in U; rewrite Nat.eqb_refl in U; destruct U as [U|U].
      * apply snoc2 in U; assert (X := user_queued c (k_log s)); rewrite U, (a_order _ _ A), times_app, (a_count _ _ A) in X; unfold times at 4 in X; cbn in X; lia.
      * apply (f_equal (@rev cev)) in U; rewrite rev_app_distr in U; discriminate.
    + apply (cinv_same c s); cbn [k_log k_pc k_cb with_cb]; rewrite ?called_app, ?done_app, ?user_app; cbn [called done user_of]; rewrite ?app_nil_r; auto.
      * rewrite upd_ne; auto.
      * apply Nat.eqb_neq in N; rewrite N, app_nil_r; reflexivity.
  - destruct (is_out _); [|discriminate]; injection H as <-; apply (cinv_same c s); auto.
  - destruct (is_out _); [|discriminate]; injection H as <-; apply (cinv_same c s); auto.
  - destruct (is_out _); [|discriminate]; injection H as <-; apply (cinv_same c s); auto.
  - unfold thread_step in H; destruct (k_threads s t) as [|x|b|b|b|]; [discriminate| | | | |].
    + destruct (k_owner s); [discriminate|]; injection H as <-; destruct (Nat.eq_dec x c) as [->|N].
      * destruct I as [B C D]; constructor; cbn [k_log k_pc k_cb with_thread with_owner with_reqs] in *; rewrite ?called_app, ?done_app; cbn [called done]; rewrite ?app_nil_r; auto.
        intros U; apply D; rewrite user_app in U; cbn [user_of] in U; rewrite Nat.eqb_refl in U; left; destruct U as [U|U].
        -- apply (f_equal (@rev cev)) in U; rewrite rev_app_distr in U; discriminate.
        -- change [ESet c; EQueued c] with ([ESet c] ++ [EQueued c]) in U; apply app_inj_tail in U; tauto.
      * apply (cinv_same c s); cbn [k_log k_pc k_cb with_thread with_owner with_reqs]; rewrite ?called_app, ?done_app, ?user_app; cbn [called done user_of]; rewrite ?app_nil_r; auto.
        apply Nat.eqb_neq in N; rewrite N, app_nil_r; reflexivity.
    + destruct (k_waking s); injection H as <-; apply (cinv_same c s); auto.
    + injection H as <-; apply (cinv_same c s); auto.
    + injection H as <-; apply (cinv_same c s); auto.
    + injection H as <-; apply (cinv_same c s); auto.
Qed.
Lemma cinv_reach : forall conc c s, creachable conc s -> ainv conc s /\ cinv c s.
Proof.
  intros conc c s [l H]; apply (cexec_ind conc (fun s => ainv conc s /\ cinv c s)) with (l := l) (s := c_init); auto.
  - intros a s1 s2 [A B] ST; split; [eapply astep|eapply cstep_inv]; eauto.
  - split; [apply ainv_init|]; constructor; cbn; auto; try discriminate; intros [|]; discriminate.
Qed.

Lemma callbacks : forall conc s c, creachable conc s -> times c (called (k_log s)) <= times c (done (k_log s)).
Proof. intros conc s c R; apply (cinv_reach conc c) in R as [_ R]; apply R. Qed.
Lemma callback_once : forall conc s c, creachable conc s -> user_of c (k_log s) = [ESet c; EQueued c] ->
  times c (called (k_log s)) <= 1 /\
  (times c (called (k_log s)) < times c (done (k_log s)) -> exists l, k_pc s = HCall c l).
Proof.
  intros conc s c R U; apply (cinv_reach conc c) in R as [A R]; assert (L := one_done _ _ _ A (or_intror U)); split; [assert (X := c_some _ _ R); lia|].
  intros X; destruct (c_one _ _ R (or_intror U)) as (_ & _ & D); destruct (calling c (k_pc s)) eqn:C; [|rewrite D in X; [lia|reflexivity]].
  destruct (k_pc s); try discriminate; cbn in C; apply Nat.eqb_eq in C; subst; eauto.
Qed.
Lemma callback_at_stop : forall conc s c, creachable conc s -> user_of c (k_log s) = [ESet c; EQueued c] ->
  k_pc s = HEnd -> k_term s = false -> ~ In c (k_queue s) -> times c (called (k_log s)) = 1.
Proof.
  intros conc s c R U E T Q; apply (cinv_reach conc c) in R as [A R]; destruct (c_one _ _ R (or_intror U)) as (_ & _ & D).
  rewrite D by (rewrite E; reflexivity).
  assert (X := user_queued c (k_log s)); rewrite U, (a_order _ _ A), times_app, (a_count _ _ A) in X; cbn [queued] in X; rewrite times_one in X.
  destruct (Nat.eq_dec c c); [|congruence]; apply (count_occ_not_In Nat.eq_dec) in Q; fold (times c (k_queue s)) in Q.
  destruct (a_end _ _ A E) as [Y|Y]; [congruence|]; rewrite Y in X; change (times c []) with 0 in X; lia.
Qed.

Lemma stop_step : forall conc a s s', creachable conc s -> cstep conc a s = Some s' -> k_pc s <> HEnd -> k_pc s' = HEnd ->
  k_term s' = true \/ (k_stop s' = true /\ k_queue s' = [] /\ k_run s' = []).
Proof.
  intros conc a s s' R H N E; destruct a as [e|x|t x|t|t|t]; cbn [cstep] in H.
  - unfold handler_step in H; destruct (k_pc s) as [| | | | | |l|x l|x l| | |] eqn:P.
    + destruct (k_term s) eqn:T; [injection H as <-; now left|].
      destruct (k_stop s) eqn:ST; [|injection H as <-; discriminate].
      destruct (k_queue s) eqn:Q; [|injection H as <-; discriminate].
      destruct (k_run s) eqn:RN; injection H as <-; [right; cbn; auto|discriminate].
    + destruct (start_some _ _ _ _) as [[[q r] ev]|]; injection H as <-; discriminate.
    + destruct e; [destruct (k_bytes s =? 0)|destruct (nodupb _ && _)]; inversion H; subst; discriminate.
    + destruct (k_owner s); inversion H; subst; discriminate.
    + destruct (k_bytes s =? 0); injection H as <-; discriminate.
    + injection H as <-; discriminate.
    + destruct l as [|x l]; [|destruct (memb x (k_run s))]; injection H as <-; discriminate.
    + destruct (k_cb s x); injection H as <-; discriminate.
    + injection H as <-; discriminate.
    + destruct (k_owner s); inversion H; subst; discriminate.
    + discriminate.
    + discriminate.
  - injection H as <-; contradiction.
  - destruct (is_out _); [|discriminate]; injection H as <-; contradiction.
  - destruct (is_out _); [|discriminate]; injection H as <-; contradiction.
  - destruct (is_out _); [|discriminate]; injection H as <-; contradiction.
  - unfold thread_step in H; destruct (k_threads s t) as [|x|b|b|b|]; [discriminate| | | | |].
    + destruct (k_owner s); [discriminate|]; injection H as <-; contradiction.
    + destruct (k_waking s); injection H as <-; contradiction.
    + injection H as <-; contradiction.
    + injection H as <-; contradiction.
    + injection H as <-; contradiction.
Qed.

Lemma reuse : exists s, creachable 1 s /\ k_pc s = HPoll /\ quiet s /\
  k_log s = [ESet 0; EQueued 0; EStarted 0; EDone 0; ECalled 0; ESet 0; EQueued 0; EStarted 0; EDone 0].
Proof.
  eexists; split.
  - exists ([h; h; ASet 0] ++ queues 1 0 ++ wakes ++ reports 0 ++ [ASet 0] ++ queues 1 0 ++ finishes ++ reports 0 ++ [h; h; h; h]); vm_compute; reflexivity.
  - split; [reflexivity|]; split; [|reflexivity]. intros [|[|t]]; reflexivity.
Qed.
Lemma twice : exists s, creachable 2 s /\ k_pc s = HFail /\ queued (k_log s) = [0; 0].
Proof.
  eexists; split.
  - exists ([h; h] ++ queues 1 0 ++ [AQueue 1 0; AThread 1; AThread 1; AThread 1] ++ wakes); vm_compute; reflexivity.
  - split; reflexivity.
Qed.
