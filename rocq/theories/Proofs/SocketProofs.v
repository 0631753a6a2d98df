(** Proofs about the socket table. *)
From Coq Require Import List NArith ZArith Bool Arith Lia.
From Verif Require Import Model.Sockets Spec.SocketSpec.
Import ListNotations.

Lemma memN_In : forall x l, memN x l = true <-> In x l.
Proof.
  intros x l; unfold memN; rewrite existsb_exists; split.
  - intros [y [I E]]; apply N.eqb_eq in E; now subst.
  - intros I; exists x; split; [exact I|apply N.eqb_refl].
Qed.
Lemma delN_In : forall x y l, In y (delN x l) <-> In y l /\ y <> x.
Proof. intros; unfold delN; rewrite filter_In, negb_true_iff, N.eqb_neq; tauto. Qed.
Lemma dropN_In : forall {A} x (p : N * A) l, In p (dropN x l) <-> In p l /\ fst p <> x.
Proof. intros; unfold dropN; rewrite filter_In, negb_true_iff, N.eqb_neq; tauto. Qed.

Lemma findN_In : forall {A} x (a : A) l, findN x l = Some a -> In (x, a) l.
Proof.
  intros A x a l; induction l as [|[y b] l IH]; cbn; [discriminate|].
  destruct (N.eqb_spec y x) as [->|]; [intros E; injection E as ->; now left|right; auto].
Qed.
Lemma findN_None : forall {A} x (l : list (N * A)), findN x l = None -> forall a, ~ In (x, a) l.
Proof.
  intros A x l; induction l as [|[y b] l IH]; cbn; [tauto|].
  destruct (N.eqb_spec y x) as [->|N]; [discriminate|intros E a [I|I]; [congruence|exact (IH E a I)]].
Qed.
Lemma findN_nodup : forall {A} x (a : A) (l : list (N * A)), NoDup (map fst l) -> In (x, a) l -> findN x l = Some a.
Proof.
  intros A x a l; induction l as [|[y b] l IH]; cbn; [tauto|]; intros D I; inversion D; subst.
  destruct (N.eqb_spec y x) as [->|N].
  - destruct I as [I|I]; [congruence|]; exfalso; apply H1; change x with (fst (x, a)); now apply in_map.
  - destruct I as [I|I]; [congruence|auto].
Qed.
Lemma nodup_fst : forall {A} x (a b : A) (l : list (N * A)), NoDup (map fst l) -> In (x, a) l -> In (x, b) l -> a = b.
Proof. intros A x a b l D I J; apply (findN_nodup _ _ _ D) in I; apply (findN_nodup _ _ _ D) in J; congruence. Qed.

Lemma filter_nodup : forall {A} (f : N * A -> bool) l, NoDup (map fst l) -> NoDup (map fst (filter f l)).
Proof.
  intros A f l; induction l as [|p l IH]; cbn; intros D; [constructor|]; inversion D; subst.
  destruct (f p); cbn; [constructor|]; auto.
  intros I; apply H1; apply in_map_iff in I as [q [E I]]; apply filter_In in I as [I _]; rewrite <- E; now apply in_map.
Qed.
Lemma dropN_absent : forall {A} x (l : list (N * A)), (forall a, ~ In (x, a) l) -> dropN x l = l.
Proof.
  intros A x l; induction l as [|[y b] l IH]; cbn; intros N; [reflexivity|].
  destruct (N.eqb_spec y x) as [->|]; [destruct (N b); now left|]; cbn; f_equal; apply IH; intros a I; apply (N a); now right.
Qed.
Lemma delN_absent : forall x l, ~ In x l -> delN x l = l.
Proof.
  intros x l; induction l as [|y l IH]; cbn; intros N; [reflexivity|].
  destruct (N.eqb_spec y x) as [->|]; [destruct N; now left|]; cbn; f_equal; apply IH; intros I; apply N; now right.
Qed.
Lemma dropN_head : forall {A} x (a : A) (l : list (N * A)), dropN x ((x, a) :: l) = dropN x l.
Proof. intros; unfold dropN; cbn; now rewrite N.eqb_refl. Qed.
Lemma delN_head : forall x l, delN x (x :: l) = delN x l.
Proof. intros; unfold delN; cbn; now rewrite N.eqb_refl. Qed.
Lemma dropN_length : forall {A} x (a : A) (l : list (N * A)), NoDup (map fst l) -> In (x, a) l -> length l = S (length (dropN x l)).
Proof.
  intros A x a l; induction l as [|[y b] l IH]; cbn; [tauto|]; intros D I; inversion D; subst.
  destruct (N.eqb_spec y x) as [->|N]; cbn.
  - f_equal; symmetry; apply (f_equal (@length _)), (dropN_absent x l); intros c J; apply H1; change x with (fst (x, c)); now apply in_map.
  - f_equal; apply IH; [assumption|]; destruct I; [congruence|assumption].
Qed.

Lemma upd_nth : forall {A} (f : A -> A) l n m, nth_error (upd n f l) m = if Nat.eqb m n then option_map f (nth_error l m) else nth_error l m.
Proof.
  intros A f l; induction l as [|a l IH]; intros n m; destruct n, m; cbn; auto; now destruct (Nat.eqb m n).
Qed.
Lemma upd_app : forall {A} (f : A -> A) l a, upd (length l) f (l ++ [a]) = l ++ [f a].
Proof. intros A f l a; induction l; cbn; [reflexivity|now f_equal]. Qed.
Lemma upd_length : forall {A} (f : A -> A) l n, length (upd n f l) = length l.
Proof. intros A f l; induction l; intros n; destruct n; cbn; auto. Qed.

Record ginv (s : grp) : Prop := mkGinv {
  i_open : NoDup (map fst (g_open s));
  i_map : NoDup (map fst (g_map s));
  i_valid : forall d x, nth_error (g_data s) d = Some x -> d_valid x = true ->
    In (d_fd x, KConn d) (g_open s) /\ In (d_fd x) (g_poll s) /\ In (d_fd x, d) (g_map s);
  i_conn : forall fd d, In (fd, KConn d) (g_open s) -> exists x, nth_error (g_data s) d = Some x /\ d_valid x = true /\ d_fd x = fd;
  i_mapd : forall fd d, In (fd, d) (g_map s) -> exists x, nth_error (g_data s) d = Some x /\ d_fd x = fd;
  i_lis : forall fd, In fd (g_listeners s) <-> In (fd, KListener) (g_open s);
  i_poll : forall fd, In fd (g_poll s) -> exists o, In (fd, o) (g_open s);
  i_wake : forall fd, In (fd, KWakeEnd) (g_open s) -> fd = wake_fd
}.

Lemma ginit_inv : ginv g_init.
Proof.
  constructor; cbn; try (intros; tauto).
  - constructor; [tauto|constructor].
  - constructor.
  - intros d x E; destruct d; discriminate.
  - intros fd d [E|[]]; discriminate.
  - intros fd; split; [tauto|intros [E|[]]; discriminate].
  - intros fd [<-|[]]; exists KWakeEnd; now left.
  - intros fd [E|[]]; congruence.
Qed.

Lemma owned_open : forall s fd d, ginv s -> In (fd, KConn d) (g_open s) -> owned fd d s = true.
Proof. intros s fd d I H; unfold owned; rewrite (findN_nodup _ _ _ (i_open _ I) H); apply Nat.eqb_refl. Qed.

(** The state after a valid socket is closed. *)
Definition closed (d : nat) (fd : N) (s : grp) : grp :=
  set_map (dropN fd (g_map s)) (set_data (upd d invalidate (g_data s)) (shut fd s)).

Lemma close_some : forall s d x, ginv s -> nth_error (g_data s) d = Some x -> d_valid x = true ->
  close d s = Some (closed d (d_fd x) s).
Proof.
  intros s d x I E V; destruct (i_valid _ I d x E V) as [O [_ M]].
  unfold close; rewrite E, V, (owned_open _ _ _ I O); unfold map_erase; cbn.
  rewrite (findN_nodup _ _ _ (i_map _ I) M); unfold destroy; cbn; rewrite upd_nth, Nat.eqb_refl, E; cbn; reflexivity.
Qed.

Lemma closed_inv : forall s d x, ginv s -> nth_error (g_data s) d = Some x -> d_valid x = true -> ginv (closed d (d_fd x) s).
Proof.
  intros s d x I E V; destruct (i_valid _ I d x E V) as [O [P M]].
  constructor; unfold closed, shut; cbn.
  - apply filter_nodup, (i_open _ I).
  - apply filter_nodup, (i_map _ I).
  - intros e y F W; rewrite upd_nth in F; destruct (Nat.eqb_spec e d) as [->|N].
    + rewrite E in F; cbn in F; injection F as <-; discriminate.
    + destruct (i_valid _ I e y F W) as [O' [P' M']].
      assert (d_fd y <> d_fd x).
      { intros X; rewrite X in O'; assert (Y := nodup_fst _ _ _ _ (i_open _ I) O O'); congruence. }
      repeat split; [apply dropN_In|apply delN_In|apply dropN_In]; cbn; auto.
  - intros fd e H; apply dropN_In in H as [H N]; cbn in N; destruct (i_conn _ I fd e H) as [y [F [W Z]]].
    exists y; rewrite upd_nth; destruct (Nat.eqb_spec e d) as [->|]; [|auto]; congruence.
  - intros fd e H; apply dropN_In in H as [H N]; cbn in N; destruct (i_mapd _ I fd e H) as [y [F Z]].
    rewrite upd_nth; destruct (Nat.eqb_spec e d) as [->|]; [congruence|exists y; auto].
  - intros fd; rewrite (i_lis _ I fd), dropN_In; cbn; split; [|tauto]; intros H; split; [exact H|].
    intros ->; assert (Y := nodup_fst _ _ _ _ (i_open _ I) O H); discriminate.
  - intros fd H; apply delN_In in H as [H N]; destruct (i_poll _ I fd H) as [o Q]; exists o; apply dropN_In; cbn; auto.
  - intros fd H; apply dropN_In in H as [H _]; exact (i_wake _ I fd H).
Qed.

Lemma nth_snoc : forall {A} (l : list A) a n y, nth_error (l ++ [a]) n = Some y ->
  (n < length l /\ nth_error l n = Some y) \/ (n = length l /\ y = a).
Proof.
  intros A l a n y H; destruct (Nat.lt_ge_cases n (length l)) as [L|L].
  - left; split; [exact L|now rewrite nth_error_app1 in H].
  - right; rewrite nth_error_app2 in H by exact L; destruct (n - length l) as [|[|k]] eqn:E; cbn in H; try discriminate.
    split; [lia|congruence].
Qed.
Lemma nth_some : forall {A} (l : list A) a n y, nth_error l n = Some y -> nth_error (l ++ [a]) n = Some y.
Proof. intros A l a n y H; rewrite nth_error_app1; [exact H|apply nth_error_Some; congruence]. Qed.

(** A connection taken in, the three ways it may go. *)
Definition adopted (fd : N) (s : grp) : grp :=
  let d := length (g_data s) in
  mkGrp (g_data s ++ [mkDat fd true false]) ((fd, d) :: g_map s) (g_listeners s) (g_accept s) (g_refresh s)
    (fd :: g_poll s) ((fd, KConn d) :: g_open s).
Definition unpolled (fd : N) (s : grp) : grp :=
  let d := length (g_data s) in
  mkGrp (g_data s ++ [mkDat fd false false]) ((fd, d) :: dropN fd (g_map s)) (g_listeners s) (g_accept s) (g_refresh s)
    (g_poll s) (g_open s).
Definition dropped (fd : N) (s : grp) : grp :=
  mkGrp (g_data s ++ [mkDat fd false false]) (g_map s) (g_listeners s) (g_accept s) (g_refresh s) (g_poll s) (g_open s).

Lemma adopt_some : forall s fd add, ginv s -> findN fd (g_open s) = None ->
  adopt fd add s = Some (if add then match findN fd (g_map s) with None => adopted fd s | Some _ => dropped fd s end else unpolled fd s).
Proof.
  intros s fd add I N; assert (A := findN_None _ _ N).
  assert (P : ~ In fd (g_poll s)) by (intros H; destruct (i_poll _ I fd H) as [o H']; exact (A o H')).
  assert (X : nth_error (g_data s ++ [mkDat fd true false]) (length (g_data s)) = Some (mkDat fd true false)).
  { rewrite nth_error_app2 by lia; rewrite Nat.sub_diag; reflexivity. }
  unfold adopt; destruct add; cbn.
  - destruct (findN fd (g_map s)) as [d0|] eqn:F; [|reflexivity].
    unfold destroy; cbn; rewrite X; cbn; unfold owned; cbn; rewrite N.eqb_refl, Nat.eqb_refl; f_equal.
    unfold set_data, shut, dropped; cbn -[dropN delN]; rewrite dropN_head, delN_head, upd_app; cbn -[dropN delN].
    rewrite (dropN_absent fd (g_open s) A), delN_absent by exact P; reflexivity.
  - unfold close; cbn; rewrite X; cbn; unfold owned; cbn; rewrite N.eqb_refl, Nat.eqb_refl.
    assert (S1 : set_data (upd (length (g_data s)) invalidate (g_data s ++ [mkDat fd true false]))
        (shut fd (set_open ((fd, KConn (length (g_data s))) :: g_open s) (set_data (g_data s ++ [mkDat fd true false]) s))) = dropped fd s).
    { unfold set_data, shut, dropped; cbn -[dropN delN]; rewrite dropN_head, upd_app; cbn -[dropN delN].
      rewrite (dropN_absent fd (g_open s) A), delN_absent by exact P; reflexivity. }
    rewrite S1; unfold map_erase; cbn.
    assert (G : forall m, m = dropN fd (g_map s) -> findN fd m = None).
    { intros m ->; destruct (findN fd (dropN fd (g_map s))) as [e|] eqn:F; [|reflexivity].
      apply findN_In, dropN_In in F; now destruct F. }
    destruct (findN fd (g_map s)) as [d0|] eqn:F.
    + destruct (i_mapd _ I fd d0 (findN_In _ _ _ F)) as [x [E Z]].
      unfold destroy; cbn; rewrite (nth_some _ _ _ _ E).
      destruct (d_valid x) eqn:V.
      * destruct (i_valid _ I d0 x E V) as [O _]; rewrite Z in O; destruct (A _ O).
      * cbn -[dropN]; rewrite (G _ eq_refl); reflexivity.
    + cbn; rewrite F; unfold unpolled; rewrite (dropN_absent fd (g_map s)) by (exact (findN_None _ _ F)); reflexivity.
Qed.

Lemma adopt_inv : forall s fd add s', ginv s -> findN fd (g_open s) = None -> adopt fd add s = Some s' -> ginv s'.
Proof.
  intros s fd add s' I N H; rewrite (adopt_some s fd add I N) in H; injection H as <-.
  assert (A := findN_None _ _ N).
  assert (DR : ginv (dropped fd s)).
  { constructor; unfold dropped; cbn; try apply I.
    - intros d x E V; destruct (nth_snoc _ _ _ _ E) as [[_ E']|[_ ->]]; [exact (i_valid _ I d x E' V)|discriminate].
    - intros f d H; destruct (i_conn _ I f d H) as [x [E Z]]; exists x; split; [now apply nth_some|exact Z].
    - intros f d H; destruct (i_mapd _ I f d H) as [x [E Z]]; exists x; split; [now apply nth_some|exact Z]. }
  assert (LN : nth_error (g_data s ++ [mkDat fd true false]) (length (g_data s)) = Some (mkDat fd true false)).
  { rewrite nth_error_app2 by lia; rewrite Nat.sub_diag; reflexivity. }
  assert (LN' : nth_error (g_data s ++ [mkDat fd false false]) (length (g_data s)) = Some (mkDat fd false false)).
  { rewrite nth_error_app2 by lia; rewrite Nat.sub_diag; reflexivity. }
  destruct add.
  - destruct (findN fd (g_map s)) as [d0|] eqn:F; [exact DR|].
    assert (B := findN_None _ _ F).
    constructor; unfold adopted; cbn.
    + constructor; [|apply I]; intros X; apply in_map_iff in X as [[y o] [E X]]; cbn in E; subst; exact (A o X).
    + constructor; [|apply I]; intros X; apply in_map_iff in X as [[y o] [E X]]; cbn in E; subst; exact (B o X).
    + intros d x E V; destruct (nth_snoc _ _ _ _ E) as [[_ E']|[-> ->]]; [|cbn; auto].
      destruct (i_valid _ I d x E' V) as [X [Y Z]]; auto.
    + intros f d [H|H]; [injection H as <- <-; exists (mkDat fd true false); auto|].
      destruct (i_conn _ I f d H) as [x [E Z]]; exists x; split; [now apply nth_some|exact Z].
    + intros f d [H|H]; [injection H as <- <-; exists (mkDat fd true false); auto|].
      destruct (i_mapd _ I f d H) as [x [E Z]]; exists x; split; [now apply nth_some|exact Z].
    + intros f; rewrite (i_lis _ I f); split; [now right|intros [X|X]; [discriminate|exact X]].
    + intros f [->|H]; [exists (KConn (length (g_data s))); now left|]; destruct (i_poll _ I f H) as [o O]; exists o; now right.
    + intros f [X|X]; [discriminate|exact (i_wake _ I f X)].
  - destruct DR as [D1 D2 D3 D4 D5 D6 D7 D8]; cbn in *.
    constructor; unfold unpolled; cbn; try assumption.
    + constructor; [|now apply filter_nodup]; intros X; apply in_map_iff in X as [[y o] [E X]]; cbn in E; subst.
      apply dropN_In in X; destruct X as [_ X]; now apply X.
    + intros d x E V; destruct (D3 d x E V) as [X [Y Z]]; repeat split; auto; right; apply dropN_In; split; [exact Z|cbn].
      intros W; rewrite W in X; exact (A _ X).
    + intros f d [H|H]; [injection H as <- <-; exists (mkDat fd false false); auto|].
      apply dropN_In in H; now apply D5.
Qed.

Lemma refresh_inv : forall s ok s', ginv s -> refresh ok s = Some s' -> ginv s' /\
  g_data s' = g_data s /\ g_map s' = g_map s /\ g_open s' = g_open s /\ g_listeners s' = g_listeners s /\ g_accept s' = g_accept s.
Proof.
  intros s ok s' I H; unfold refresh in H; destruct (g_refresh s); [|injection H as <-; auto 10].
  destruct (_ && _)%bool; [discriminate|]; injection H as <-; split; [|cbn; auto].
  set (p := filter (fun fd => negb (memN fd (g_listeners s))) (g_poll s)).
  constructor; cbn; try apply I.
  - intros d x E V; destruct (i_valid _ I d x E V) as [X [Y Z]]; repeat split; auto.
    assert (Q : In (d_fd x) p).
    { apply filter_In; split; [exact Y|]; apply negb_true_iff, not_true_is_false; intros M; apply memN_In in M.
      apply (i_lis _ I) in M; assert (W := nodup_fst _ _ _ _ (i_open _ I) X M); discriminate. }
    destruct (g_accept s); [apply in_or_app; now right|exact Q].
  - intros fd H; assert (Q : In fd (g_listeners s) \/ In fd p).
    { destruct (g_accept s); [now apply in_app_or in H|now right]. }
    destruct Q as [Q|Q]; [exists KListener; now apply (i_lis _ I)|apply filter_In in Q; now apply (i_poll _ I)].
Qed.

(** Changes to a socket that do not concern validity. *)
Lemma mark_inv : forall s d, ginv s -> ginv (set_data (upd d mark_closing (g_data s)) s).
Proof.
  intros s d I; constructor; cbn; try apply I.
  - intros e x E V; rewrite upd_nth in E; destruct (Nat.eqb e d); [|exact (i_valid _ I e x E V)].
    destruct (nth_error (g_data s) e) as [y|] eqn:F; [|discriminate]; cbn in E; injection E as <-; exact (i_valid _ I e y F V).
  - intros fd e H; destruct (i_conn _ I fd e H) as [x [E [V F]]]; rewrite upd_nth; destruct (Nat.eqb e d); [|exists x; auto].
    rewrite E; exists (mark_closing x); auto.
  - intros fd e H; destruct (i_mapd _ I fd e H) as [x [E F]]; rewrite upd_nth; destruct (Nat.eqb e d); [|exists x; auto].
    rewrite E; exists (mark_closing x); auto.
Qed.

Lemma poll_known : forall s fd, ginv s -> In fd (g_poll s) ->
  fd = wake_fd \/ In fd (g_listeners s) \/ exists d, In (fd, d) (g_map s) /\ In (fd, KConn d) (g_open s).
Proof.
  intros s fd I H; destruct (i_poll _ I fd H) as [[| |d] O].
  - left; exact (i_wake _ I fd O).
  - right; left; now apply (i_lis _ I).
  - right; right; destruct (i_conn _ I fd d O) as [x [E [V F]]]; destruct (i_valid _ I d x E V) as [X [Y Z]]; subst.
    exists d; auto.
Qed.

Lemma closing_ok : forall s d x, ginv s -> nth_error (g_data s) d = Some x -> d_valid x = true ->
  closing_after d s = Ok (closed d (d_fd x) s) (RNum (-1)).
Proof. intros s d x I E V; unfold closing_after; now rewrite (close_some s d x I E V). Qed.

(** One operation: never wrong, the invariant stays; if it changes the sockets
    it takes one in or closes one. *)
Inductive change : gop -> grp -> grp -> Prop :=
| ChNone : forall o s s', g_map s' = g_map s ->
    map d_valid (g_data s') = map d_valid (g_data s) -> change o s s'
| ChClose : forall o s d x, nth_error (g_data s) d = Some x -> d_valid x = true -> change o s (closed d (d_fd x) s)
| ChAdopt : forall o s s1 fd s', g_data s1 = g_data s -> g_map s1 = g_map s -> g_open s1 = g_open s -> ginv s1 ->
    findN fd (g_open s1) = None -> adopt fd (adds o) s1 = Some s' -> change o s s'.

Lemma map_upd : forall l d, map d_valid (upd d mark_closing l) = map d_valid l.
Proof. induction l as [|x l IH]; intros d; destruct d; cbn; [reflexivity|reflexivity|reflexivity|now rewrite IH]. Qed.

Lemma create_change : forall ok e a s s1, ginv s1 -> g_data s1 = g_data s -> g_map s1 = g_map s -> g_open s1 = g_open s ->
  match create_socket a s1 with Ok s' r => ginv s' /\ change (OPoll ok e a) s s' | Wrong => False | _ => True end.
Proof.
  intros ok e a s s1 I D M O; destruct a as [|fd nb add]; cbn; [exact Logic.I|].
  destruct (findN fd (g_open s1)) eqn:F; [exact Logic.I|].
  destruct nb; cbn; [|split; [exact I|apply ChNone; congruence]].
  destruct (g_accept s1); [|split; [exact I|apply ChNone; congruence]].
  destruct (adopt fd add s1) as [s'|] eqn:A; [|rewrite (adopt_some _ _ _ I F) in A; discriminate].
  split; [exact (adopt_inv _ _ _ _ I F A)|]; eapply ChAdopt; eauto.
Qed.

Lemma gstep_change : forall o s, ginv s ->
  match gstep o s with Ok s' r => ginv s' /\ change o s s' | Wrong => False | _ => True end.
Proof.
  intros o s I; destruct o as [fd|fd add|st|ok e a|d k|d k|d]; cbn.
  - destruct (findN fd (g_open s)) eqn:F; [exact Logic.I|]; assert (A := findN_None _ _ F).
    split; [|now apply ChNone].
    constructor; cbn; try apply I.
    + constructor; [|apply I]; intros X; apply in_map_iff in X as [[y o] [E X]]; cbn in E; subst; exact (A o X).
    + intros d x E V; destruct (i_valid _ I d x E V) as [X [Y Z]]; auto.
    + intros f d [X|X]; [discriminate|exact (i_conn _ I f d X)].
    + intros f; rewrite (i_lis _ I f); split; [intros [->|X]; auto|intros [X|X]; [left; congruence|auto]].
    + intros f X; destruct (i_poll _ I f X) as [o O]; exists o; now right.
    + intros f [X|X]; [discriminate|exact (i_wake _ I f X)].
  - destruct (findN fd (g_open s)) eqn:F; [exact Logic.I|].
    destruct (adopt fd add s) as [s'|] eqn:A; [|rewrite (adopt_some _ _ _ I F) in A; discriminate].
    assert (G : exists d, findN fd (g_map s') = Some d).
    { rewrite (adopt_some _ _ _ I F) in A; injection A as <-; destruct add.
      - destruct (findN fd (g_map s)) as [d0|] eqn:M; cbn; [exists d0; exact M|].
        rewrite N.eqb_refl; eexists; reflexivity.
      - cbn; rewrite N.eqb_refl; eexists; reflexivity. }
    destruct G as [d ->]; split; [exact (adopt_inv _ _ _ _ I F A)|].
    eapply (ChAdopt _ _ s fd); auto.
  - destruct (Bool.eqb st (g_accept s)); (split; [|now apply ChNone]); [exact I|].
    constructor; cbn; apply I.
  - unfold poll_turn; destruct (_ =? 0)%nat; [split; [exact I|now apply ChNone]|].
    destruct (refresh ok s) as [s1|] eqn:R; [|exact Logic.I].
    destruct (refresh_inv s ok s1 I R) as [I1 [D [M [O [L A]]]]].
    destruct e as [|fd f]; [split; [exact I1|apply ChNone; congruence]|].
    destruct (memN fd (g_poll s1)) eqn:P; cbn; [|exact Logic.I]; apply memN_In in P.
    destruct (memN fd (g_listeners s1)) eqn:Li.
    + destruct (only_in f); [|exact Logic.I]; now apply create_change.
    + destruct (N.eqb_spec fd wake_fd) as [->|W].
      * destruct (only_in f); [split; [exact I1|apply ChNone; congruence]|].
        destruct (_ || _)%bool; [exact Logic.I|split; [exact I1|apply ChNone; congruence]].
      * destruct (poll_known s1 fd I1 P) as [X|[X|[d [X Y]]]]; [contradiction|apply memN_In in X; congruence|].
        rewrite (findN_nodup _ _ _ (i_map _ I1) X).
        destruct (_ || _)%bool; [split; [now apply mark_inv|apply ChNone; cbn; rewrite ?map_upd; congruence]|].
        destruct (f_in f); [split; [exact I1|apply ChNone; congruence]|exact Logic.I].
  - destruct (nth_error (g_data s) d) as [x|] eqn:E; [|exact Logic.I].
    destruct (d_valid x) eqn:V; cbn; [|split; [exact I|now apply ChNone]].
    destruct (i_valid _ I d x E V) as [O _]; rewrite (owned_open _ _ _ I O); cbn.
    assert (C : match closing_after d s with Ok s' _ => ginv s' /\ change (ORead d k) s s' | Wrong => False | _ => True end).
    { rewrite (closing_ok s d x I E V); split; [now apply closed_inv|now apply ChClose]. }
    destruct k as [n| |]; [|split; [exact I|now apply ChNone]|exact C].
    destruct (_ && _)%bool; [exact C|split; [exact I|now apply ChNone]].
  - destruct (nth_error (g_data s) d) as [x|] eqn:E; [|exact Logic.I].
    destruct (d_valid x) eqn:V; cbn; [|split; [exact I|now apply ChNone]].
    destruct (d_closing x); [split; [exact I|now apply ChNone]|].
    destruct (i_valid _ I d x E V) as [O _]; rewrite (owned_open _ _ _ I O); cbn.
    assert (C : match closing_after d s with Ok s' _ => ginv s' /\ change (OWrite d k) s s' | Wrong => False | _ => True end).
    { rewrite (closing_ok s d x I E V); split; [now apply closed_inv|now apply ChClose]. }
    destruct k as [n| |]; [| |exact C]; (split; [exact I|now apply ChNone]).
  - destruct (nth_error (g_data s) d) as [x|] eqn:E; [|exact Logic.I].
    destruct (d_valid x) eqn:V.
    + rewrite (close_some s d x I E V); split; [now apply closed_inv|now apply ChClose].
    + unfold close; rewrite E, V; split; [exact I|now apply ChNone].
Qed.

Lemma gexec_inv : forall l s, ginv s -> match gexec l s with Ok s' r => ginv s' | Wrong => False | _ => True end.
Proof.
  induction l as [|o l IH]; intros s I; cbn; [exact I|].
  assert (H := gstep_change o s I); destruct (gstep o s) as [s1 r| | |]; auto; apply IH, H.
Qed.
Lemma greachable_inv : forall s, greachable s -> ginv s.
Proof. intros s [l H]; assert (G := gexec_inv l g_init ginit_inv); now rewrite H in G. Qed.

Lemma never_wrong : forall l, gexec l g_init <> Wrong.
Proof. intros l H; assert (G := gexec_inv l g_init ginit_inv); now rewrite H in G. Qed.

Lemma gexec_none : forall l s s' r, gexec l s = Ok s' r -> r = RNone.
Proof.
  induction l as [|o l IH]; intros s s' r H; cbn in H; [injection H as _ <-; reflexivity|].
  destruct (gstep o s); try discriminate; exact (IH _ _ _ H).
Qed.

Lemma valid_open : forall s, greachable s -> forall d fd,
  (is_socket s d fd true <-> In (fd, KConn d) (g_open s)) /\
  (is_socket s d fd true -> In fd (g_poll s) /\ In (fd, d) (g_map s)).
Proof.
  intros s R d fd; assert (I := greachable_inv _ R); repeat split.
  - intros [x [E [<- V]]]; now apply (i_valid _ I).
  - intros H; destruct (i_conn _ I fd d H) as [x [E [V F]]]; exists x; auto.
  - destruct H as [x [E [<- V]]]; now apply (i_valid _ I d).
  - destruct H as [x [E [<- V]]]; now apply (i_valid _ I d).
Qed.

Lemma polled_known : forall s, greachable s -> forall fd, In fd (g_poll s) ->
  fd = wake_fd \/ In fd (g_listeners s) \/ exists d, In (fd, d) (g_map s) /\ is_socket s d fd true.
Proof.
  intros s R fd H; assert (I := greachable_inv _ R); destruct (poll_known s fd I H) as [X|[X|[d [X Y]]]]; auto.
  right; right; exists d; split; [exact X|]; destruct (i_conn _ I fd d Y) as [x [E [V F]]]; exists x; auto.
Qed.

(** Closed for good. *)
Lemma adopted_data : forall s fd add s', ginv s -> findN fd (g_open s) = None -> adopt fd add s = Some s' ->
  exists v, g_data s' = g_data s ++ [mkDat fd v false].
Proof.
  intros s fd add s' I F H; rewrite (adopt_some _ _ _ I F) in H; injection H as <-; destruct add; [destruct (findN fd (g_map s))|]; eexists; reflexivity.
Qed.

Lemma create_data : forall a s s' r, ginv s -> create_socket a s = Ok s' r -> exists l, g_data s' = g_data s ++ l.
Proof.
  intros a s s' r I H; destruct a as [|fd nb add]; cbn in H; [discriminate|].
  destruct (findN fd (g_open s)) eqn:F; [discriminate|].
  assert (N : exists l, g_data s = g_data s ++ l) by (exists []; now rewrite app_nil_r).
  destruct nb; cbn in H; [|injection H as <- _; exact N].
  destruct (g_accept s); [|injection H as <- _; exact N].
  destruct (adopt fd add s) as [s1|] eqn:A; [|discriminate]; injection H as <- _.
  destruct (adopted_data _ _ _ _ I F A) as [v ->]; eexists; reflexivity.
Qed.

Lemma stays_closed1 : forall o s s' r d fd, ginv s -> gstep o s = Ok s' r -> is_socket s d fd false -> is_socket s' d fd false.
Proof.
  intros o s s' r d fd I H [x [E [F V]]].
  assert (Q : forall l', (exists l, l' = g_data s ++ l) -> exists y, nth_error l' d = Some y /\ d_fd y = fd /\ d_valid y = false).
  { intros l' [l ->]; exists x; split; [rewrite nth_error_app1; [exact E|apply nth_error_Some; congruence]|auto]. }
  assert (S0 : exists l, g_data s = g_data s ++ l) by (exists []; now rewrite app_nil_r).
  assert (U : forall (f : dat -> dat) e, (forall y, d_fd (f y) = d_fd y) -> (forall y, d_valid y = false -> d_valid (f y) = false) ->
     exists y, nth_error (upd e f (g_data s)) d = Some y /\ d_fd y = fd /\ d_valid y = false).
  { intros f e G1 G2; rewrite upd_nth, E; cbn; destruct (Nat.eqb d e); [exists (f x)|exists x; auto]; rewrite G1; auto. }
  unfold is_socket; destruct o as [f|f add|st|ok e a|e k|e k|e]; cbn in H.
  - destruct (findN f (g_open s)); [discriminate|]; injection H as <- _; cbn; auto.
  - destruct (findN f (g_open s)) eqn:G; [discriminate|]; destruct (adopt f add s) as [s1|] eqn:A; [|discriminate].
    destruct (findN f (g_map s1)); [|discriminate]; injection H as <- _.
    destruct (adopted_data _ _ _ _ I G A) as [v W]; apply Q; eauto.
  - destruct (Bool.eqb st (g_accept s)); injection H as <- _; cbn; auto.
  - unfold poll_turn in H; destruct (_ =? 0)%nat; [injection H as <- _; auto|].
    destruct (refresh ok s) as [s1|] eqn:R; [|discriminate].
    destruct (refresh_inv s ok s1 I R) as [I1 [D _]]; rewrite <- D in *.
    destruct e as [|f fl]; [injection H as <- _; auto|].
    destruct (negb _); [discriminate|]; destruct (memN f (g_listeners s1)).
    + destruct (only_in fl); [|discriminate]; apply Q; exact (create_data _ _ _ _ I1 H).
    + destruct (N.eqb f wake_fd).
      * destruct (only_in fl); [injection H as <- _; auto|]; destruct (_ || _)%bool; [discriminate|injection H as <- _; auto].
      * destruct (findN f (g_map s1)).
        -- destruct (_ || _)%bool; [injection H as <- _; cbn; now apply U|]; destruct (f_in fl); [injection H as <- _; auto|discriminate].
        -- destruct (findN f (g_open s1)); [|discriminate]; injection H as <- _; cbn; auto.
  - destruct (nth_error (g_data s) e) as [y|] eqn:G; [|discriminate].
    destruct (d_valid y) eqn:W; cbn in H; [|injection H as <- _; auto].
    destruct (negb _); [discriminate|].
    assert (C : forall s2 r2, closing_after e s = Ok s2 r2 -> exists y, nth_error (g_data s2) d = Some y /\ d_fd y = fd /\ d_valid y = false).
    { intros s2 r2 J; rewrite (closing_ok s e y I G W) in J; injection J as <- _; cbn; now apply U. }
    destruct k; [|injection H as <- _; auto|exact (C _ _ H)].
    destruct (_ && _)%bool; [exact (C _ _ H)|injection H as <- _; auto].
  - destruct (nth_error (g_data s) e) as [y|] eqn:G; [|discriminate].
    destruct (d_valid y) eqn:W; cbn in H; [|injection H as <- _; auto].
    destruct (d_closing y); [injection H as <- _; auto|].
    destruct (negb _); [discriminate|].
    assert (C : forall s2 r2, closing_after e s = Ok s2 r2 -> exists y, nth_error (g_data s2) d = Some y /\ d_fd y = fd /\ d_valid y = false).
    { intros s2 r2 J; rewrite (closing_ok s e y I G W) in J; injection J as <- _; cbn; now apply U. }
    destruct k; [injection H as <- _; auto|injection H as <- _; auto|exact (C _ _ H)].
  - destruct (nth_error (g_data s) e) as [y|] eqn:G; [|discriminate].
    destruct (d_valid y) eqn:W.
    + rewrite (close_some s e y I G W) in H; injection H as <- _; cbn; now apply U.
    + unfold close in H; rewrite G, W in H; injection H as <- _; auto.
Qed.

Lemma stays_closed : forall l s s' d fd, greachable s -> is_socket s d fd false -> gexec l s = Ok s' RNone ->
  is_socket s' d fd false /\ (forall k, gstep (ORead d k) s' = Ok s' (RNum (-1))) /\
  (forall k, gstep (OWrite d k) s' = Ok s' (RNum (-1))) /\ gstep (OClose d) s' = Ok s' RNone.
Proof.
  intros l s s' d fd R C H; assert (I := greachable_inv _ R).
  assert (J : is_socket s' d fd false).
  { clear R; revert s I C H; induction l as [|o l IH]; intros s I C H; cbn in H; [injection H as <-; exact C|].
    assert (G := gstep_change o s I); destruct (gstep o s) as [s1 r| | |] eqn:E; try discriminate.
    exact (IH s1 (proj1 G) (stays_closed1 _ _ _ _ _ _ I E C) H). }
  split; [exact J|]; destruct J as [x [E [F V]]]; repeat split; intros; cbn; unfold close; rewrite ?E, ?V; reflexivity.
Qed.

(** When the kernel refuses nothing, the table is exactly the valid sockets. *)
Definition fresh (s : grp) : Prop :=
  (forall fd d, In (fd, d) (g_map s) -> is_socket s d fd true) /\ length (g_map s) = valid_count s.

Lemma valid_count_map : forall l l', map d_valid l = map d_valid l' -> length (filter d_valid l) = length (filter d_valid l').
Proof.
  induction l as [|x l IH]; intros [|y l'] H; cbn in *; try discriminate; [reflexivity|].
  injection H as E H; rewrite E; destruct (d_valid y); cbn; [f_equal|]; now apply IH.
Qed.
Lemma valid_count_close : forall l d x, nth_error l d = Some x -> d_valid x = true ->
  length (filter d_valid l) = S (length (filter d_valid (upd d invalidate l))).
Proof.
  induction l as [|y l IH]; intros d x E V; destruct d; cbn in *; try discriminate.
  - injection E as ->; rewrite V; reflexivity.
  - destruct (d_valid y); cbn; [f_equal|]; exact (IH d x E V).
Qed.

Lemma fresh_step : forall o s s' r, ginv s -> fresh s -> adds o = true -> gstep o s = Ok s' r -> fresh s'.
Proof.
  intros o s s' r I [F1 F2] A H; assert (G := gstep_change o s I); rewrite H in G; destruct G as [I' C].
  assert (St : forall d fd, In (fd, d) (g_map s) -> is_socket s d fd true) by auto.
  destruct C as [o s s' M D|o s d x E V|o s s1 fd s' D M O I1 F Ad].
  - split.
    + intros fd d J; destruct (i_mapd _ I' fd d J) as [y [E Z]]; exists y; repeat split; auto.
      rewrite M in J; destruct (F1 fd d J) as [x [E' [_ V]]].
      apply (f_equal (fun l => nth_error l d)) in D; rewrite !nth_error_map, E, E' in D; cbn in D; congruence.
    + rewrite M, F2; unfold valid_count; now apply valid_count_map.
  - destruct (i_valid _ I d x E V) as [X [Y Z]]; split.
    + intros fd e J; cbn in J; apply dropN_In in J as [J N]; destruct (F1 fd e J) as [y [E' [Q W]]].
      exists y; cbn; rewrite upd_nth; destruct (Nat.eqb_spec e d) as [->|]; [cbn in N; congruence|auto].
    + cbn -[dropN]; unfold valid_count in *; cbn.
      assert (L1 := dropN_length _ _ _ (i_map _ I) Z); assert (L2 := valid_count_close _ _ _ E V); lia.
  - assert (NM : findN fd (g_map s1) = None).
    { destruct (findN fd (g_map s1)) as [d|] eqn:Q; [|reflexivity]; exfalso.
      apply findN_In in Q; rewrite M in Q; destruct (F1 fd d Q) as [x [E [Z V]]].
      destruct (i_valid _ I d x E V) as [X _]; rewrite Z, <- O in X; exact (findN_None _ _ F _ X). }
    rewrite (adopt_some _ _ _ I1 F), A, NM in Ad; injection Ad as <-; split.
    + intros f d [J|J]; [injection J as <- <-; exists (mkDat fd true false); cbn; split; [|auto]|].
      * rewrite nth_error_app2 by lia; rewrite Nat.sub_diag; reflexivity.
      * rewrite M in J; destruct (F1 f d J) as [x [E Z]]; exists x; cbn; rewrite D; split; [now apply nth_some|exact Z].
    + cbn; rewrite M, F2; unfold valid_count; cbn; rewrite D, filter_app, app_length; cbn; lia.
Qed.

Lemma size_right : forall l s, gexec l g_init = Ok s RNone -> forallb adds l = true ->
  length (g_map s) = valid_count s /\ forall fd d, In (fd, d) (g_map s) <-> is_socket s d fd true.
Proof.
  intros l s H A.
  assert (R : greachable s) by now exists l.
  assert (F : fresh s).
  { assert (G : forall l s0, ginv s0 -> fresh s0 -> gexec l s0 = Ok s RNone -> forallb adds l = true -> fresh s).
    { clear; induction l as [|o l IH]; intros s0 I F H A; cbn in *; [injection H as <-; exact F|].
      apply andb_prop in A as [A1 A2]; assert (G := gstep_change o s0 I); destruct (gstep o s0) as [s1 r| | |] eqn:E; try discriminate.
      exact (IH s1 (proj1 G) (fresh_step _ _ _ _ I F A1 E) H A2). }
    apply (G l g_init ginit_inv); auto; split; [intros fd d []|reflexivity]. }
  split; [apply F|]; intros fd d; split; [apply F|intros J; now apply (valid_open s R)].
Qed.

(** A run in which everything works, and one in which epoll_ctl refuses. *)
Definition plain : flags := mkFl true false false false.
Definition sockets_case : list gop :=
  [OListen 5; OPoll true (POn 5 plain) (ANew 6 true true); OPoll true (POn 5 plain) (ANew 7 true true);
   OPoll true (POn 6 plain) AFail; ORead 0 (KCount 10); OConnect 8 true;
   OPoll true (POn 7 (mkFl true true false false)) AFail; ORead 1 (KCount 0);
   OPoll true (POn 5 plain) (ANew 7 true true)].
Definition refused_case : list gop :=
  [OListen 5; OPoll true (POn 5 plain) (ANew 6 true false)].

Lemma size_wrong : exists l s, gexec l g_init = Ok s RNone /\ length (g_map s) = 1 /\ valid_count s = 0.
Proof. exists refused_case; eexists; split; [vm_compute; reflexivity|split; reflexivity]. Qed.

Lemma connection_dropped : exists l s s', gexec l g_init = Ok s RNone /\ g_accept s = true /\
  gstep (OPoll true (POn 5 plain) (ANew 6 true true)) s = Ok s' RNone /\
  is_socket s' (length (g_data s)) 6 false /\ findN 6 (g_open s') = None.
Proof.
  exists refused_case; eexists; eexists; split; [vm_compute; reflexivity|]; split; [reflexivity|].
  split; [vm_compute; reflexivity|]; split; [|reflexivity]; exists (mkDat 6 false false); repeat split.
Qed.

(** Trying addresses. *)
Lemma listen_rest : forall works n fuel j, (1 < n) ->
  listen_try works n fuel (Some 1) j = match find (works 1) (seq j fuel) with Some _ => TGot 1 | None => TSpin end.
Proof.
  intros works n fuel; induction fuel as [|fuel IH]; intros j L; cbn -[Nat.ltb]; [reflexivity|].
  destruct (works 1 j); [reflexivity|]; rewrite (proj2 (Nat.ltb_lt 1 n) L); exact (IH (S j) L).
Qed.

Lemma listen_forever : forall works n, 1 < n -> works 0 0 = false -> (forall j, works 1 j = false) ->
  forall fuel, listen_on works n fuel = TSpin.
Proof.
  intros works n L W0 W1 fuel; unfold listen_on; destruct n as [|n]; [lia|]; cbn -[Nat.ltb].
  destruct fuel as [|fuel]; [reflexivity|]; cbn -[Nat.ltb]; rewrite W0, (proj2 (Nat.ltb_lt 1 (S n)) L), listen_rest by exact L.
  destruct (find (works 1) (seq 1 fuel)) as [j|] eqn:F; [|reflexivity]; apply find_some in F as [_ F]; congruence.
Qed.

Lemma listen_first : forall works n fuel, 0 < n -> works 0 0 = true -> listen_on works n (S fuel) = TGot 0.
Proof. intros works n fuel L W; unfold listen_on; destruct n; [lia|]; cbn; now rewrite W. Qed.
Lemma listen_one : forall works fuel, works 0 0 = false -> listen_on works 1 (S (S fuel)) = TNone.
Proof. intros works fuel W; unfold listen_on; cbn; now rewrite W. Qed.
Lemma listen_second : forall works n fuel, 1 < n -> works 0 0 = false -> works 1 1 = true -> listen_on works n (S (S fuel)) = TGot 1.
Proof.
  intros works n fuel L W W'; unfold listen_on; destruct n; [lia|]; cbn -[Nat.ltb]; rewrite W, (proj2 (Nat.ltb_lt 1 (S n)) L), W'; reflexivity.
Qed.

Lemma listen_spins : exists works n, (forall i j, works i j = (i =? 2)) /\ n = 3 /\ forall fuel, listen_on works n fuel = TSpin.
Proof. exists (fun i _ => i =? 2), 3; split; [reflexivity|split; [reflexivity|]]; apply listen_forever; [lia|reflexivity|reflexivity]. Qed.

Lemma connect_all : forall works n fuel, 3 <= fuel ->
  connect_to works n fuel =
    if n =? 0 then TNone else if works 0 0 then TGot 0 else if n =? 1 then TNone else if works 1 1 then TGot 1 else TNone.
Proof.
  intros works n fuel L; destruct fuel as [|[|[|fuel]]]; try lia; unfold connect_to.
  destruct n as [|[|n]]; cbn; try reflexivity; destruct (works 0 0); try reflexivity; destruct (works 1 1); reflexivity.
Qed.

Lemma connect_ignores : exists works n, (forall i j, works i j = (i =? 2)) /\ n = 3 /\ forall fuel, 3 <= fuel -> connect_to works n fuel = TNone.
Proof. exists (fun i _ => i =? 2), 3; split; [reflexivity|split; [reflexivity|]]; intros fuel L; now rewrite connect_all. Qed.

Lemma listen_all : forall works n fuel, 2 <= fuel ->
  listen_on works n fuel =
    if n =? 0 then TNone else if works 0 0 then TGot 0 else if n =? 1 then TNone
    else if existsb (works 1) (seq 1 (fuel - 1)) then TGot 1 else TSpin.
Proof.
  intros works n fuel L; destruct fuel as [|fuel]; [lia|]; unfold listen_on.
  replace (S fuel - 1) with fuel by lia.
  destruct n as [|[|n]]; cbn -[Nat.ltb]; try reflexivity; destruct (works 0 0); try reflexivity.
  - destruct fuel; [lia|reflexivity].
  - replace (1 <? S (S n)) with true by (symmetry; apply Nat.ltb_lt; lia); rewrite listen_rest by lia.
    destruct (find (works 1) (seq 1 fuel)) as [j|] eqn:F.
    + apply find_some in F; replace (existsb (works 1) (seq 1 fuel)) with true; [reflexivity|symmetry; apply existsb_exists; now exists j].
    + replace (existsb (works 1) (seq 1 fuel)) with false; [reflexivity|symmetry; apply not_true_is_false; intros X].
      apply existsb_exists in X as [j [X Y]]; assert (Z := find_none _ _ F j X); congruence.
Qed.
