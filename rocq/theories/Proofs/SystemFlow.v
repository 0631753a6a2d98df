(** The whole server: which messages reach which request. *)
From Coq Require Import String List NArith ZArith Bool Arith Lia.
From Verif Require Import Model.Base Model.Endian Model.Protocol Model.Transceiver Model.RequestMap Model.Streams Model.Environment
  Model.Management Model.Manager Model.Request Model.System
  Spec.EndianSpec Spec.WireSpec Spec.EnvironmentSpec Spec.RequestSpec Spec.TransceiverSpec Spec.ManagerSpec Spec.SystemSpec
  Proofs.RequestMapProofs Proofs.ManagerProofs Proofs.ManagerStep Proofs.ManagerFacts Proofs.ManagerHist Proofs.RequestProofs Proofs.SystemProofs.
Import ListNotations.

Definition infl (p : option (ppc message)) : option (rid * message) :=
  match p with
  | Some (PStart i m) | Some (PLocal i m) | Some (PWant i m) | Some (PFind i m) | Some (PMsg i _ m) => Some (i, m)
  | _ => None
  end.

Inductive pmove (s s' : Manager.state message) (t : nat) (a : action message) : Prop :=
| PmCall : forall id m, a = APush id m -> infl (tp s t) = None -> infl (tp s' t) = Some (id, m) ->
    (forall o, pushed o (s_log s') = pushed o (s_log s)) -> s_next s' = s_next s -> pmove s s' t a
| PmPass : infl (tp s' t) = infl (tp s t) -> (forall o, pushed o (s_log s') = pushed o (s_log s)) -> s_next s' = s_next s -> pmove s s' t a
| PmSkip : forall id m, infl (tp s t) = Some (id, m) -> infl (tp s' t) = None ->
    (r_id id = 0%N \/ r_id id = 65535%N \/ (map_find id (s_requests s) = None /\ begins m = false)) ->
    (forall o, pushed o (s_log s') = pushed o (s_log s)) -> s_next s' = s_next s -> pmove s s' t a
| PmNew : forall w id m, a = ARun w -> ts s t = None -> tp s t = Some (PFind id m) -> infl (tp s' t) = None -> map_find id (s_requests s) = None ->
    begins m = true -> (forall o, pushed o (s_log s') = pushed o (s_log s)) -> s_next s' = S (s_next s) ->
    ob s' (s_next s) = mkObj id true None None [] -> pmove s s' t a
| PmPush : forall id o m, tp s t = Some (PMsg id o m) -> infl (tp s' t) = None -> o_alive (ob s o) = true ->
    s_log s' = s_log s ++ [EPushed o m] -> s_next s' = s_next s -> pmove s s' t a.

Definition pstart (s : Manager.state message) : Prop := forall t id m, tp s t = Some (PLocal id m) -> r_id id = 0%N.

Lemma pstart_reach : forall s, reachable begins s -> pstart s.
Proof.
  apply (reach_ind begins pstart); [intros t id m H; discriminate|].
  intros s t a s' I K S t0 id m H. destruct (Nat.eq_dec t0 t) as [->|N].
  - destruct (step_pushes begins s t a s' S) as [E|F]; [rewrite E in H; eapply K; eauto|].
    rewrite H in F; inversion F; subst; assumption.
  - rewrite (step_other_push begins s t a s' I S t0 N) in H; eapply K; eauto.
Qed.

Lemma step_pmove : forall s t a s', reachable begins s -> Manager.step begins t a s = Some s' -> pmove s s' t a.
Proof.
  intros s t a s' R H. pose proof (pstart_reach s R) as PS.
  assert (PN : forall l, (forall o m, ~ In (EPushed o m) l) -> forall o, pushed o (s_log s ++ l) = pushed o (s_log s)).
  { intros l L o. rewrite pushed_app. rewrite <- app_nil_r. f_equal. induction l as [|e l IH]; [reflexivity|]. cbn.
    assert (IH' : pushed o l = []) by (apply IH; intros o' m X; apply (L o' m); now right).
    destruct e; auto. exfalso; eapply L; left; reflexivity. }
  cases H S0 P0 B0; cbn -[notify_all pushed]; rewrite ?fupd_same; cbn -[notify_all pushed].
  all: try (apply PmPass; cbn -[notify_all pushed]; rewrite ?fupd_same; cbn -[notify_all pushed]; rewrite ?P0; try reflexivity; try congruence;
      first [reflexivity|intro; reflexivity|apply PN; intros ? ? [X|[]]; discriminate X]).
  - assert (NL : s_log (notify_all message (set_flag message b s)) = s_log s) by (etransitivity; [apply (all_fields (s_waiters (set_flag message b s)))|destruct b; reflexivity]).
    assert (NX : s_next (notify_all message (set_flag message b s)) = s_next s) by (etransitivity; [apply (all_fields (s_waiters (set_flag message b s)))|destruct b; reflexivity]).
    assert (NT : tp (notify_all message (set_flag message b s)) t = tp s t) by (etransitivity; [apply (all_threads (s_waiters (set_flag message b s)))|destruct b; reflexivity]).
    apply PmPass; cbn -[notify_all pushed]; rewrite ?fupd_same; cbn -[notify_all pushed]; rewrite ?NL, ?NX, ?NT; reflexivity.
  - apply (PmSkip _ _ _ _ id m); cbn; rewrite ?fupd_same, ?P0; try reflexivity. right; left. now apply N.eqb_eq.
  - apply (PmSkip _ _ _ _ id m); cbn; rewrite ?fupd_same, ?P0; try reflexivity. left. eapply PS; eauto.
  - eapply (PmNew _ _ _ _ w id m); cbn; rewrite ?fupd_same; try reflexivity; auto.
  - apply (PmSkip _ _ _ _ id m); cbn; rewrite ?fupd_same, ?P0; try reflexivity. right; right. auto.
  - eapply (PmPush _ _ _ _ id o m); cbn; rewrite ?fupd_same; try reflexivity; auto.
  - assert (NL : s_log (notify_all message s) = s_log s) by (apply (all_fields (s_waiters s))).
    assert (NX : s_next (notify_all message s) = s_next s) by (apply (all_fields (s_waiters s))).
    assert (NT : tp (notify_all message s) t = tp s t) by (apply (all_threads (s_waiters s))).
    apply PmPass; cbn -[notify_all pushed]; rewrite ?fupd_same; cbn -[notify_all pushed]; rewrite ?NL, ?NX, ?NT; reflexivity.
  - apply (PmCall _ _ _ _ id m); cbn; rewrite ?fupd_same, ?P0; reflexivity.
  - apply (PmCall _ _ _ _ id m); cbn; rewrite ?fupd_same, ?P0; reflexivity.
Qed.

Lemma rid_eqb_refl : forall i, rid_eqb i i = true.
Proof. intros [a b]; unfold rid_eqb; cbn; now rewrite !N.eqb_refl. Qed.
Lemma rid_eqb_eq : forall i j, rid_eqb i j = true <-> i = j.
Proof.
  intros [a b] [c d]; unfold rid_eqb; cbn. rewrite andb_true_iff, !N.eqb_eq. split; [intros [-> ->]; reflexivity|intro E; injection E; auto].
Qed.
Lemma for_rid_app : forall id a b, for_rid id (a ++ b) = for_rid id a ++ for_rid id b.
Proof. intros; unfold for_rid; now rewrite filter_app, map_app. Qed.
Lemma for_rid_one : forall id m, for_rid id [(id, m)] = [m].
Proof. intros; unfold for_rid; cbn; now rewrite rid_eqb_refl. Qed.
Lemma for_rid_other : forall id id' m, id' <> id -> for_rid id [(id', m)] = [].
Proof. intros id id' m N; unfold for_rid; cbn. destruct (rid_eqb id' id) eqn:E; [apply rid_eqb_eq in E; contradiction|reflexivity]. Qed.
Lemma records_app : forall a b, records_only (a ++ b) = records_only a ++ records_only b.
Proof. intros; apply filter_app. Qed.
Lemma records_one : forall m, m_type m = 0%Z -> records_only [m] = [m].
Proof. intros m E; unfold records_only; cbn; now rewrite E. Qed.
Lemma records_none : forall m, m_type m <> 0%Z -> records_only [m] = [].
Proof. intros m E; unfold records_only; cbn. destruct (Z.eqb_spec (m_type m) 0); [contradiction|reflexivity]. Qed.
Lemma rid_dec : forall i j : rid, i = j \/ i <> j.
Proof. intros i j; destruct (rid_eqb i j) eqn:E; [left; now apply rid_eqb_eq|right; intro X; apply rid_eqb_eq in X; congruence]. Qed.

Lemma firstn_more : forall (T : Type) n (a b : list T), n <= length a -> firstn n (a ++ b) = firstn n a.
Proof. intros T n a b L; rewrite firstn_app, (proj2 (Nat.sub_0_le _ _) L), firstn_O, app_nil_r; reflexivity. Qed.
Lemma skipn_more : forall (T : Type) n (a b : list T), n <= length a -> skipn n (a ++ b) = skipn n a ++ b.
Proof. intros T n a b L; rewrite skipn_app, (proj2 (Nat.sub_0_le _ _) L); reflexivity. Qed.

Lemma push_call : forall (s : Manager.state message) t id m s', Manager.step begins t (APush id m) s = Some s' ->
  tp s t = None /\ s' = goto_push message t (Some (PStart id m)) s.
Proof.
  intros s t id m s' H; cbn in H. destruct (ts s t); [discriminate|]. destruct (tp s t); [discriminate|].
  destruct (tb s t); try discriminate; injection H as <-; auto.
Qed.

Section Flow.
Variable vts : list N -> list N -> list N.
Variable junk : nat -> list N.
Variable http_time : list N -> Z.
Variable k : chars.
Context {U : Type}.
Variable A : application U.
Variable maxPost : N.
Variable u : U.
Notation sys := (System.sys (U := U)).
Notation sreach := (SystemSpec.sreach vts junk http_time k A maxPost u).
Notation sshape := (SystemProofs.sshape vts junk http_time k A maxPost u).
Notation wshape := (SystemProofs.wshape vts junk http_time k A maxPost u).
Notation rstep := (Request.step vts junk http_time k A).
Notation mstep := (Manager.step begins).
Notation bconfig := (begin_config maxPost).
Notation rid_of x o := (o_rid (ob (y_man x) o)).
Notation next x := (s_next (y_man x)).

(** * Messages dealt with *)
Definition busy (x : sys) : nat := match infl (tp (y_man x) 0) with Some _ => 1 | None => 0 end.
Definition settled (x : sys) : list (rid * message) := firstn (y_fed x - busy x) (inbox x).

Record flowI (x : sys) : Prop := mkFlow {
  f_type : forall t id m, infl (tp (y_man x) t) = Some (id, m) -> (m_type m = 0%Z <-> t = 0);
  f_last : forall p, infl (tp (y_man x) 0) = Some p -> 0 < y_fed x /\ nth_error (inbox x) (y_fed x - 1) = Some p;
  f_new : forall o, next x <= o -> given x o = [];
  f_id : forall o, o < next x -> r_id (rid_of x o) <> 0%N /\ r_id (rid_of x o) <> 65535%N;
  f_at : forall o, o < next x -> y_at x o <= length (settled x);
  f_got : forall o, o < next x -> exists rest,
    for_rid (rid_of x o) (skipn (y_at x o) (settled x)) = records_only (given x o) ++ rest /\ (alive x o -> rest = []);
  f_pre : forall o, o < next x -> exists pre mb,
    for_rid (rid_of x o) (firstn (y_at x o) (settled x)) = pre ++ [mb] /\ begins mb = true /\ bconfig (rid_of x o) mb = Some (y_cfg x o);
  f_begin : forall id pre m tl, r_id id <> 0%N -> r_id id <> 65535%N -> for_rid id (settled x) = pre ++ m :: tl -> begins m = true ->
    exists o g g', is_request x o id /\ for_rid id (firstn (y_at x o) (settled x)) ++ g = pre ++ [m] /\ records_only (given x o) = g ++ g'
}.

Lemma for_rid_split : forall id l id' m' pre m tl, for_rid id (l ++ [(id', m')]) = pre ++ m :: tl ->
  (exists tl', for_rid id l = pre ++ m :: tl') \/ (id = id' /\ m = m' /\ for_rid id l = pre).
Proof.
  intros id l id' m' pre m tl. rewrite for_rid_app. destruct (rid_dec id' id) as [->|N].
  - rewrite for_rid_one. intro E. destruct tl as [|t tl _] using rev_ind.
    + apply app_inj_tail in E as [E ->]. auto.
    + left. change (pre ++ m :: tl ++ [t]) with (pre ++ (m :: tl) ++ [t]) in E. rewrite app_assoc in E.
      apply app_inj_tail in E as [E _]. exists tl. exact E.
  - rewrite for_rid_other by auto. rewrite app_nil_r. eauto.
Qed.

Definition same_objs (x x' : sys) : Prop :=
  next x' = next x /\ forall o, o < next x ->
    rid_of x' o = rid_of x o /\ y_at x' o = y_at x o /\ y_cfg x' o = y_cfg x o.

Lemma flow_keep : forall x x', flowI x -> settled x' = settled x -> same_objs x x' ->
  (forall o, o < next x -> records_only (given x' o) = records_only (given x o) /\ (alive x' o -> alive x o)) ->
  (forall o, next x <= o -> given x' o = []) ->
  (forall t id m, infl (tp (y_man x') t) = Some (id, m) -> (m_type m = 0%Z <-> t = 0)) ->
  (forall p, infl (tp (y_man x') 0) = Some p -> 0 < y_fed x' /\ nth_error (inbox x') (y_fed x' - 1) = Some p) ->
  flowI x'.
Proof.
  intros x x' F SE [NX SO] G GN T L. constructor; auto; rewrite ?NX, ?SE.
  - auto.
  - intros o H; destruct (SO o H) as (-> & _); now apply f_id.
  - intros o H; destruct (SO o H) as (_ & -> & _); now apply f_at.
  - intros o H; destruct (SO o H) as (-> & -> & _); destruct (G o H) as (-> & AL). destruct (f_got x F o H) as (r & E & R); exists r; auto.
  - intros o H; destruct (SO o H) as (-> & -> & ->). now apply f_pre.
  - intros id pre m tl I1 I2 E B. destruct (f_begin x F id pre m tl I1 I2 E B) as (o & g & g' & [O1 O2] & P & Q). destruct (SO o O1) as (E1 & E2 & _).
    exists o, g, g'; unfold is_request; rewrite NX, E1, E2. destruct (G o O1) as (-> & _); auto.
Qed.

Lemma flow_settle : forall x x' id m, flowI x -> settled x' = settled x ++ [(id, m)] -> same_objs x x' ->
  (forall o, o < next x -> (alive x' o -> alive x o) /\
     (rid_of x o = id /\ alive x o /\ records_only (given x' o) = records_only (given x o) ++ [m] \/
      (rid_of x o <> id \/ ~ alive x o) /\ records_only (given x' o) = records_only (given x o))) ->
  (forall o, next x <= o -> given x' o = []) ->
  (begins m = true -> r_id id <> 0%N -> r_id id <> 65535%N -> exists o, o < next x /\ rid_of x o = id /\ alive x o /\
     records_only (given x' o) = records_only (given x o) ++ [m]) ->
  (forall t id m, infl (tp (y_man x') t) = Some (id, m) -> (m_type m = 0%Z <-> t = 0)) ->
  (forall p, infl (tp (y_man x') 0) = Some p -> 0 < y_fed x' /\ nth_error (inbox x') (y_fed x' - 1) = Some p) ->
  flowI x'.
Proof.
  intros x x' id m F SE [NX SO] G GN B1 T L. constructor; auto; rewrite ?NX, ?SE.
  - auto.
  - intros o H; destruct (SO o H) as (-> & _); now apply f_id.
  - intros o H; destruct (SO o H) as (_ & -> & _); rewrite app_length; pose proof (f_at x F o H); lia.
  - intros o H; destruct (SO o H) as (-> & -> & _); destruct (G o H) as (AL & C). destruct (f_got x F o H) as (r & E & R).
    rewrite skipn_more by (now apply f_at). rewrite for_rid_app, E.
    destruct C as [(-> & C1 & ->)|(C1 & ->)].
    + rewrite for_rid_one, (R C1), app_nil_r. exists []. rewrite app_nil_r; auto.
    + rewrite <- app_assoc. eexists; split; [reflexivity|]. intro AL'. specialize (AL AL'). destruct C1 as [C1|C1]; [|contradiction].
      rewrite for_rid_other by congruence. now rewrite (R AL).
  - intros o H; destruct (SO o H) as (-> & -> & ->). rewrite firstn_more by (now apply f_at). now apply f_pre.
  - intros id' pre m' tl I1 I2 E B. destruct (for_rid_split _ _ _ _ _ _ _ E) as [(tl' & X)|(-> & -> & X)].
    + destruct (f_begin x F id' pre m' tl' I1 I2 X B) as (o & g & g' & [O1 O2] & P & Q). destruct (SO o O1) as (E1 & E2 & _).
      destruct (G o O1) as (_ & C).
      assert (exists g2, records_only (given x' o) = g ++ g2) as (g2 & Y).
      { destruct C as [(_ & _ & ->)|(_ & ->)]; rewrite Q; [rewrite <- app_assoc|]; eauto. }
      exists o, g, g2; unfold is_request; rewrite NX, E1, E2. rewrite firstn_more by (now apply f_at). auto.
    + destruct (B1 B I1 I2) as (o & O1 & O2 & AL & RO). destruct (SO o O1) as (E1 & E2 & _).
      destruct (f_got x F o O1) as (r & Y & R). rewrite (R AL), app_nil_r, O2 in Y.
      exists o, (records_only (given x' o)), []. unfold is_request; rewrite NX, E1, E2, app_nil_r, RO. split; [auto|]. split; [|reflexivity].
      rewrite firstn_more by (now apply f_at). rewrite <- Y, app_assoc, <- for_rid_app, firstn_skipn, X. reflexivity.
Qed.

Lemma flow_new : forall x x' id m, flowI x -> settled x' = settled x ++ [(id, m)] -> next x' = S (next x) ->
  (forall o, o < next x -> rid_of x' o = rid_of x o /\ y_at x' o = y_at x o /\ y_cfg x' o = y_cfg x o /\ (alive x' o -> alive x o)) ->
  rid_of x' (next x) = id -> y_at x' (next x) = S (length (settled x)) -> begins m = true -> bconfig id m = Some (y_cfg x' (next x)) ->
  r_id id <> 0%N -> r_id id <> 65535%N ->
  (forall o, alive x o -> rid_of x o <> id) -> (forall o, given x' o = given x o) ->
  (forall t id m, infl (tp (y_man x') t) = Some (id, m) -> (m_type m = 0%Z <-> t = 0)) ->
  (forall p, infl (tp (y_man x') 0) = Some p -> 0 < y_fed x' /\ nth_error (inbox x') (y_fed x' - 1) = Some p) ->
  flowI x'.
Proof.
  intros x x' id m F SE NX SO N1 N2 BM BC I1 I2 AL G T L.
  assert (C : forall o, o < S (next x) -> o < next x \/ o = next x) by (intros; lia).
  constructor; auto; rewrite ?NX, ?SE.
  - intros o H. rewrite G. apply f_new; [exact F|lia].
  - intros o H; apply C in H as [H| ->]; [destruct (SO o H) as (-> & _); now apply f_id|rewrite N1; auto].
  - intros o H; rewrite app_length; cbn; apply C in H as [H| ->]; [destruct (SO o H) as (_ & -> & _)|rewrite N2; lia].
    pose proof (f_at x F o H); lia.
  - intros o H; rewrite G; apply C in H as [H| ->].
    + destruct (SO o H) as (-> & -> & _ & AL'). destruct (f_got x F o H) as (r & E & R).
      rewrite skipn_more by (now apply f_at). rewrite for_rid_app, E, <- app_assoc. eexists; split; [reflexivity|]. intro A1.
      specialize (AL' A1). rewrite (R AL'), for_rid_other; [reflexivity|]. intro X; symmetry in X; now apply AL in X.
    + rewrite N1, N2. exists []. rewrite (f_new x F) by lia. rewrite skipn_all2 by (rewrite app_length; cbn; lia). auto.
  - intros o H; apply C in H as [H| ->].
    + destruct (SO o H) as (-> & -> & -> & _). rewrite firstn_more by (now apply f_at). now apply f_pre.
    + rewrite N1, N2. exists (for_rid id (settled x)), m. rewrite firstn_all2 by (rewrite app_length; cbn; lia).
      rewrite for_rid_app, for_rid_one. auto.
  - intros id' pre m' tl J1 J2 E B. destruct (for_rid_split _ _ _ _ _ _ _ E) as [(tl' & X)|(-> & -> & X)].
    + destruct (f_begin x F id' pre m' tl' J1 J2 X B) as (o & g & g' & [O1 O2] & P & Q). destruct (SO o O1) as (E1 & E2 & _).
      exists o, g, g'; unfold is_request; rewrite NX, E1, E2, G. split; [auto|]. rewrite firstn_more by (now apply f_at). auto.
    + exists (next x), [], (records_only (given x' (next x))). unfold is_request. rewrite NX. split; [auto|]. split; [|reflexivity].
      rewrite N2, firstn_all2 by (rewrite app_length; cbn; lia). now rewrite for_rid_app, for_rid_one, X, app_nil_r.
Qed.

Lemma inbox_grow : forall (x x' : sys) l, t_msgs (y_net x') = t_msgs (y_net x) ++ l -> y_fed x <= length (t_msgs (y_net x)) ->
  y_fed x' = y_fed x -> y_man x' = y_man x -> settled x' = settled x.
Proof.
  intros x x' l E F EF EM; unfold settled, busy, inbox. rewrite EF, EM, E, map_app. apply firstn_more. rewrite map_length. lia.
Qed.

Lemma flow_net : forall x x' l, flowI x -> t_msgs (y_net x') = t_msgs (y_net x) ++ l -> y_fed x <= length (t_msgs (y_net x)) ->
  y_fed x' = y_fed x -> y_man x' = y_man x -> y_at x' = y_at x -> y_cfg x' = y_cfg x -> flowI x'.
Proof.
  intros x x' l F E L EF EM EA EC. apply (flow_keep x); auto.
  - eapply inbox_grow; eauto.
  - split; [now rewrite EM|]. intros o _; rewrite EM, EA, EC; auto.
  - intros o _; unfold given, alive; rewrite EM; auto.
  - intro o; unfold given; rewrite EM; apply f_new, F.
  - rewrite EM; apply f_type, F.
  - rewrite EM, EF. unfold inbox; rewrite E, map_app. intros p P. destruct (f_last x F p P) as [P1 P2]; split; [exact P1|].
    rewrite nth_error_app1 by (rewrite map_length; lia). exact P2.
Qed.

Lemma settled_next : forall (x x' : sys) p, flowI x -> y_net x' = y_net x -> y_fed x' = y_fed x ->
  infl (tp (y_man x) 0) = Some p -> infl (tp (y_man x') 0) = None -> settled x' = settled x ++ [p].
Proof.
  intros x x' p F EN EF P P'. destruct (f_last x F p P) as [L1 L2]. unfold settled, busy. rewrite P, P', EF, Nat.sub_0_r.
  unfold inbox in *. rewrite EN. remember (y_fed x - 1) as n. assert (y_fed x = S n) as -> by lia.
  clear - L2. revert L2. generalize (map push_of (t_msgs (y_net x))) as l. induction n; intros [|a l] H; cbn in *; try discriminate.
  - now injection H as ->.
  - now rewrite IHn.
Qed.

Lemma settled_length : forall x : sys, y_fed x <= length (t_msgs (y_net x)) -> length (settled x) = y_fed x - busy x.
Proof. intros x L; unfold settled, inbox. rewrite firstn_length, map_length. lia. Qed.

Lemma alive_back : forall (s : Manager.state message) t a s' o, inv s -> mstep t a s = Some s' -> o < s_next s ->
  o_alive (ob s' o) = true -> o_alive (ob s o) = true.
Proof. intros s t a s' o I S L AL. destruct (step_alive begins s t a s' o I S AL) as [[? _]|[? _]]; [assumption|lia]. Qed.

Lemma wshape_old : forall t a x x', wshape t a x x' -> forall o, o < next x -> y_at x' o = y_at x o /\ y_cfg x' o = y_cfg x o.
Proof. intros t a x x' H o L; destruct H; cbn; auto. split; apply fupd_other; lia. Qed.

Lemma flow_step : forall x x', parts x -> flowI x -> sshape x x' -> flowI x'.
Proof.
  intros x x' (T & R & B & FE) F S. pose proof (inv_reachable begins _ R) as I. destruct S.
  - destruct (SystemProofs.msgs_grow _ _ _ H1) as (l & E). eapply flow_net; eauto.
  - destruct (push_call _ _ _ _ _ H0) as [P ->]. assert (BZ : busy x = 0) by (unfold busy; now rewrite P).
    apply (flow_keep x); auto.
    + unfold settled, busy, inbox; cbn. unfold settled in *. rewrite P. cbn. now rewrite Nat.sub_0_r.
    + split; cbn; auto.
    + intros o L; exact (f_new x F o L).
    + intros t id m. cbn. unfold fupd. destruct (Nat.eqb_spec t 0) as [->|N]; cbn.
      * intro X; injection X as _ <-. destruct p; cbn; tauto.
      * apply f_type, F.
    + cbn. intros p' X. injection X as <-. split; [lia|]. rewrite Nat.sub_0_r. unfold inbox. cbn.
      destruct (push_of p) eqn:Q; cbn. rewrite <- Q. now apply map_nth_error.
  - pose proof (step_pmove _ _ _ _ R H0) as PM. destruct (wshape_net _ _ _ _ _ _ _ _ _ _ _ H1) as (EN & EM & EF & _).
    pose proof (wshape_old _ _ _ _ H1) as OLD.
    assert (OT : forall t', t' <> t -> infl (tp m t') = infl (tp (y_man x) t')).
    { intros t' N. now rewrite (step_other_push begins _ _ _ _ I H0 t' N). }
    assert (RID : forall o, o < next x -> rid_of (with_man m x1) o = rid_of x o) by (intros o L; cbn; eapply step_rid; eauto).
    assert (AB : forall o, o < next x -> alive (with_man m x1) o -> alive x o) by (intros o L; unfold alive; cbn; eapply alive_back; eauto).
    assert (SO : s_next m = next x -> same_objs x (with_man m x1)).
    { intro NX; split; [exact NX|]. intros o L. split; [auto|]. apply OLD in L. exact L. }
    assert (INB : inbox (with_man m x1) = inbox x) by (unfold inbox; cbn; now rewrite EN).
    assert (SAME : infl (tp m 0) = infl (tp (y_man x) 0) -> settled (with_man m x1) = settled x).
    { intro X. unfold settled, busy. rewrite INB. cbn. now rewrite X, EF. }
    assert (LAST : infl (tp m 0) = infl (tp (y_man x) 0) -> forall p, infl (tp (y_man (with_man m x1)) 0) = Some p ->
       0 < y_fed (with_man m x1) /\ nth_error (inbox (with_man m x1)) (y_fed (with_man m x1) - 1) = Some p).
    { intros X p. cbn. rewrite X, INB, EF. apply f_last, F. }
    assert (TYPE : (forall id mm, infl (tp m t) = Some (id, mm) -> (m_type mm = 0%Z <-> t = 0)) ->
       forall t id mm, infl (tp (y_man (with_man m x1)) t) = Some (id, mm) -> (m_type mm = 0%Z <-> t = 0)).
    { intros X t' id mm. cbn. destruct (Nat.eq_dec t' t) as [->|N]; [apply X|rewrite OT by exact N; apply f_type, F]. }
    assert (GV : (forall o, pushed o (s_log m) = pushed o (s_log (y_man x))) -> forall o, given (with_man m x1) o = given x o) by auto.
    destruct PM as [id mm PA P P' PL PX|P' PL PX|id mm P P' C PL PX|w id mm PA PS P P' C BG PL PX PO|id o mm P P' AL PL PX].
    + (* the application pushes *)
      subst a. cbn in H. destruct (Nat.eqb_spec t 0) as [->|NT]; [discriminate|]. cbn in H.
      destruct (Z.eqb_spec (m_type mm) 0); [discriminate|].
      apply (flow_keep x); auto.
      * intros o L; rewrite GV; auto.
      * intros o L; rewrite GV; auto. now apply f_new.
      * apply TYPE. intros i m0 X. rewrite P' in X. injection X as <- <-. tauto.
    + apply (flow_keep x); auto.
      * apply SAME. destruct t; [exact P'|apply OT; discriminate].
      * intros o L; rewrite GV; auto.
      * intros o L; rewrite GV; auto. now apply f_new.
      * apply TYPE. rewrite P'. apply f_type, F.
      * apply LAST. destruct t; [exact P'|apply OT; discriminate].
    + destruct t as [|t].
      * assert (NO : forall o, alive x o -> rid_of x o = id -> False).
        { intros o A1 A2. pose proof (i_rid _ I o A1) as (R1 & R2). rewrite A2 in R1, R2. destruct C as [C|[C|[C _]]]; auto.
          assert (map_find id (s_requests (y_man x)) = Some o) by (apply (i_map _ I); auto). congruence. }
        apply (flow_settle x _ id mm); auto.
        -- apply (settled_next x); auto.
        -- intros o L. split; [auto|]. right. rewrite GV by auto. split; [|reflexivity].
           destruct (o_alive (ob (y_man x) o)) eqn:Q; [left; eauto|right; unfold alive; congruence].
        -- intros o L; rewrite GV; auto. now apply f_new.
        -- intros BG N0 N1. exfalso. destruct C as [C|[C|[_ C]]]; congruence.
        -- apply TYPE. rewrite P'. discriminate.
        -- cbn. rewrite P'. discriminate.
      * apply (flow_keep x); auto.
        -- intros o L; rewrite GV; auto.
        -- intros o L; rewrite GV; auto. now apply f_new.
        -- apply TYPE. rewrite P'. discriminate.
    + assert (INF : infl (tp (y_man x) t) = Some (id, mm)) by (rewrite P; reflexivity).
      assert (t = 0) as ->.
      { apply (f_type x F t id mm INF). unfold begins in BG. apply andb_true_iff in BG. destruct BG as [BG _]. now apply Z.eqb_eq. }
      destruct (i_pid _ I 0 id mm (or_intror P)) as [N0 N1].
      assert (W : x1 = mkSys (y_net x) (y_man x) (y_fed x) (fupd (y_cfg x) (next x) (y_cfg x1 (next x)))
          (fupd (y_rq x) (next x) (rq_init u)) (y_out x) (y_ret x) (y_tr x) (y_sent x) (fupd (y_at x) (next x) (y_fed x)) /\
          bconfig id mm = Some (y_cfg x1 (next x))).
      { destruct H1 as [_ W2|w0 id0 m0 c Q1 Q2 Q3 Q4 Q5 Q6|w0 id0 o0 m0 q b st Q1 Q2 Q3|w0 m0 sk l r Q1 Q2 Q3]; try congruence.
        - specialize (W2 w id mm PA PS P C). congruence.
        - rewrite P in Q3. injection Q3 as <- <-. cbn. rewrite fupd_same. auto. }
      destruct W as [W1 W2].
      apply (flow_new x _ id mm); auto.
      * apply (settled_next x); auto.
      * intros o L. destruct (OLD o L) as [O1 O2]. split; [auto|]. split; [exact O1|]. split; [exact O2|auto].
      * cbn. now rewrite PO.
      * cbn. rewrite W1. cbn. rewrite fupd_same, settled_length by exact FE. unfold busy. rewrite INF.
        destruct (f_last x F _ INF). lia.
      * intros o A1 A2. assert (map_find id (s_requests (y_man x)) = Some o) by (apply (i_map _ I); auto). congruence.
      * apply TYPE. rewrite P'. discriminate.
      * cbn. rewrite P'. discriminate.
    + assert (INF : infl (tp (y_man x) t) = Some (id, mm)) by (rewrite P; reflexivity).
      assert (GP : forall o', given (with_man m x1) o' = given x o' ++ (if Nat.eqb o' o then [mm] else [])).
      { intro o'. unfold given. cbn. rewrite PL, pushed_app. reflexivity. }
      destruct (i_pmsg _ I t id o mm P) as [_ OR]. pose proof (i_next _ I o AL) as ON.
      assert (GN : forall o', next x <= o' -> given (with_man m x1) o' = []).
      { intros o' L. rewrite GP, (f_new x F o' L). destruct (Nat.eqb_spec o' o); [lia|reflexivity]. }
      destruct t as [|t].
      * assert (TY : m_type mm = 0%Z) by (apply (f_type x F 0 id mm INF); reflexivity).
        apply (flow_settle x _ id mm); auto.
        -- apply (settled_next x); auto.
        -- intros o' L. split; [auto|]. rewrite GP, records_app. destruct (Nat.eqb_spec o' o) as [->|NO].
           ++ left. rewrite records_one by exact TY. auto.
           ++ right. cbn. rewrite app_nil_r. split; [|reflexivity].
              destruct (o_alive (ob (y_man x) o')) eqn:Q; [left; intro Y|right; unfold alive; congruence].
              assert (Z1 : map_find id (s_requests (y_man x)) = Some o') by (apply (i_map _ I); auto).
              assert (Z2 : map_find id (s_requests (y_man x)) = Some o) by (apply (i_map _ I); auto). congruence.
        -- intros _ _ _. exists o. rewrite GP, records_app, Nat.eqb_refl, records_one by exact TY. auto.
        -- apply TYPE. rewrite P'. discriminate.
        -- cbn. rewrite P'. discriminate.
      * assert (TY : m_type mm <> 0%Z) by (intro Y; apply (f_type x F (S t) id mm INF) in Y; discriminate).
        apply (flow_keep x); auto.
        -- intros o' L. rewrite GP, records_app. split; [|auto]. destruct (Nat.eqb o' o); [rewrite records_none by exact TY|]; now rewrite app_nil_r.
        -- apply TYPE. rewrite P'. discriminate.
  - destruct (SystemProofs.msgs_grow _ _ _ H3) as (l & E). eapply flow_net; eauto.
Qed.

Lemma flow_reach : forall x, sreach x -> flowI x.
Proof.
  apply sreach_ind'; [|intros x x' PA F S; exact (flow_step x x' PA F S)].
  constructor; cbn; try (intros; discriminate); try (intros; lia); [reflexivity|].
  intros id pre m tl _ _ E. destruct pre; discriminate E.
Qed.
End Flow.
