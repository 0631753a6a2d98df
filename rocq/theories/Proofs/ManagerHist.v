(** How requests begin and end, and what becomes of management records. *)
From Coq Require Import List NArith Bool Arith Lia.
From Verif Require Import Model.Base Model.RequestMap Model.Manager Spec.ManagerSpec Proofs.RequestMapProofs
  Proofs.ManagerProofs Proofs.ManagerStep Proofs.ManagerFacts.
Import ListNotations.

Section Proofs.
Context {M : Type}.
Variable begins : M -> bool.
Notation state := (Manager.state M).
Notation tb s t := (t_base (s_threads s t)).
Notation tp s t := (t_push (s_threads s t)).
Notation ts s t := (t_sig (s_threads s t)).
Notation ob s o := (s_objs s o).

Lemma begun_app : forall o (a b : list (fact M)), begun o (a ++ b) = begun o a ++ begun o b.
Proof. induction a as [|x a IH]; intro b; [reflexivity|]. destruct x; cbn; rewrite ?IH; try reflexivity. destruct (Nat.eqb o o0); cbn; now rewrite ?IH. Qed.
Lemma local_in_app : forall a b : list (fact M), local_in (a ++ b) = local_in a ++ local_in b.
Proof. induction a as [|x a IH]; intro b; [reflexivity|]. destruct x; cbn; now rewrite ?IH. Qed.
Lemma local_out_app : forall a b : list (fact M), local_out (a ++ b) = local_out a ++ local_out b.
Proof. induction a as [|x a IH]; intro b; [reflexivity|]. destruct x; cbn; now rewrite ?IH. Qed.

Inductive happens (t : nat) (s s' : state) : Prop :=
| HpNone : s_hist s' = s_hist s -> s_next s' = s_next s -> s_local s' = s_local s -> happens t s s'
| HpBegun : forall id m, tp s t = Some (PFind id m) -> begins m = true -> map_find id (s_requests s) = None ->
    s_hist s' = s_hist s ++ [NBegun id m (s_next s)] -> s_next s' = S (s_next s) -> s_local s' = s_local s ->
    o_rid (ob s' (s_next s)) = id -> happens t s s'
| HpComplete : forall id o, tb s t = RProc id o -> tp s t = None -> o_alive (ob s o) = true -> tb s' t = HRet id o false -> tp s' t = None ->
    s_hist s' = s_hist s ++ [NComplete o] -> s_next s' = s_next s -> s_local s' = s_local s -> happens t s s'
| HpIn : forall m sk, s_hist s' = s_hist s ++ [NLocalIn m sk] -> s_next s' = s_next s -> s_local s' = s_local s ++ [(m, sk)] -> happens t s s'
| HpOut : forall m sk, s_hist s' = s_hist s ++ [NLocalOut m sk] -> s_next s' = s_next s -> s_local s = (m, sk) :: s_local s' -> happens t s s'.

Lemma all_hist : forall ws (s : state), s_hist (fold_right (wakeup M) s ws) = s_hist s.
Proof. induction ws as [|w ws IH]; intro s; [reflexivity|]. cbn [fold_right]. cbn. apply IH. Qed.

Lemma step_hist : forall (s : state) t a s', step begins t a s = Some s' -> happens t s s'.
Proof.
  intros s t a s' H.
  cases H S0 P0 B0; try (apply HpNone; reflexivity).
  all: try (match goal with |- context[notify_all M ?s1] => pose proof (all_fields (s_waiters s1) s1) as F; cbn zeta in F; fold (notify_all M s1) in F;
      pose proof (all_hist (s_waiters s1) s1) as FH; fold (notify_all M s1) in FH;
      destruct F as (F1 & F2 & F3 & F4 & F5 & F6 & F7 & F8 & F9 & F10 & F11 & F12); apply HpNone; cbn -[notify_all]; assumption end).
  - eapply HpIn; reflexivity.
  - eapply HpBegun; try eassumption; try reflexivity. cbn. now rewrite fupd_same.
  - eapply HpOut; cbn; try reflexivity; eassumption.
  - eapply HpComplete; try eassumption; try reflexivity; cbn; rewrite fupd_same; [reflexivity|assumption].
Qed.

(** Every request began with a BEGIN_REQUEST record, once. *)
Definition origin (s : state) : Prop := forall o,
  (o < s_next s -> exists m, begun o (s_hist s) = [(o_rid (ob s o), m)] /\ begins m = true) /\
  (s_next s <= o -> begun o (s_hist s) = []).

Lemma step_rid : forall (s : state) t a s' o, step begins t a s = Some s' -> o < s_next s -> o_rid (ob s' o) = o_rid (ob s o).
Proof.
  intros s t a s' o S L. apply step_effect in S. destruct S.
  - destruct (H2 o) as (E & _). exact E.
  - destruct (Nat.eq_dec o o0) as [->|N]; [now rewrite H7|]. destruct (H8 o N) as (E & _). exact E.
  - destruct (Nat.eq_dec o o0) as [->|N]; [now rewrite H6|]. destruct (H7 o N) as (E & _). exact E.
  - destruct (H7 o) as (E & _); [lia|exact E].
  - destruct (Nat.eq_dec o o0) as [->|N]; [assumption|]. destruct (H10 o N) as (E & _). exact E.
  - destruct (Nat.eq_dec o o0) as [->|N]; [assumption|]. destruct (H9 o N) as (E & _). exact E.
Qed.

Lemma origin_step : forall (s : state) t a s', inv s -> origin s -> step begins t a s = Some s' -> origin s'.
Proof.
  intros s t a s' I K S o. destruct (K o) as [K1 K2].
  assert (X : forall h, s_hist s' = s_hist s ++ h -> s_next s' = s_next s -> begun o h = [] ->
    (o < s_next s' -> exists m, begun o (s_hist s') = [(o_rid (ob s' o), m)] /\ begins m = true) /\ (s_next s' <= o -> begun o (s_hist s') = [])).
  { intros h E1 E2 E3. rewrite E1, E2, begun_app, E3, app_nil_r. split; [|exact K2].
    intro L. rewrite (step_rid s t a s' o S L). auto. }
  destruct (step_hist s t a s' S).
  - apply (X []); rewrite ?app_nil_r; auto.
  - rewrite H2, H3, begun_app. cbn. destruct (Nat.eqb_spec o (s_next s)) as [->|N].
    + split; [|lia]. intros _. exists m. rewrite K2 by lia. cbn. now rewrite H5.
    + rewrite app_nil_r. split; [|intro; apply K2; lia]. intro L. rewrite (step_rid s t a s' o S) by lia. apply K1. lia.
  - eapply X; eauto.
  - eapply X; eauto.
  - eapply X; eauto.
Qed.
Lemma origin_reachable : forall s : state, reachable begins s -> origin s.
Proof. apply (reach_ind begins origin); [intro o; cbn; split; [lia|reflexivity]|]. intros. eapply origin_step; eauto. Qed.

(** Management records. *)
Lemma locals_reachable : forall s : state, reachable begins s -> local_in (s_hist s) = local_out (s_hist s) ++ s_local s.
Proof.
  apply (reach_ind begins (fun s => local_in (s_hist s) = local_out (s_hist s) ++ s_local s)); [reflexivity|].
  intros s t a s' I K S. destruct (step_hist s t a s' S).
  - now rewrite H, H1.
  - rewrite H2, H4, local_in_app, local_out_app. cbn. now rewrite !app_nil_r.
  - rewrite H4, H6, local_in_app, local_out_app. cbn. now rewrite !app_nil_r.
  - rewrite H, H1, local_in_app, local_out_app. cbn. now rewrite app_nil_r, app_assoc, K.
  - rewrite H, local_in_app, local_out_app. cbn. rewrite app_nil_r, K, H1, <- app_assoc. reflexivity.
Qed.

(** A complete request is removed. *)
Definition ending (s : state) : Prop := forall o, In (NComplete o) (s_hist s) ->
  o < s_next s /\ (o_alive (ob s o) = false \/ exists t, tp s t = None /\ removing s t o).

Lemma ending_step : forall (s : state) t a s', inv s -> ending s -> step begins t a s = Some s' -> ending s'.
Proof.
  intros s t a s' I K S o H.
  assert (OLD : In (NComplete o) (s_hist s) \/ (o_alive (ob s o) = true /\ exists id, tb s' t = HRet id o false /\ tp s' t = None)).
  { destruct (step_hist s t a s' S).
    - left. congruence.
    - rewrite H3 in H. apply in_app_or in H. destruct H as [H|[H|[]]]; [now left|discriminate].
    - rewrite H5 in H. apply in_app_or in H. destruct H as [H|[H|[]]]; [now left|]. injection H as ->. right. eauto.
    - rewrite H0 in H. apply in_app_or in H. destruct H as [H|[H|[]]]; [now left|discriminate].
    - rewrite H0 in H. apply in_app_or in H. destruct H as [H|[H|[]]]; [now left|discriminate]. }
  assert (NX : s_next s <= s_next s') by (destruct (step_hist s t a s' S); lia).
  destruct OLD as [H0|(A & id & E & P)].
  2: { split; [pose proof (i_next s I o A); lia|]. right. exists t. split; [exact P|]. exists id. auto. }
  destruct (K o H0) as [L [D|(t' & P & RM)]].
  - split; [lia|]. left. destruct (o_alive (ob s' o)) eqn:A; [|reflexivity]. exfalso.
    destruct (step_alive begins s t a s' o I S A) as [[X _]|[X _]]; [congruence|lia].
  - split; [lia|]. destruct (Nat.eq_dec t' t) as [->|N].
    + destruct (step_pushes begins s t a s' S) as [SP|SP].
      2: { exfalso. assert (X : tp s' t <> None) by (rewrite P in SP; inversion SP; discriminate).
           apply (i_push s' (inv_step begins s t a s' I S)) in X.
           destruct RM as (id & RM). destruct (step_own begins s t a s' I S) as [E|[[E E']|[_ F]]].
           - destruct X as [X|(i & x & X)]; destruct RM as [RM|[RM|[RM|RM]]]; congruence.
           - destruct RM as [RM|[RM|[RM|RM]]]; congruence.
           - destruct RM as [RM|[RM|[RM|RM]]]; rewrite RM in F; inversion F; destruct X as [X|(i & x & X)]; congruence. }
      rewrite P in SP.
      destruct (step_own begins s t a s' I S) as [E|[[E E']|[_ F]]].
      * right. exists t. split; [exact SP|]. destruct RM as (id & RM). exists id. now rewrite E.
      * exfalso. destruct RM as (id & [RM|[RM|[RM|RM]]]); congruence.
      * destruct RM as (id & [RM|[RM|[RM|RM]]]); rewrite RM in F; inversion F; subst.
        -- right. exists t. split; [exact SP|]. exists id. auto.
        -- right. exists t. split; [exact SP|]. exists id. auto.
        -- right. exists t. split; [exact SP|]. exists id. auto.
        -- left. clear F. cases S S0 P0 B0; try congruence; cbn in *; rewrite ?fupd_same in *; cbn in *; try congruence.
           ++ exfalso. destruct (all_threads (s_waiters s) (set_flag M b s) t) as (_ & _ & Q). rewrite Q in H4.
              destruct (existsb (Nat.eqb t) (s_waiters s)); [discriminate|]. cbn in H4. congruence.
           ++ injection RM as -> ->. now rewrite fupd_same.
    + right. exists t'. split; [rewrite (step_other_push begins s t a s' I S t' N); exact P|].
      destruct RM as (id & RM). exists id.
      pose proof (step_others begins s t a s' I S t' N) as [X|[X Y]]; [rewrite X; exact RM|].
      exfalso. destruct RM as [RM|[RM|[RM|RM]]]; congruence.
Qed.
Lemma ending_reachable : forall s : state, reachable begins s -> ending s.
Proof. apply (reach_ind begins ending); [intros o []|]. intros. eapply ending_step; eauto. Qed.

Lemma complete_ends : forall s : state, reachable begins s -> forall o, In (NComplete o) (s_hist s) ->
  o_alive (ob s o) = false \/ exists t, removing s t o.
Proof. intros s R o H. destruct (ending_reachable s R o H) as [_ [X|(t & _ & X)]]; eauto. Qed.

Lemma complete_gone : forall s : state, reachable begins s -> (forall t, idle s t) -> forall o, In (NComplete o) (s_hist s) ->
  o_alive (ob s o) = false.
Proof.
  intros s R I o H. destruct (complete_ends s R o H) as [X|(t & id & X)]; [exact X|exfalso].
  destruct (I t) as (_ & _ & B). destruct X as [X|[X|[X|X]]]; rewrite X in B; contradiction.
Qed.

Lemma begins_once : forall s : state, reachable begins s -> forall o,
  (o < s_next s -> exists m, begun o (s_hist s) = [(o_rid (ob s o), m)] /\ begins m = true) /\
  (s_next s <= o -> begun o (s_hist s) = []).
Proof. exact origin_reachable. Qed.

(** At most one live request has an id. *)
Lemma live_distinct : forall s : state, reachable begins s -> forall o o',
  o_alive (ob s o) = true -> o_alive (ob s o') = true -> o_rid (ob s o) = o_rid (ob s o') -> o = o'.
Proof.
  intros s R o o' A A' E. pose proof (inv_reachable begins s R) as I.
  assert (X : map_find (o_rid (ob s o)) (s_requests s) = Some o) by (apply (i_map s I); auto).
  assert (Y : map_find (o_rid (ob s o)) (s_requests s) = Some o') by (apply (i_map s I); auto). congruence.
Qed.
End Proofs.
