(** Proofs about Socket objects as handles. *)
From Coq Require Import List Arith Bool Lia.
From Verif Require Import Model.Base Model.SocketHandles Spec.SocketHandlesSpec.
Import ListNotations.

Lemma put_at_in : forall A i (x y : A) l, In y (put_at i x l) -> y = x \/ In y l.
Proof.
  intros A. induction i as [|i IH]; intros x y [|z l] H; cbn in *; try tauto.
  - destruct H as [H|H]; auto.
  - destruct H as [H|H]; auto. apply IH in H as [H|H]; auto.
Qed.

Lemma put_at_length : forall A i (x : A) l, length (put_at i x l) = length l.
Proof. intros A. induction i as [|i IH]; intros x [|y l]; cbn; auto. Qed.

Lemma put_at_nth : forall A i (x dflt : A) l j, nth j (put_at i x l) dflt = if Nat.eqb j i && Nat.ltb i (length l) then x else nth j l dflt.
Proof.
  intros A. induction i as [|i IH]; intros x dflt [|y l] [|j]; cbn; try reflexivity.
  - now rewrite andb_false_r.
  - rewrite IH. reflexivity.
Qed.

Lemma nth_true : forall l d, nth d l false = true -> d < length l.
Proof. intros l d H. destruct (Nat.lt_ge_cases d (length l)); [assumption|]. rewrite nth_overflow in H by assumption. discriminate. Qed.

Lemma NoDup_last : forall (l : list nat) x, NoDup l -> ~ In x l -> NoDup (l ++ [x]).
Proof.
  intros l x N I. apply (NoDup_Add (a := x) (l := l)); [|auto].
  rewrite <- (app_nil_r l) at 1. apply Add_app.
Qed.

Definition handles_ok (s : socks) : Prop := forall h, In (Some h) (s_handles s) ->
  s_original h = false /\ forall d, s_data h = Some d -> d < length (s_valid s).
Definition closed_ok (s : socks) : Prop :=
  (forall d, In d (s_closed s) <-> d < length (s_valid s) /\ nth d (s_valid s) false = false) /\ NoDup (s_closed s).
Definition map_ok (s : socks) : Prop := forall d, In d (s_map s) -> d < length (s_valid s).
Definition live_ok (s : socks) : Prop := forall d, nth d (s_valid s) false = true -> s_alive s = true /\ In d (s_map s).
Definition inv (s : socks) : Prop := handles_ok s /\ closed_ok s /\ map_ok s /\ live_ok s.

Lemma inv_init : inv s_init.
Proof.
  split; [intros h []|]. split; [split; [|constructor]|].
  - intro d. cbn. split; [intros []|]. intros [L _]. lia.
  - split; [intros d []|]. intros d H. apply nth_true in H. cbn in H. lia.
Qed.

(** Closing a connection that is open. *)
Lemma shut_closed : forall d s, closed_ok s -> nth d (s_valid s) false = true -> closed_ok (shut_down d s).
Proof.
  intros d s [C N] V. assert (L := nth_true _ _ V). split; cbn.
  - intro x. rewrite in_app_iff, put_at_length, put_at_nth, C. assert (T : Nat.ltb d (length (s_valid s)) = true) by now apply Nat.ltb_lt.
    rewrite T, andb_true_r. destruct (Nat.eqb_spec x d) as [-> |D]; cbn; [intuition|].
    split; [intros [H|[H|[]]]; [exact H|congruence]|auto].
  - apply NoDup_last; [exact N|]. rewrite C. intros [_ X]. congruence.
Qed.

Lemma shut_valid : forall d s x, nth x (s_valid (shut_down d s)) false = true -> nth x (s_valid s) false = true /\ x <> d.
Proof.
  intros d s x. cbn [shut_down s_valid]. rewrite put_at_nth. destruct (Nat.eqb_spec x d) as [-> |D]; cbn [andb].
  - destruct (Nat.ltb_spec d (length (s_valid s))); [intro X; discriminate X|].
    rewrite nth_overflow by assumption. intro X; discriminate X.
  - auto.
Qed.

(** Closing in general: what the group's part of the state looks like. *)
Lemma destroy_facts : forall d s, closed_ok s ->
  closed_ok (destroy_original d s) /\ length (s_valid (destroy_original d s)) = length (s_valid s) /\
  s_map (destroy_original d s) = s_map s /\ s_alive (destroy_original d s) = s_alive s /\ s_handles (destroy_original d s) = s_handles s /\
  forall x, nth x (s_valid (destroy_original d s)) false = true -> nth x (s_valid s) false = true /\ x <> d.
Proof.
  intros d s C. unfold destroy_original. destruct (nth d (s_valid s) false) eqn:V.
  - split; [now apply shut_closed|]. split; [apply put_at_length|]. do 3 (split; [reflexivity|]). apply shut_valid.
  - do 5 (split; [now auto|]). intros x X. split; [exact X|]. congruence.
Qed.

Lemma erase_shut : forall d s, closed_ok s -> nth d (s_valid s) false = true ->
  let s' := erase d (shut_down d s) in
  closed_ok s' /\ length (s_valid s') = length (s_valid s) /\ s_alive s' = s_alive s /\ s_handles s' = s_handles s /\
  (forall x, In x (s_map s') -> In x (s_map s)) /\ (forall x, In x (s_map s) -> x <> d -> In x (s_map s')) /\
  (forall x, nth x (s_valid s') false = true -> nth x (s_valid s) false = true /\ x <> d).
Proof.
  intros d s C V. cbv zeta. unfold erase. set (s1 := shut_down d s).
  assert (C1 : closed_ok s1) by now apply shut_closed.
  assert (V1 : forall x, nth x (s_valid s1) false = true -> nth x (s_valid s) false = true /\ x <> d) by apply shut_valid.
  assert (L1 : length (s_valid s1) = length (s_valid s)) by apply put_at_length.
  destruct (existsb (Nat.eqb d) (s_map s1)).
  - destruct (destroy_facts d s1 C1) as (F1 & F2 & F3 & F4 & F5 & F6).
    split; [exact F1|]. split; [cbn; congruence|]. split; [exact F4|]. split; [exact F5|]. cbn [s_map s_valid]. rewrite F3.
    split; [|split].
    + intros x X. now apply filter_In in X as [X _].
    + intros x X D. apply filter_In. split; [exact X|]. now apply negb_true_iff, Nat.eqb_neq.
    + intros x X. apply F6 in X as [X _]. now apply V1.
  - repeat (split; [now auto|]). exact V1.
Qed.

Lemma close_inv : forall h s, inv s -> (forall d, s_data h = Some d -> d < length (s_valid s)) ->
  close_handle h s <> SUndef /\ forall s', close_handle h s = SOn s' -> inv s'.
Proof.
  intros h s (H & C & M & V) D. unfold close_handle. destruct (s_data h) as [d|]; [|split; [discriminate|]; intros s' E; injection E as <-; split; auto].
  destruct (nth d (s_valid s) false) eqn:X; [|split; [discriminate|]; intros s' E; injection E as <-; split; auto].
  rewrite (proj1 (V d X)). split; [discriminate|]. intros s' E. injection E as <-.
  destruct (erase_shut d s C X) as (F1 & F2 & F3 & F4 & F5 & F6 & F7).
  split; [|split; [exact F1|split]].
  - intros k K. rewrite F4 in K. rewrite F2. now apply H.
  - intros x Y. rewrite F2. now apply M, F5.
  - intros x Y. rewrite F3. destruct (F7 x Y) as [Y1 Y2]. destruct (V x Y1). auto.
Qed.

Lemma with_inv : forall s l, inv s -> (forall h, In (Some h) l -> s_original h = false /\ forall d, s_data h = Some d -> d < length (s_valid s)) ->
  inv (with_handles l s).
Proof. intros s l (H & C & M & V) L. split; [exact L|]. split; [exact C|]. split; assumption. Qed.

Lemma nth_in : forall i (l : list (option handle)) k, nth i l None = Some k -> In (Some k) l.
Proof.
  intros i l k H. destruct (Nat.lt_ge_cases i (length l)) as [L|L].
  - rewrite <- H. now apply nth_In.
  - rewrite nth_overflow in H by exact L. discriminate.
Qed.

Lemma end_facts : forall m s, closed_ok s ->
  let s' := fold_left (fun s d => destroy_original d s) m s in
  closed_ok s' /\ length (s_valid s') = length (s_valid s) /\ s_handles s' = s_handles s /\
  forall x, nth x (s_valid s') false = true -> nth x (s_valid s) false = true /\ ~ In x m.
Proof.
  induction m as [|d m IH]; intros s C; cbn; [repeat (split; [now auto|]); auto|].
  destruct (destroy_facts d s C) as (F1 & F2 & F3 & F4 & F5 & F6).
  destruct (IH _ F1) as (G1 & G2 & G3 & G4). split; [exact G1|]. split; [congruence|]. split; [congruence|].
  intros x X. destruct (G4 x X) as [X1 X2]. destruct (F6 x X1) as [X3 X4]. split; [exact X3|]. intros [E|E]; [congruence|auto].
Qed.

Lemma inv_step : forall a s, inv s -> s_step a s <> SUndef /\ forall s', s_step a s = SOn s' -> inv s'.
Proof.
  intros a s I. assert (I0 := I). destruct I0 as (H & C & M & V).
  destruct a as [add taken|d| |i|i|i j|i|i fails|i|]; cbn [s_step].
  - destruct (s_alive s) eqn:A; [|split; discriminate].
    set (d := length (s_valid s)). set (s1 := mkSocks (s_valid s ++ [true]) (s_map s) true (s_handles s) (s_closed s)).
    assert (L1 : length (s_valid s1) = S d) by (cbn; rewrite app_length; cbn; unfold d; lia).
    assert (V1 : nth d (s_valid s1) false = true) by (cbn; unfold d; rewrite app_nth2, Nat.sub_diag by lia; reflexivity).
    assert (C1 : closed_ok s1).
    { destruct C as [C N]. split; [|exact N]. intro x. cbn [s_closed s_valid s1]. rewrite C.
      assert (Y : forall y, y < d -> nth y (s_valid s ++ [true]) false = nth y (s_valid s) false) by (intros y Ly; now rewrite app_nth1).
      fold d. rewrite app_length. cbn [length]. split.
      - intros [X1 X2]. split; [fold d; lia|]. now rewrite Y.
      - intros [X1 X2]. destruct (Nat.eq_dec x d) as [-> |D]; [cbn in V1; congruence|]. fold d in X1.
        assert (x < d) by lia. rewrite Y in X2 by assumption. auto. }
    assert (O1 : forall x, nth x (s_valid s1) false = true -> x = d \/ (x < d /\ nth x (s_valid s) false = true)).
    { intros x X. assert (LX := nth_true _ _ X). rewrite L1 in LX. destruct (Nat.eq_dec x d) as [-> |D]; [auto|right].
      split; [lia|]. cbn in X. rewrite app_nth1 in X by (fold d; lia). exact X. }
    set (s2 := if add then s1 else erase d (shut_down d s1)).
    assert (F : closed_ok s2 /\ length (s_valid s2) = S d /\ s_alive s2 = true /\ s_handles s2 = s_handles s /\
      (forall x, In x (s_map s2) -> In x (s_map s)) /\ (forall x, In x (s_map s) -> x <> d -> In x (s_map s2)) /\
      (forall x, nth x (s_valid s2) false = true -> x = d \/ (x < d /\ nth x (s_valid s) false = true))).
    { unfold s2. destruct add; [repeat (split; [now auto|]); exact O1|].
      destruct (erase_shut d s1 C1 V1) as (F1 & F2 & F3 & F4 & F5 & F6 & F7).
      split; [exact F1|]. split; [congruence|]. split; [exact F3|]. split; [exact F4|]. split; [exact F5|]. split; [exact F6|].
      intros x X. apply O1, F7, X. }
    clearbody s2. destruct F as (F1 & F2 & F3 & F4 & F5 & F6 & F7).
    destruct taken; (split; [discriminate|]); intros s' E; injection E as <-.
    + destruct (destroy_facts d s2 F1) as (G1 & G2 & G3 & G4 & G5 & G6).
      split; [|split; [exact G1|split]].
      * intros h K. rewrite G5, F4 in K. rewrite G2, F2. destruct (H h K) as [X1 X2]. split; [exact X1|].
        intros y Y. specialize (X2 y Y). fold d in X2. lia.
      * intros x X. rewrite G3 in X. rewrite G2, F2. apply F5, M in X. fold d in X. lia.
      * intros x X. rewrite G4, G3. destruct (G6 x X) as [X1 X2]. apply F7 in X1 as [X1|[X1 X3]]; [congruence|].
        split; [exact F3|]. apply F6; [apply V, X3|lia].
    + split; [|split; [exact F1|split]].
      * intros h K. cbn in K. rewrite F4 in K. cbn [s_valid]. rewrite F2. destruct (H h K) as [X1 X2]. split; [exact X1|].
        intros y Y. specialize (X2 y Y). fold d in X2. lia.
      * intros x X. cbn in X. cbn [s_valid]. rewrite F2. apply in_app_iff in X as [X|[X|[]]]; [apply F5, M in X; fold d in X; lia|lia].
      * intros x X. cbn in X |- *. split; [reflexivity|]. apply in_app_iff. apply F7 in X as [-> |[X1 X2]]; [right; now left|].
        left. apply F6; [apply V, X2|lia].
  - destruct (s_alive s && existsb (Nat.eqb d) (s_map s)) eqn:A; [|split; discriminate].
    split; [discriminate|]. intros s' E. injection E as <-. apply andb_prop in A as [_ A].
    apply existsb_exists in A as (x & X & EX). apply Nat.eqb_eq in EX. subst x.
    apply with_inv; [exact I|]. intros h K. apply in_app_iff in K as [K|[K|[]]]; [now apply H|]. injection K as <-. cbn. split; [reflexivity|].
    intros y Y. injection Y as <-. now apply M.
  - split; [discriminate|]. intros s' E. injection E as <-. apply with_inv; [exact I|].
    intros h K. apply in_app_iff in K as [K|[K|[]]]; [now apply H|]. injection K as <-. cbn. split; [reflexivity|]. discriminate.
  - destruct (nth i (s_handles s) None) as [k|] eqn:N; [|split; discriminate]. apply nth_in in N. destruct (H k N) as [_ HK].
    split; [discriminate|]. intros s' E. injection E as <-. apply with_inv; [exact I|].
    intros h K. apply in_app_iff in K as [K|[K|[]]]; [now apply H|]. injection K as <-. cbn. auto.
  - destruct (nth i (s_handles s) None) as [k|] eqn:N; [|split; discriminate]. apply nth_in in N. destruct (H k N) as [HO HK].
    split; [discriminate|]. intros s' E. injection E as <-. apply with_inv; [exact I|].
    intros h K. apply in_app_iff in K as [K|[K|[]]].
    + apply put_at_in in K as [K|K]; [injection K as ->; cbn; auto|now apply H].
    + injection K as <-. cbn. auto.
  - destruct (nth i (s_handles s) None) as [k0|]; [|split; discriminate].
    destruct (nth j (s_handles s) None) as [k|] eqn:N; [|split; discriminate]. apply nth_in in N. destruct (H k N) as [_ HK].
    split; [discriminate|]. intros s' E. injection E as <-. apply with_inv; [exact I|].
    intros h K. apply put_at_in in K as [K|K]; [injection K as ->; cbn; auto|now apply H].
  - destruct (nth i (s_handles s) None) as [k|] eqn:N; [|split; discriminate]. apply nth_in in N. destruct (H k N) as [HO _].
    rewrite HO. cbn [andb]. split; [discriminate|]. intros s' E. injection E as <-. apply with_inv; [exact I|].
    intros h K. apply put_at_in in K as [K|K]; [discriminate|now apply H].
  - destruct (nth i (s_handles s) None) as [k|] eqn:N; [|split; discriminate]. apply nth_in in N. destruct (H k N) as [_ HK].
    destruct (is_valid k s) eqn:K; [|split; [discriminate|]; intros s' E; now injection E as <-].
    assert (A : s_alive s = true).
    { unfold is_valid in K. destruct (s_data k) as [d|]; [|discriminate]. now destruct (V d K). }
    rewrite A. destruct fails; [now apply close_inv|split; [discriminate|]; intros s' E; now injection E as <-].
  - destruct (nth i (s_handles s) None) as [k|] eqn:N; [|split; discriminate]. apply nth_in in N. destruct (H k N) as [_ HK].
    now apply close_inv.
  - destruct (s_alive s) eqn:A; [|split; discriminate]. split; [discriminate|]. intros s' E. injection E as <-.
    destruct (end_facts (s_map s) s C) as (F1 & F2 & F3 & F4).
    split; [|split; [exact F1|split]].
    + intros h K. cbn in K |- *. rewrite F3 in K. rewrite F2. now apply H.
    + intros x [].
    + intros x X. cbn in X. apply F4 in X as [X1 X2]. destruct (V x X1) as [_ X3]. contradiction.
Qed.

Lemma inv_run : forall l s, inv s -> s_run l s <> SUndef /\ forall s', s_run l s = SOn s' -> inv s'.
Proof.
  induction l as [|a l IH]; intros s I; cbn.
  - split; [discriminate|]. intros s' E. now injection E as <-.
  - destruct (inv_step a s I) as [U N]. destruct (s_step a s) as [s1| |]; [apply IH, N; reflexivity|split; discriminate|congruence].
Qed.

Lemma inv_reached : forall s, s_reached s -> inv s.
Proof. intros s [l R]. now apply (inv_run l s_init inv_init). Qed.

Lemma handles_safe : forall l, s_run l s_init <> SUndef.
Proof. intro l. apply (inv_run l s_init inv_init). Qed.

Lemma closed_once : forall s, s_reached s -> NoDup (s_closed s) /\ forall d, In d (s_closed s) -> d < opened s.
Proof. intros s R. destruct (inv_reached s R) as (_ & [C N] & _). split; [exact N|]. intros d D. now apply C in D as [D _]. Qed.

Lemma valid_open : forall s i d, s_reached s -> handle_of s i d -> (says_valid s i <-> ~ In d (s_closed s)).
Proof.
  intros s i d R (h & N & E). destruct (inv_reached s R) as (H & [C _] & _).
  assert (L : d < length (s_valid s)) by (apply (H h); [now apply nth_error_In in N|exact E]).
  unfold says_valid. rewrite C. split.
  - intros (h' & N' & X) [_ F]. rewrite N in N'. injection N' as <-. unfold is_valid in X. rewrite E in X. congruence.
  - intro F. exists h. split; [exact N|]. unfold is_valid. rewrite E. destruct (nth d (s_valid s) false) eqn:X; [reflexivity|]. destruct F. auto.
Qed.

Lemma ended_closed : forall s s', s_reached s -> s_step SEnd s = SOn s' ->
  (forall d, d < opened s' -> In d (s_closed s')) /\ (forall i, ~ says_valid s' i).
Proof.
  intros s s' [l R] E. assert (R' : s_reached s').
  { exists (l ++ [SEnd]). clear -R E. revert R. generalize s_init. induction l as [|a l IH]; intros s0 R; cbn in *.
    - injection R as ->. cbn [s_step] in E. now rewrite E.
    - destruct (s_step a s0); try discriminate. now apply IH. }
  assert (A : s_alive s' = false) by (cbn [s_step] in E; destruct (s_alive s); [injection E as <-; reflexivity|discriminate]).
  destruct (inv_reached s' R') as (H & [C _] & _ & V). 
  assert (X : forall d, nth d (s_valid s') false = false).
  { intro d. destruct (nth d (s_valid s') false) eqn:X; [|reflexivity]. destruct (V d X). congruence. }
  split.
  - intros d L. apply C. auto.
  - intros i (h & N & Y). unfold is_valid in Y. destruct (s_data h) as [d|]; [|discriminate]. now rewrite X in Y.
Qed.

Lemma handling_closes_nothing : forall s s' a, s_reached s -> handling a -> s_step a s = SOn s' -> s_closed s' = s_closed s /\ opened s' = opened s.
Proof.
  intros s s' a R Q E. destruct (inv_reached s R) as (H & _).
  destruct a as [| | |i|i|i j|i| | |]; try destruct Q; cbn [s_step] in E.
  - destruct (s_alive s && existsb (Nat.eqb d) (s_map s)); [|discriminate]. injection E as <-. auto.
  - injection E as <-. auto.
  - destruct (nth i (s_handles s) None); [|discriminate]. injection E as <-. auto.
  - destruct (nth i (s_handles s) None); [|discriminate]. injection E as <-. auto.
  - destruct (nth i (s_handles s) None); [|discriminate]. destruct (nth j (s_handles s) None); [|discriminate]. injection E as <-. auto.
  - destruct (nth i (s_handles s) None) as [k|] eqn:N; [|discriminate]. apply nth_in in N. destruct (H k N) as [HO _].
    rewrite HO in E. cbn [andb] in E. injection E as <-. auto.
Qed.

Lemma closing_closes : forall s s' i d, s_reached s -> handle_of s i d -> s_step (SClose i) s = SOn s' ->
  In d (s_closed s') /\ (forall e, e <> d -> In e (s_closed s') -> In e (s_closed s)).
Proof.
  intros s s' i d R (h & N & E) X. destruct (inv_reached s R) as (H & C & M & V).
  assert (L : d < length (s_valid s)) by (apply (H h); [now apply nth_error_In in N|exact E]).
  cbn [s_step] in X. rewrite (nth_error_nth _ _ None N) in X. unfold close_handle in X. rewrite E in X.
  destruct (nth d (s_valid s) false) eqn:Y.
  - rewrite (proj1 (V d Y)) in X. injection X as <-.
    assert (Q : s_closed (erase d (shut_down d s)) = s_closed s ++ [d]).
    { unfold erase. destruct (existsb _ _); [|reflexivity]. unfold destroy_original.
      destruct (nth d (s_valid (shut_down d s)) false) eqn:Z; [|reflexivity]. apply shut_valid in Z as [_ Z]. congruence. }
    rewrite Q. split; [apply in_app_iff; right; now left|]. intros e D I. apply in_app_iff in I as [I|[I|[]]]; [exact I|congruence].
  - injection X as <-. split; [apply C; auto|auto].
Qed.

Lemma put_at_error : forall A i (x : A) l j, i < length l -> nth_error (put_at i x l) j = if Nat.eqb j i then Some x else nth_error l j.
Proof.
  intros A. induction i as [|i IH]; intros x [|y l] [|j] L; cbn in *; try lia; try reflexivity. apply IH. lia.
Qed.

Lemma same_connection : forall s s' i d a, In a [SCopy i; SMove i] -> handle_of s i d -> s_step a s = SOn s' ->
  handle_of s' i d /\ handle_of s' (length (s_handles s)) d.
Proof.
  intros s s' i d a A (h & N & E) X. assert (L : i < length (s_handles s)) by (apply nth_error_Some; congruence).
  destruct A as [<-|[<-|[]]]; cbn [s_step] in X; rewrite (nth_error_nth _ _ None N) in X; injection X as <-; split; unfold handle_of; cbn [with_handles s_handles].
  - exists h. split; [|exact E]. now rewrite nth_error_app1.
  - eexists. split; [rewrite nth_error_app2, Nat.sub_diag by lia; reflexivity|exact E].
  - exists (mkHandle (s_data h) false). split; [|exact E]. rewrite nth_error_app1 by (now rewrite put_at_length).
    now rewrite put_at_error, Nat.eqb_refl by exact L.
  - eexists. split; [rewrite nth_error_app2, put_at_length, Nat.sub_diag by (rewrite put_at_length; lia); reflexivity|exact E].
Qed.

Lemma assigned_connection : forall s s' i j, s_step (SAssign i j) s = SOn s' -> forall d, handle_of s j d -> handle_of s' i d.
Proof.
  intros s s' i j X d (h & N & E). cbn [s_step] in X. rewrite (nth_error_nth _ _ None N) in X.
  destruct (nth i (s_handles s) None) as [k|] eqn:K; [|discriminate]. injection X as <-.
  assert (L : i < length (s_handles s)).
  { destruct (Nat.lt_ge_cases i (length (s_handles s))) as [L|L]; [exact L|]. rewrite nth_overflow in K by exact L. discriminate. }
  exists (mkHandle (s_data h) false). split; [|exact E]. cbn [with_handles s_handles]. now rewrite put_at_error, Nat.eqb_refl by exact L.
Qed.
