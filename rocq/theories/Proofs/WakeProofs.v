(** Proofs about wake-ups. *)
From Coq Require Import List Bool Arith Lia.
From Verif Require Import Model.Wake Spec.WakeSpec.
Import ListNotations.

Definition khold (k : kpc) : bool := match k with KTest | KWrite | KLeave => true | _ => false end.
Definition lhold (l : lpc) : bool := match l with LRead | LClear | LFail => true | _ => false end.
Definition kpend (k : kpc) : bool := match k with KWant | KTest => true | _ => false end.
Definition kstop (k : kpc) : bool := match k with KStop | KRefresh | KAccept => true | _ => false end.

(** The I/O thread will look at the send buffer before it sleeps. *)
Definition looks (l : lpc) : bool :=
  match l with LTop true | LPoll true | LRefresh true | LFresh true | LWait true => false | _ => true end.
(** The I/O thread will look at the flags before it sleeps. *)
Definition checks (l : lpc) : bool :=
  match l with LPoll true | LRefresh true | LFresh true | LWait true => false | _ => true end.

Definition some_thread (p : kpc -> bool) (s : wst) : Prop := exists t, p (w_threads s t) = true.
Definition covered (s : wst) : Prop := w_waking s = true \/ some_thread kpend s.

Record winv (s : wst) : Prop := mkWinv {
  v_owner : forall t, w_owner s = Some (Some t) <-> khold (w_threads s t) = true;
  v_loop : w_owner s = Some None <-> lhold (w_loop s) = true;
  v_none : w_waking s = false -> w_bytes s = 0;
  v_one : w_waking s = true -> w_loop s <> LClear -> (forall t, w_threads s t <> KWrite) -> w_bytes s = 1;
  v_zero : w_loop s = LClear \/ (exists t, w_threads s t = KWrite) -> w_bytes s = 0;
  v_leave : forall t, w_threads s t = KWrite \/ w_threads s t = KLeave -> w_waking s = true;
  v_clear : w_loop s = LLock \/ w_loop s = LRead \/ w_loop s = LClear -> w_waking s = true;
  v_lock : w_loop s = LLock -> forall t, w_threads s t <> KWrite;
  v_due : w_due s <> 0 -> w_waking s = true /\ forall t, w_threads s t <> KWrite;
  v_queue : w_queue s <> 0 -> covered s \/ looks (w_loop s) = true;
  v_term : w_terminate s = true -> covered s \/ checks (w_loop s) = true;
  v_acc : w_accept s = false -> w_stop s = true;
  v_stop1 : w_stop s = true -> w_accept s = true -> some_thread kstop s;
  v_stop2 : w_stop s = true -> w_accept s = false -> w_conns s = 0 -> covered s \/ checks (w_loop s) = true;
  v_kstop : forall t, kstop (w_threads s t) = true -> w_stop s = true;
  v_fail : w_loop s <> LFail
}.

Lemma winit_inv : winv w_init.
Proof.
  constructor; cbn; try (intros; discriminate); try (intros; lia); try tauto;
  try (intro t; split; discriminate); try (split; discriminate); try (intros t [|]; discriminate); try (intros [|[|]]; discriminate).
Qed.

Lemma kset_eq : forall f t v, kset f t v t = v.
Proof. intros; unfold kset; now rewrite Nat.eqb_refl. Qed.
Lemma kset_ne : forall f t v x, x <> t -> kset f t v x = f x.
Proof. intros f t v x N; unfold kset; apply Nat.eqb_neq in N; now rewrite N. Qed.
Lemma kset_cases : forall f t v x, (x = t /\ kset f t v x = v) \/ (x <> t /\ kset f t v x = f x).
Proof. intros f t v x; destruct (Nat.eq_dec x t) as [->|N]; [left; split; [reflexivity|apply kset_eq]|right; split; [assumption|now apply kset_ne]]. Qed.

Ltac kc t x :=
  let C := fresh "C" in
  destruct (kset_cases (fun _ => KOut) t KOut x) as [[-> C]|[C _]]; rewrite ?kset_eq in *; rewrite ?(kset_ne _ _ _ _ C) in *.

(** Moving a thread: what holds of some other thread, or of the new place. *)
Lemma some_move : forall p s t v o s',
  some_thread p s -> w_threads s t = o -> w_threads s' = kset (w_threads s) t v -> (p o = true -> p v = true) -> some_thread p s'.
Proof.
  intros p s t v o s' [x H] O E I; exists (if Nat.eq_dec x t then t else x); rewrite E.
  destruct (Nat.eq_dec x t) as [->|N]; [rewrite kset_eq; apply I; congruence|now rewrite kset_ne].
Qed.

Definition ord (l : lpc) : bool := match l with LLock | LRead | LClear | LFail => false | _ => true end.

Lemma ord_step : forall s s', winv s -> ord (w_loop s) = true -> ord (w_loop s') = true ->
  w_threads s' = w_threads s -> w_owner s' = w_owner s -> w_waking s' = w_waking s -> w_bytes s' = w_bytes s ->
  w_due s' = w_due s -> w_terminate s' = w_terminate s -> w_stop s' = w_stop s -> w_accept s' = w_accept s ->
  (w_queue s' <> 0 -> (w_queue s <> 0 /\ (looks (w_loop s) = true -> looks (w_loop s') = true)) \/ looks (w_loop s') = true) ->
  (w_terminate s = true -> checks (w_loop s) = true -> checks (w_loop s') = true) ->
  (w_stop s = true -> w_accept s = false -> w_conns s' = 0 ->
     (w_conns s = 0 /\ (checks (w_loop s) = true -> checks (w_loop s') = true)) \/ checks (w_loop s') = true) ->
  winv s'.
Proof.
  intros s s' I O O' T Ow Wa By Du Te St Ac Q C D.
  destruct I as [Iow Ilo Ino Ion Ize Ile Icl Ilk Idu Iqu Ite Iac Is1 Is2 Iks Ifa].
  assert (N : w_loop s <> LClear) by (intros X; rewrite X in O; discriminate).
  assert (N' : w_loop s' <> LClear) by (intros X; rewrite X in O'; discriminate).
  constructor; unfold covered, some_thread in *; rewrite ?T, ?Ow, ?Wa, ?By, ?Du, ?Te, ?St, ?Ac; try assumption.
  - rewrite Ilo; destruct (w_loop s), (w_loop s'); try discriminate; reflexivity.
  - intros W _; exact (Ion W N).
  - intros [X|X]; [contradiction|exact (Ize (or_intror X))].
  - intros [X|[X|X]]; rewrite X in O'; discriminate.
  - intros X; rewrite X in O'; discriminate.
  - intros X; destruct (Q X) as [[Y Z]|Y]; [destruct (Iqu Y) as [V|V]; [now left|right; exact (Z V)]|now right].
  - intros X; destruct (Ite X) as [V|V]; [now left|right; exact (C X V)].
  - intros X Y Z; destruct (D X Y Z) as [[V1 V2]|V]; [destruct (Is2 X Y V1) as [V|V]; [now left|right; exact (V2 V)]|now right].
  - intros X; rewrite X in O'; discriminate.
Qed.

Lemma loop_inv : forall e c f s s', winv s -> loop_step e c f s = Some s' -> winv s'.
Proof.
  intros e c f s s' I H; unfold loop_step in H.
  destruct (w_loop s) as [b|b|b|b|b| | | | | | | | ] eqn:L.
  - destruct (w_terminate s) eqn:T, (w_stop s) eqn:S, (Nat.eqb_spec (w_conns s) 0) as [Z|Z]; cbn in H; injection H as <-;
    (eapply ord_step; [exact I| rewrite L | | | | | | | | | | rewrite L | rewrite L| rewrite L]; cbn; try reflexivity; rewrite ?T, ?S; try discriminate; auto);
    destruct b; cbn; auto.
  - injection H as <-.
    eapply ord_step; [exact I| rewrite L | | | | | | | | | | rewrite L | rewrite L| rewrite L]; cbn; try reflexivity; auto.
  - destruct (w_refresh s); injection H as <-;
    (eapply ord_step; [exact I| rewrite L | | | | | | | | | | rewrite L | rewrite L| rewrite L]; cbn; try reflexivity; auto).
  - injection H as <-.
    eapply ord_step; [exact I| rewrite L | | | | | | | | | | rewrite L | rewrite L| rewrite L]; cbn; try reflexivity; auto.
  - destruct e.
    + destruct (Nat.eqb_spec (w_bytes s) 0) as [Z|Z]; [discriminate|]; injection H as <-.
      destruct I as [Iow Ilo Ino Ion Ize Ile Icl Ilk Idu Iqu Ite Iac Is1 Is2 Iks Ifa].
      assert (W : w_waking s = true) by (destruct (w_waking s) eqn:W; [reflexivity|destruct (Z (Ino eq_refl))]).
      assert (V : forall t, w_threads s t <> KWrite) by (intros t V; apply Z, Ize; right; now exists t).
      constructor; unfold covered, some_thread in *; cbn; try assumption; try (intros; exact W); try discriminate; try (intros; left; now left).
      * rewrite Ilo, L; reflexivity.
      * intros X _; apply Ion; [exact X|rewrite L; discriminate].
      * intros [X|X]; [discriminate|exact (Ize (or_intror X))].
      * intros _; exact V.
    + destruct (w_conns s =? 0); [discriminate|]; injection H as <-.
      eapply ord_step; [exact I| rewrite L | | | | | | | | | | rewrite L | rewrite L| rewrite L]; cbn; try reflexivity; auto.
    + destruct (w_listening s); [|discriminate]; injection H as <-.
      destruct (w_accept s) eqn:A;
      (eapply ord_step; [exact I| rewrite L | | | | | | | | | | rewrite L | rewrite L| rewrite L]; cbn; try reflexivity; rewrite ?A; try discriminate; auto).
    + injection H as <-.
      eapply ord_step; [exact I| rewrite L | | | | | | | | | | rewrite L | rewrite L| rewrite L]; cbn; try reflexivity; auto.
  - destruct (w_owner s) eqn:O; [discriminate|]; injection H as <-.
    destruct I as [Iow Ilo Ino Ion Ize Ile Icl Ilk Idu Iqu Ite Iac Is1 Is2 Iks Ifa].
    assert (W : w_waking s = true) by (apply Icl; auto).
    constructor; unfold covered, some_thread in *; cbn; try assumption; try (intros; exact W); try discriminate; try (intros; left; now left).
    + intros t; rewrite <- Iow, O; split; discriminate.
    + tauto.
    + intros X _; apply Ion; [exact X|rewrite L; discriminate].
    + intros [X|X]; [discriminate|exact (Ize (or_intror X))].
  - destruct I as [Iow Ilo Ino Ion Ize Ile Icl Ilk Idu Iqu Ite Iac Is1 Is2 Iks Ifa].
    assert (W : w_waking s = true) by (apply Icl; auto).
    assert (O : w_owner s = Some None) by (apply Ilo; rewrite L; reflexivity).
    assert (V : forall t, khold (w_threads s t) = false).
    { intros t; destruct (khold (w_threads s t)) eqn:X; [|reflexivity]; apply Iow in X; congruence. }
    assert (V' : forall t, w_threads s t <> KWrite) by (intros t X; specialize (V t); rewrite X in V; discriminate).
    assert (B : w_bytes s = 1) by (apply Ion; [exact W|rewrite L; discriminate|exact V']).
    rewrite B in H; cbn in H; injection H as <-.
    constructor; unfold covered, some_thread in *; cbn; try assumption; try (intros; exact W); try discriminate; try (intros; left; now left); try reflexivity; try tauto.
  - injection H as <-.
    destruct I as [Iow Ilo Ino Ion Ize Ile Icl Ilk Idu Iqu Ite Iac Is1 Is2 Iks Ifa].
    assert (O : w_owner s = Some None) by (apply Ilo; rewrite L; reflexivity).
    assert (V : forall t, khold (w_threads s t) = false).
    { intros t; destruct (khold (w_threads s t)) eqn:X; [|reflexivity]; apply Iow in X; congruence. }
    assert (B : w_bytes s = 0) by (apply Ize; now left).
    constructor; unfold covered, some_thread in *; cbn; try assumption; try discriminate; try (intros; now right); try tauto; try congruence.
    + intros t; rewrite V; split; discriminate.
    + split; discriminate.
    + intros t [X|X]; specialize (V t); rewrite X in V; discriminate.
    + intros [X|[X|X]]; discriminate.
  - injection H as <-.
    eapply ord_step; [exact I| rewrite L | | | | | | | | | | rewrite L | rewrite L| rewrite L]; cbn; try reflexivity; auto.
  - destruct (w_queue s) eqn:Q; injection H as <-;
    (eapply ord_step; [exact I| rewrite L | | | | | | | | | | rewrite L | rewrite L| rewrite L]; cbn; try reflexivity; rewrite ?Q; auto).
  - destruct f; injection H as <-;
    (eapply ord_step; [exact I| rewrite L | | | | | | | | | | rewrite L | rewrite L| rewrite L]; cbn; try reflexivity; auto).
  - discriminate.
  - discriminate.
Qed.

(** A thread moves outside the mutex: nothing about wake-ups changes, the
    thread was not pending, or is. *)
Lemma call_inv : forall s s' t v, winv s -> khold (w_threads s t) = false -> khold v = false ->
  w_threads s' = kset (w_threads s) t v -> w_loop s' = w_loop s -> w_owner s' = w_owner s -> w_waking s' = w_waking s ->
  w_bytes s' = w_bytes s -> w_due s' = w_due s -> w_conns s' = w_conns s ->
  (kpend (w_threads s t) = true -> kpend v = true) ->
  (w_queue s' = w_queue s \/ kpend v = true) -> (w_terminate s' = w_terminate s \/ kpend v = true) ->
  (w_accept s' = false -> w_stop s' = true) ->
  (w_stop s' = true -> w_accept s' = true -> some_thread kstop s') ->
  ((w_stop s' = w_stop s /\ w_accept s' = w_accept s) \/ w_accept s' = true \/ kpend v = true
     \/ (w_stop s = true /\ w_accept s = false)) ->
  (forall t, kstop (w_threads s' t) = true -> w_stop s' = true) ->
  winv s'.
Proof.
  intros s s' t v I K K' T L Ow Wa By Du Co P Q Te A S1 S2 Ks.
  destruct I as [Iow Ilo Ino Ion Ize Ile Icl Ilk Idu Iqu Ite Iac Is1 Is2 Iks Ifa].
  assert (NW : forall x, w_threads s' x = KWrite \/ w_threads s' x = KLeave -> w_threads s x = w_threads s' x).
  { intros x X; rewrite T in *; destruct (kset_cases (w_threads s) t v x) as [[-> E]|[_ E]]; rewrite E in *; [|reflexivity].
    destruct X as [X|X]; rewrite X in K'; discriminate. }
  assert (NW' : forall x, w_threads s x = KWrite -> w_threads s' x = KWrite).
  { intros x X; rewrite T; destruct (kset_cases (w_threads s) t v x) as [[-> E]|[_ E]]; rewrite E; [|exact X].
    rewrite X in K; discriminate. }
  assert (PV : kpend v = true -> covered s') by (intros X; right; exists t; rewrite T, kset_eq; exact X).
  assert (CV : covered s -> covered s').
  { intros [X|X]; [left; congruence|right; eapply some_move; [exact X|reflexivity|exact T|exact P]]. }
  constructor; rewrite ?L, ?Ow, ?Wa, ?By, ?Du, ?Co; try assumption.
  - intros x; rewrite T; destruct (kset_cases (w_threads s) t v x) as [[-> E]|[_ E]]; rewrite E; [|apply Iow].
    rewrite K', Iow, K; reflexivity.
  - intros W N X; apply Ion; [exact W|exact N|]; intros x Y; exact (X x (NW' x Y)).
  - intros [X|[x X]]; apply Ize; [now left|right; exists x; rewrite NW; [exact X|now left]].
  - intros x X; apply (Ile x); rewrite (NW x X); exact X.
  - intros X x Y; apply (Ilk X x); rewrite NW; [exact Y|now left].
  - intros X; destruct (Idu X) as [Y Z]; split; [exact Y|]; intros x V; apply (Z x); rewrite NW; [exact V|now left].
  - intros X; destruct Q as [Q|Q]; [|left; auto]; rewrite Q in X; destruct (Iqu X) as [V|V]; [left; auto|now right].
  - intros X; destruct Te as [Te|Te]; [|left; auto]; rewrite Te in X; destruct (Ite X) as [V|V]; [left; auto|now right].
  - intros X Y Z; destruct S2 as [[E1 E2]|[E|[E|[E1 E2]]]].
    + rewrite E1 in X; rewrite E2 in Y; destruct (Is2 X Y Z) as [V|V]; [left; auto|now right].
    + congruence.
    + left; auto.
    + destruct (Is2 E1 E2 Z) as [V|V]; [left; auto|now right].
Qed.

Lemma some_kset : forall (p : kpc -> bool) f t v x, p (f x) = true -> (x = t -> p v = true) -> p (kset f t v x) = true.
Proof. intros p f t v x H E; destruct (kset_cases f t v x) as [[-> X]|[_ X]]; rewrite X; auto. Qed.

Lemma run_inv : forall t s s', winv s -> run_step t s = Some s' -> winv s'.
Proof.
  intros t s s' I H; unfold run_step in H.
  destruct (w_threads s t) eqn:K.
  - discriminate.
  - destruct (w_accept s) eqn:A; injection H as <-.
    + assert (St := v_kstop _ I t); rewrite K in St; specialize (St eq_refl).
      eapply call_inv with (t := t); [exact I|rewrite K; reflexivity| |reflexivity..|rewrite K| | | | | |]; cbn; auto; try reflexivity; try discriminate.
      * intros _ _; exists t; cbn; rewrite kset_eq; reflexivity.
    + eapply call_inv with (t := t); [exact I|rewrite K; reflexivity| |reflexivity..|rewrite K| | | | | |]; cbn; auto; try reflexivity; try discriminate.
      * intros _; exact (v_acc _ I A).
      * congruence.
      * intros x X; destruct (kset_cases (w_threads s) t KOut x) as [[-> E]|[_ E]]; rewrite E in X; [discriminate|exact (v_kstop _ I x X)].
  - injection H as <-.
    assert (St := v_kstop _ I t); rewrite K in St; specialize (St eq_refl).
    eapply call_inv with (t := t); [exact I|rewrite K; reflexivity| |reflexivity..|rewrite K| | | | | |]; cbn; auto; try reflexivity; try discriminate.
    intros _ _; exists t; cbn; rewrite kset_eq; reflexivity.
  - injection H as <-.
    assert (St := v_kstop _ I t); rewrite K in St; specialize (St eq_refl).
    eapply call_inv with (t := t); [exact I|rewrite K; reflexivity| |reflexivity..|rewrite K| | | | | |]; cbn; auto; try reflexivity; try discriminate.
  - destruct (w_owner s) eqn:O; [discriminate|]; injection H as <-.
    destruct I as [Iow Ilo Ino Ion Ize Ile Icl Ilk Idu Iqu Ite Iac Is1 Is2 Iks Ifa].
    assert (V : forall x, khold (w_threads s x) = false).
    { intros x; destruct (khold (w_threads s x)) eqn:X; [|reflexivity]; apply Iow in X; congruence. }
    assert (NW : forall x, w_threads s x <> KWrite) by (intros x X; specialize (V x); rewrite X in V; discriminate).
    assert (NW' : forall x, kset (w_threads s) t KTest x <> KWrite).
    { intros x; destruct (kset_cases (w_threads s) t KTest x) as [[_ ->]|[_ ->]]; [discriminate|apply NW]. }
    assert (CV : covered s \/ True -> w_waking s = true \/ exists x, kpend (kset (w_threads s) t KTest x) = true).
    { intros _; right; exists t; rewrite kset_eq; reflexivity. }
    constructor; unfold covered, some_thread in *; cbn; try assumption; auto.
    + intros x; destruct (kset_cases (w_threads s) t KTest x) as [[-> ->]|[N ->]]; cbn; [tauto|].
      rewrite V; split; congruence.
    + split; [discriminate|]; intros X; apply Ilo in X; congruence.
    + intros [X|[x X]]; [auto|destruct (NW' x X)].
    + intros x X; destruct (kset_cases (w_threads s) t KTest x) as [[-> E]|[N E]]; rewrite E in X; [destruct X; discriminate|exact (Ile x X)].
    + intros X; split; [apply Idu; exact X|exact NW'].
    + intros X Y; destruct (Is1 X Y) as [x Z]; exists x; apply some_kset; [exact Z|intros ->; rewrite K in Z; discriminate].
    + intros x X; destruct (kset_cases (w_threads s) t KTest x) as [[-> E]|[N E]]; rewrite E in X; [discriminate|exact (Iks x X)].
  - assert (O : w_owner s = Some (Some t)) by (apply (v_owner _ I); rewrite K; reflexivity).
    destruct I as [Iow Ilo Ino Ion Ize Ile Icl Ilk Idu Iqu Ite Iac Is1 Is2 Iks Ifa].
    assert (V : forall x, x <> t -> khold (w_threads s x) = false).
    { intros x N; destruct (khold (w_threads s x)) eqn:X; [|reflexivity]; apply Iow in X; congruence. }
    assert (NW : forall x, w_threads s x <> KWrite).
    { intros x X; destruct (Nat.eq_dec x t) as [->|N]; [congruence|]; specialize (V x N); rewrite X in V; discriminate. }
    assert (NC : w_loop s <> LClear) by (intros X; assert (Y : w_owner s = Some None) by (apply Ilo; rewrite X; reflexivity); congruence).
    destruct (w_waking s) eqn:W; injection H as <-.
    + constructor; unfold covered, some_thread in *; cbn; try assumption; auto; rewrite ?W in *; auto.
      * intros x; destruct (kset_cases (w_threads s) t KLeave x) as [[-> ->]|[N ->]]; cbn; [tauto|]; apply Iow.
      * intros [X|[x X]]; [auto|]; destruct (kset_cases (w_threads s) t KLeave x) as [[-> E]|[N E]]; rewrite E in X; [discriminate|destruct (NW x X)].
      * intros _ x; destruct (kset_cases (w_threads s) t KLeave x) as [[-> ->]|[N ->]]; [discriminate|apply NW].
      * intros _; split; [reflexivity|]; intros x; destruct (kset_cases (w_threads s) t KLeave x) as [[-> ->]|[N ->]]; [discriminate|apply NW].
      * intros X Y; destruct (Is1 X Y) as [x Z]; exists x; apply some_kset; [exact Z|intros ->; rewrite K in Z; discriminate].
      * intros x X; destruct (kset_cases (w_threads s) t KLeave x) as [[-> E]|[N E]]; rewrite E in X; [discriminate|exact (Iks x X)].
    + assert (B := Ino eq_refl).
      constructor; unfold covered, some_thread in *; cbn; try assumption; auto; try discriminate.
      * intros x; destruct (kset_cases (w_threads s) t KWrite x) as [[-> ->]|[N ->]]; cbn; [tauto|]; apply Iow.
      * intros _ _ X; destruct (X t); apply kset_eq.
      * intros X; assert (Y : w_waking s = true) by (rewrite W; apply Icl; auto); congruence.
      * intros X; destruct (Idu X); discriminate.
      * intros X Y; destruct (Is1 X Y) as [x Z]; exists x; apply some_kset; [exact Z|intros ->; rewrite K in Z; discriminate].
      * intros x X; destruct (kset_cases (w_threads s) t KWrite x) as [[-> E]|[N E]]; rewrite E in X; [discriminate|exact (Iks x X)].
  - assert (O : w_owner s = Some (Some t)) by (apply (v_owner _ I); rewrite K; reflexivity).
    destruct I as [Iow Ilo Ino Ion Ize Ile Icl Ilk Idu Iqu Ite Iac Is1 Is2 Iks Ifa].
    assert (V : forall x, x <> t -> khold (w_threads s x) = false).
    { intros x N; destruct (khold (w_threads s x)) eqn:X; [|reflexivity]; apply Iow in X; congruence. }
    assert (NW : forall x, x <> t -> w_threads s x <> KWrite).
    { intros x N X; specialize (V x N); rewrite X in V; discriminate. }
    assert (NW' : forall x, kset (w_threads s) t KLeave x <> KWrite).
    { intros x; destruct (kset_cases (w_threads s) t KLeave x) as [[-> ->]|[N ->]]; [discriminate|exact (NW x N)]. }
    assert (NC : w_loop s <> LClear) by (intros X; assert (Y : w_owner s = Some None) by (apply Ilo; rewrite X; reflexivity); congruence).
    assert (W : w_waking s = true) by (apply (Ile t); auto).
    assert (B : w_bytes s = 0) by (apply Ize; right; now exists t).
    injection H as <-.
    constructor; unfold covered, some_thread in *; cbn; try assumption; auto; rewrite ?W in *; auto; try discriminate.
    + intros x; destruct (kset_cases (w_threads s) t KLeave x) as [[-> ->]|[N ->]]; cbn; [tauto|]; apply Iow.
    + intros [X|[x X]]; [contradiction|destruct (NW' x X)].
    + intros X Y; destruct (Is1 X Y) as [x Z]; exists x; apply some_kset; [exact Z|intros ->; rewrite K in Z; discriminate].
    + intros x X; destruct (kset_cases (w_threads s) t KLeave x) as [[-> E]|[N E]]; rewrite E in X; [discriminate|exact (Iks x X)].
  - assert (O : w_owner s = Some (Some t)) by (apply (v_owner _ I); rewrite K; reflexivity).
    destruct I as [Iow Ilo Ino Ion Ize Ile Icl Ilk Idu Iqu Ite Iac Is1 Is2 Iks Ifa].
    assert (V : forall x, x <> t -> khold (w_threads s x) = false).
    { intros x N; destruct (khold (w_threads s x)) eqn:X; [|reflexivity]; apply Iow in X; congruence. }
    assert (NW : forall x, w_threads s x <> KWrite).
    { intros x X; destruct (Nat.eq_dec x t) as [->|N]; [congruence|]; specialize (V x N); rewrite X in V; discriminate. }
    assert (NW' : forall x, kset (w_threads s) t KOut x <> KWrite).
    { intros x; destruct (kset_cases (w_threads s) t KOut x) as [[-> ->]|[N ->]]; [discriminate|exact (NW x)]. }
    assert (W : w_waking s = true) by (apply (Ile t); auto).
    injection H as <-.
    constructor; unfold covered, some_thread in *; cbn; try assumption; auto; rewrite ?W in *; auto; try discriminate.
    + intros x; destruct (kset_cases (w_threads s) t KOut x) as [[-> ->]|[N ->]]; cbn; [split; discriminate|].
      rewrite (V x N); split; discriminate.
    + split; [discriminate|]; intros X; apply Ilo in X; congruence.
    + intros [X|[x X]]; [auto|destruct (NW' x X)].
    + intros X Y; destruct (Is1 X Y) as [x Z]; exists x; apply some_kset; [exact Z|intros ->; rewrite K in Z; discriminate].
    + intros x X; destruct (kset_cases (w_threads s) t KOut x) as [[-> E]|[N E]]; rewrite E in X; [discriminate|exact (Iks x X)].
Qed.

Lemma wstep_inv : forall a s s', winv s -> wstep a s = Some s' -> winv s'.
Proof.
  intros a s s' I H.
  assert (U : forall t s', w_threads s t = KOut -> w_threads s' = kset (w_threads s) t KWant -> w_loop s' = w_loop s -> w_owner s' = w_owner s ->
    w_waking s' = w_waking s -> w_bytes s' = w_bytes s -> w_due s' = w_due s -> w_conns s' = w_conns s ->
    w_accept s' = w_accept s -> w_stop s' = w_stop s -> winv s').
  { intros t s0 K T L Ow Wa By Du Co Ac St.
    apply (call_inv s s0 t KWant); auto; try (rewrite K; reflexivity).
    - rewrite Ac, St; exact (v_acc _ I).
    - rewrite Ac, St; intros X Y; destruct (v_stop1 _ I X Y) as [x Z]; exists x; rewrite T; apply some_kset; [exact Z|intros ->; rewrite K in Z; discriminate].
    - intros x; rewrite T, St; destruct (kset_cases (w_threads s) t KWant x) as [[-> ->]|[N ->]]; [discriminate|apply (v_kstop _ I)]. }
  destruct a as [e c f|t|t|t|t|t]; cbn in H; unfold idle in H.
  - exact (loop_inv _ _ _ _ _ I H).
  - destruct (w_threads s t) eqn:K; try discriminate; injection H as <-; apply (U t); auto.
  - destruct (w_threads s t) eqn:K; try discriminate; injection H as <-; apply (U t); auto.
  - destruct (w_threads s t) eqn:K; try discriminate; injection H as <-.
    eapply call_inv with (t := t); [exact I|rewrite K; reflexivity| |reflexivity..|rewrite K| | | | | |]; cbn; auto; try reflexivity; try discriminate.
    + intros _ _; exists t; cbn; rewrite kset_eq; reflexivity.
    + destruct (w_accept s) eqn:A; [auto|right; right; right; split; [exact (v_acc _ I A)|reflexivity]].
  - destruct (w_threads s t) eqn:K; try discriminate; injection H as <-; apply (U t); auto.
  - exact (run_inv _ _ _ I H).
Qed.

Lemma wexec_inv : forall l s s', winv s -> wexec l s = Some s' -> winv s'.
Proof.
  induction l as [|a l IH]; intros s s' I H; cbn in H; [injection H as <-; exact I|].
  destruct (wstep a s) eqn:E; [|discriminate]; exact (IH _ _ (wstep_inv _ _ _ I E) H).
Qed.

Lemma wreachable_inv : forall s, wreachable s -> winv s.
Proof. intros s [l H]; exact (wexec_inv _ _ _ winit_inv H). Qed.

Lemma wake_bounded : forall s, wreachable s ->
  w_bytes s <= 1 /\ (forall t, w_threads s t = KWrite -> w_bytes s = 0) /\
  (w_loop s = LRead -> w_bytes s = 1) /\ w_loop s <> LFail.
Proof.
  intros s R; assert (I := wreachable_inv _ R); repeat split.
  - destruct (w_waking s) eqn:W; [|rewrite (v_none _ I W); lia].
    destruct (w_owner s) as [[t|]|] eqn:O.
    + assert (K := proj1 (v_owner _ I t) O).
      assert (NC : w_loop s <> LClear) by (intros X; assert (Y : w_owner s = Some None) by (apply (v_loop _ I); rewrite X; reflexivity); congruence).
      assert (V : forall x, x <> t -> w_threads s x <> KWrite).
      { intros x N X; assert (Y : w_owner s = Some (Some x)) by (apply (v_owner _ I); rewrite X; reflexivity); congruence. }
      destruct (w_threads s t) eqn:E; try discriminate K.
      1,3: rewrite (v_one _ I W NC); [lia|]; intros x; destruct (Nat.eq_dec x t) as [->|N]; [congruence|exact (V x N)].
      rewrite (v_zero _ I); [lia|right; now exists t].
    + assert (V : forall x, w_threads s x <> KWrite).
      { intros x X; assert (Y : w_owner s = Some (Some x)) by (apply (v_owner _ I); rewrite X; reflexivity); congruence. }
      destruct (w_loop s) eqn:L; try (rewrite (v_one _ I W); [lia|rewrite L; discriminate|exact V]).
      rewrite (v_zero _ I); [lia|left; exact L].
    + assert (V : forall x, w_threads s x <> KWrite).
      { intros x X; assert (Y : w_owner s = Some (Some x)) by (apply (v_owner _ I); rewrite X; reflexivity); congruence. }
      rewrite (v_one _ I W); [lia| |exact V].
      intros X; assert (Y : w_owner s = Some None) by (apply (v_loop _ I); rewrite X; reflexivity); congruence.
  - intros t K; apply (v_zero _ I); right; now exists t.
  - intros L; apply (v_one _ I); [apply (v_clear _ I); auto|rewrite L; discriminate|].
    intros t X; assert (Y : w_owner s = Some (Some t)) by (apply (v_owner _ I); rewrite X; reflexivity).
    assert (Z : w_owner s = Some None) by (apply (v_loop _ I); rewrite L; reflexivity); congruence.
  - exact (v_fail _ I).
Qed.

Lemma asleep_covered : forall s, winv s -> asleep s -> covered s ->
  exists t, w_threads s t = KWant \/ w_threads s t = KTest \/ w_threads s t = KWrite.
Proof.
  intros s I [L B] [W|[t K]].
  - destruct (w_owner s) as [[t|]|] eqn:O.
    + exists t; assert (K := proj1 (v_owner _ I t) O); destruct (w_threads s t) eqn:E; try discriminate K; auto.
      exfalso; assert (X := v_one _ I W); rewrite B, L in X; discriminate X; [discriminate|].
      intros x; destruct (Nat.eq_dec x t) as [->|N]; [congruence|]; intros Y.
      assert (Z : w_owner s = Some (Some x)) by (apply (v_owner _ I); rewrite Y; reflexivity); congruence.
    + apply (v_loop _ I) in O; rewrite L in O; discriminate.
    + exfalso; assert (X := v_one _ I W); rewrite B, L in X; discriminate X; [discriminate|].
      intros x Y; assert (Z : w_owner s = Some (Some x)) by (apply (v_owner _ I); rewrite Y; reflexivity); congruence.
  - exists t; destruct (w_threads s t); try discriminate K; auto.
Qed.

Lemma not_slept_over : forall s, wreachable s -> asleep s ->
  w_due s = 0 /\
  (w_queue s <> 0 \/ w_terminate s = true \/ (w_stop s = true /\ w_conns s = 0) -> exists t, w_threads s t <> KOut).
Proof.
  intros s R A; assert (I := wreachable_inv _ R); assert (L := proj1 A); split.
  - destruct (Nat.eq_dec (w_due s) 0) as [|N]; [assumption|]; exfalso.
    destruct (v_due _ I N) as [W V]; assert (X := v_one _ I W); rewrite (proj2 A), L in X; discriminate X; [discriminate|exact V].
  - assert (G : covered s -> exists t, w_threads s t <> KOut).
    { intros C; destruct (asleep_covered s I A C) as [t H]; exists t; destruct H as [H|[H|H]]; congruence. }
    intros [Q|[T|[S C]]].
    + destruct (v_queue _ I Q) as [X|X]; [auto|rewrite L in X; discriminate].
    + destruct (v_term _ I T) as [X|X]; [auto|rewrite L in X; discriminate].
    + destruct (w_accept s) eqn:E.
      * destruct (v_stop1 _ I S E) as [t K]; exists t; intros X; rewrite X in K; discriminate.
      * destruct (v_stop2 _ I S E C) as [X|X]; [auto|rewrite L in X; discriminate].
Qed.

Lemma wake_no_deadlock : forall s, wreachable s -> forall t, w_threads s t <> KOut ->
  exists a s', wstep a s = Some s' /\
    (a = WRun t \/ (exists t', w_owner s = Some (Some t') /\ a = WRun t') \/
     (w_owner s = Some None /\ exists e c f, a = WLoop e c f)).
Proof.
  intros s R t K; assert (I := wreachable_inv _ R).
  destruct (run_step t s) as [s'|] eqn:E; [exists (WRun t), s'; auto|].
  assert (O : w_owner s <> None).
  { intros O; unfold run_step in E; rewrite O in E; destruct (w_threads s t); try discriminate; try congruence;
    [destruct (w_accept s)|destruct (w_waking s)]; discriminate. }
  destruct (w_owner s) as [[x|]|] eqn:Ow; [| |congruence].
  - assert (H := proj1 (v_owner _ I x) Ow).
    assert (exists s', run_step x s = Some s') as [s' Z].
    { unfold run_step; destruct (w_threads s x); try discriminate; [destruct (w_waking s)| |]; eexists; reflexivity. }
    exists (WRun x), s'; split; [exact Z|right; left; now exists x].
  - assert (H := proj1 (v_loop _ I) Ow).
    assert (exists s', loop_step EvNone 0 true s = Some s') as [s' Z].
    { unfold loop_step; destruct (w_loop s) eqn:L; try discriminate H.
      - destruct (w_bytes s =? 0); eexists; reflexivity.
      - eexists; reflexivity.
      - destruct (v_fail _ I L). }
    exists (WLoop EvNone 0 true), s'; split; [exact Z|right; right; split; [reflexivity|now exists EvNone, 0, true]].
Qed.

Lemma refuses : forall s a s', w_accept s = false -> wstep a s = Some s' ->
  w_accept s' = false /\ w_conns s' <= w_conns s.
Proof.
  intros s a s' A H; destruct a as [e c f|t|t|t|t|t]; cbn in H;
  try (destruct (idle t s); [|discriminate]; injection H as <-; cbn; split; [exact A|lia]).
  - unfold loop_step in H; rewrite A in H;
    repeat match type of H with
    | (if ?c then _ else _) = _ => destruct c
    | match ?e with _ => _ end = _ => destruct e
    end; try discriminate H; injection H as <-; cbn; split; try exact A; lia.
  - unfold run_step in H; rewrite A in H;
    repeat match type of H with
    | (if ?c then _ else _) = _ => destruct c
    | match ?e with _ => _ end = _ => destruct e
    end; try discriminate H; injection H as <-; cbn; split; try exact A; try reflexivity; lia.
Qed.

(** A record is sent while the I/O thread is on its way to sleep. *)
Definition to_sleep : list wact :=
  let go := WLoop EvNone 0 true in [go; go; go; go; go; go; go; go; go; go].
Definition wake_case : list wact := to_sleep ++ [WSend 1; WSend 2; WRun 1; WRun 1].

(** A connection is open and [stop] runs beside the refresh of the listeners. *)
Definition stop_case : list wact :=
  let go := WLoop EvNone 0 true in
  [go; go; go; go; WLoop EvListener 0 true;   (* a connection *)
   WStop 1; WRun 1; WRun 1;                   (* m_refreshListeners is set *)
   go; go; go;                                (* the listeners are refreshed *)
   WRun 1; WRun 1; WRun 1; WRun 1; WRun 1;    (* m_accept, wake; stop returns *)
   WLoop EvWake 0 true; go; go; go; go; go; go; go; go; go; go; go].

Lemma stop_case_listening : exists s, wexec stop_case w_init = Some s /\
  quiet s /\ asleep s /\ w_stop s = true /\ w_accept s = false /\ w_listening s = true.
Proof.
  destruct (wexec stop_case w_init) as [s|] eqn:E; [|vm_compute in E; discriminate].
  exists s; vm_compute in E; injection E as <-; split; [reflexivity|]; repeat split.
  intros t; cbn; repeat (match goal with |- context [Nat.eqb t ?n] => destruct (Nat.eqb t n) end); try reflexivity.
  all: destruct t as [|[|t]]; reflexivity.
Qed.

Lemma listener_kept : exists s, wreachable s /\
  quiet s /\ asleep s /\ w_stop s = true /\ w_accept s = false /\ w_listening s = true.
Proof. destruct stop_case_listening as [s [E H]]; exists s; split; [now exists stop_case|exact H]. Qed.
