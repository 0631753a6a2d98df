(** The listeners after stop. *)
From Coq Require Import List Bool Arith Lia.
From Verif Require Import Model.Wake Spec.WakeSpec Proofs.WakeProofs.
Import ListNotations.

Definition kacc (k : kpc) : bool := match k with KAccept => true | _ => false end.
Definition refreshes (l : lpc) : bool := match l with LTop _ | LPoll _ | LRefresh _ | LFresh _ | LDone => true | _ => false end.
Definition fresh_pc (l : lpc) : bool := match l with LFresh _ => true | _ => false end.

Record linv (s : wst) : Prop := mkLinv {
  l_flag : some_thread kacc s -> w_refresh s = true;
  l_fresh : fresh_pc (w_loop s) = true -> w_listening s = w_accept s;
  l_out : w_accept s = false -> w_refresh s = true \/ w_listening s = false;
  l_seen : w_refresh s = true -> covered s \/ some_thread kacc s \/ refreshes (w_loop s) = true
}.

Lemma overlap_iff : forall s, fresh_pc (w_loop s) = true -> some_thread kacc s -> overlap s.
Proof.
  intros s F [t K]; split; [destruct (w_loop s); try discriminate; eexists; reflexivity|].
  exists t; destruct (w_threads s t); try discriminate; reflexivity.
Qed.

(** What does not touch the listeners. *)
Lemma linv_loop : forall s s', linv s -> w_threads s' = w_threads s -> w_waking s' = w_waking s -> w_refresh s' = w_refresh s ->
  w_accept s' = w_accept s -> w_listening s' = w_listening s -> fresh_pc (w_loop s') = false ->
  (refreshes (w_loop s) = true -> refreshes (w_loop s') = true \/ w_refresh s = false) -> linv s'.
Proof.
  intros s s' [A B C D] T W R Ac Li F Re; constructor; unfold some_thread, covered in *; unfold some_thread in *; rewrite ?T, ?W, ?R, ?Ac, ?Li; auto.
  - congruence.
  - intros X; destruct (D X) as [Y|[Y|Y]]; auto; destruct (Re Y); [auto|congruence].
Qed.

Lemma linv_step : forall a s s', winv s -> linv s -> ~ overlap s -> wstep a s = Some s' -> linv s'.
Proof.
  intros a s s' I L NO H.
  assert (U : forall t v s', kacc (w_threads s t) = false -> kacc v = false -> (kpend (w_threads s t) = true -> kpend v = true) ->
    w_threads s' = kset (w_threads s) t v -> w_loop s' = w_loop s -> w_waking s' = w_waking s ->
    w_refresh s' = w_refresh s -> w_accept s' = w_accept s -> w_listening s' = w_listening s -> linv s').
  { clear s' H; intros t v s' K K' P T Lo W R Ac Li; destruct L as [A B C D].
    assert (SA : some_thread kacc s -> some_thread kacc s').
    { intros [x X]; exists x; rewrite T; apply some_kset; [exact X|intros ->; congruence]. }
    assert (SA' : some_thread kacc s' -> some_thread kacc s).
    { intros [x X]; rewrite T in X; destruct (kset_cases (w_threads s) t v x) as [[-> E]|[_ E]]; rewrite E in X; [congruence|now exists x]. }
    assert (CV : covered s -> covered s').
    { intros [X|[x X]]; [left; congruence|right; exists x; rewrite T; apply some_kset; [exact X|intros ->; auto]]. }
    constructor; rewrite ?R, ?Lo, ?Ac, ?Li; auto; intros X; destruct (D X) as [Y|[Y|Y]]; auto. }
  destruct a as [e c f|t|t|t|t|t]; cbn in H; unfold idle in H.
  - unfold loop_step in H; destruct (w_loop s) as [b|b|b|b|b| | | | | | | | ] eqn:E.
    + destruct (_ || _); injection H as <-; (apply (linv_loop s); [exact L|reflexivity..|]; rewrite E; cbn; auto).
    + injection H as <-; apply (linv_loop s); [exact L|reflexivity..|]; rewrite E; cbn; auto.
    + destruct (w_refresh s) eqn:R; injection H as <-; [|apply (linv_loop s); [exact L|reflexivity..|]; rewrite E; cbn; auto].
      destruct L as [A B C D]; constructor; cbn; auto.
    + injection H as <-; destruct L as [A B C D]; constructor; cbn; try discriminate.
      * intros X; exfalso; apply NO, overlap_iff; [rewrite E; reflexivity|exact X].
      * intros X; right; rewrite B; [exact X|rewrite E; reflexivity].
    + destruct e; [destruct (w_bytes s =? 0)|destruct (w_conns s =? 0)|destruct (w_listening s); [destruct (w_accept s)|]|]; try discriminate;
      injection H as <-; (apply (linv_loop s); [exact L|reflexivity..|]; rewrite E; cbn; auto).
    + destruct (w_owner s); [discriminate|]; injection H as <-; apply (linv_loop s); [exact L|reflexivity..|]; rewrite E; cbn; auto.
    + destruct (w_bytes s =? 0); injection H as <-; (apply (linv_loop s); [exact L|reflexivity..|]; rewrite E; cbn; auto).
    + injection H as <-; destruct L as [A B C D]; constructor; cbn; auto; try discriminate.
    + injection H as <-; apply (linv_loop s); [exact L|reflexivity..|]; rewrite E; cbn; auto.
    + destruct (w_queue s); injection H as <-; (apply (linv_loop s); [exact L|reflexivity..|]; rewrite E; cbn; auto).
    + destruct f; injection H as <-; (apply (linv_loop s); [exact L|reflexivity..|]; rewrite E; cbn; auto).
    + discriminate.
    + discriminate.
  - destruct (w_threads s t) eqn:K; try discriminate; injection H as <-; apply (U t KWant); rewrite ?K; auto.
  - destruct (w_threads s t) eqn:K; try discriminate; injection H as <-; apply (U t KWant); rewrite ?K; auto.
  - destruct (w_threads s t) eqn:K; try discriminate; injection H as <-; apply (U t KStop); rewrite ?K; auto.
  - destruct (w_threads s t) eqn:K; try discriminate; injection H as <-; apply (U t KWant); rewrite ?K; auto.
  - unfold run_step in H; destruct (w_threads s t) eqn:K.
    + discriminate.
    + destruct (w_accept s) eqn:Ac; injection H as <-; [apply (U t KRefresh)|apply (U t KOut)]; rewrite ?K; auto.
    + injection H as <-; destruct L as [A B C D]; constructor; cbn; auto.
      intros _; right; left; exists t; cbn; rewrite kset_eq; reflexivity.
    + injection H as <-; destruct L as [A B C D].
      assert (S : some_thread kacc s) by (exists t; rewrite K; reflexivity).
      constructor; cbn; auto.
      * intros F; exfalso; apply NO, overlap_iff; assumption.
      * intros _; left; right; exists t; cbn; rewrite kset_eq; reflexivity.
    + destruct (w_owner s); [discriminate|]; injection H as <-; apply (U t KTest); rewrite ?K; auto.
    + destruct (w_waking s) eqn:W; injection H as <-.
      * destruct L as [A B C D].
        assert (SA' : some_thread kacc (set_thread t KLeave s) -> some_thread kacc s).
        { intros [x X]; cbn in X; destruct (kset_cases (w_threads s) t KLeave x) as [[-> E]|[_ E]]; rewrite E in X; [discriminate|now exists x]. }
        constructor; cbn; auto; intros _; left; left; exact W.
      * destruct L as [A B C D].
        assert (SA' : some_thread kacc (set_thread t KWrite s) -> some_thread kacc s).
        { intros [x X]; cbn in X; destruct (kset_cases (w_threads s) t KWrite x) as [[-> E]|[_ E]]; rewrite E in X; [discriminate|now exists x]. }
        constructor; cbn; auto; intros _; left; left; reflexivity.
    + injection H as <-; apply (U t KLeave); rewrite ?K; auto; discriminate.
    + injection H as <-; apply (U t KOut); rewrite ?K; auto; discriminate.
Qed.

Lemma linit : linv w_init.
Proof. constructor; cbn; auto; intros; discriminate. Qed.

Lemma linv_exec : forall l s s', winv s -> linv s -> apart l s -> wexec l s = Some s' -> linv s'.
Proof.
  induction l as [|a l IH]; intros s s' I L A H; cbn in *; [injection H as <-; exact L|].
  destruct A as [NO A]; destruct (wstep a s) as [s1|] eqn:E; [|discriminate].
  exact (IH _ _ (wstep_inv _ _ _ I E) (linv_step _ _ _ I L NO E) A H).
Qed.

Lemma listener_gone : forall l s, wexec l w_init = Some s -> apart l w_init -> quiet s -> asleep s -> w_stop s = true ->
  w_accept s = false /\ w_listening s = false.
Proof.
  intros l s H A Q S St; assert (I := wexec_inv _ _ _ winit_inv H); assert (L := linv_exec _ _ _ winit_inv linit A H).
  assert (Ac : w_accept s = false).
  { destruct (w_accept s) eqn:E; [|reflexivity]; destruct (v_stop1 _ I St E) as [t K]; rewrite Q in K; discriminate. }
  split; [exact Ac|]; destruct (l_out _ L Ac) as [R|R]; [|exact R]; exfalso.
  destruct (l_seen _ L R) as [C|[[t K]|F]].
  - destruct (asleep_covered s I S C) as [t K]; rewrite Q in K; destruct K as [K|[K|K]]; discriminate.
  - rewrite Q in K; discriminate.
  - rewrite (proj1 S) in F; discriminate.
Qed.

(** A run in which stop keeps clear of the refresh. *)
Definition clean_case : list wact :=
  let go := WLoop EvNone 0 true in
  [go; go; go; go; WLoop EvListener 0 true;   (* a connection *)
   WStop 1; WRun 1; WRun 1; WRun 1; WRun 1; WRun 1; WRun 1; WRun 1;
   go; go; go; WLoop EvWake 0 true; go; go; go; go; go; go; go; go; go; go; go].

Lemma not_overlap : forall s, fresh_pc (w_loop s) = false \/ quiet s -> ~ overlap s.
Proof. intros s [F|Q] [[b E] [t K]]; [rewrite E in F; discriminate|rewrite Q in K; discriminate]. Qed.
