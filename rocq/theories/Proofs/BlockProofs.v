From Coq Require Import String List NArith Arith Lia Bool.
From Verif Require Import Model.Base Model.Protocol Model.Block Spec.BlockSpec Proofs.ProtocolProofs.
Import ListNotations.

(** Every block the library makes. *)
Definition b_inv (b : block) : Prop :=
  b_size b <= b_reserve b /\ b_reserve b <= length (b_data b).

Lemma view_length : forall b, b_inv b -> length (b_view b) = b_size b.
Proof. intros b [H1 H2]. unfold b_view. rewrite firstn_length. lia. Qed.

Lemma setReserve_ok : forall x b, b_inv b -> exists b', b_setReserve x b = Val b' /\ b_inv b' /\
  b_view b' = firstn x (b_view b) /\ b_reserve b' = x.
Proof.
  intros x b [H1 H2]. unfold b_setReserve. destruct (Nat.eqb_spec x (b_reserve b)) as [E|E]; cbn [negb].
  - exists b. repeat split; auto. symmetry. apply firstn_all2. rewrite view_length by (split; auto). lia.
  - unfold copy_into. rewrite repeat_length.
    replace ((Nat.min (b_size b) x <=? length (b_data b)) && (Nat.min (b_size b) x <=? x)) with true
      by (symmetry; apply andb_true_iff; split; apply Nat.leb_le; lia).
    cbn [obind]. eexists. split; [reflexivity|].
    assert (L : length (firstn (Nat.min (b_size b) x) (b_data b)) = Nat.min (b_size b) x)
      by (rewrite firstn_length; lia).
    split; [|split; [|reflexivity]].
    + split; cbn [b_size b_reserve b_data]; [lia|]. rewrite app_length, L, skipn_length, repeat_length. lia.
    + unfold b_view. cbn [b_size b_data]. rewrite firstn_at by (symmetry; exact L).
      rewrite firstn_firstn. f_equal. lia.
Qed.

Lemma setSize_ok : forall x b, b_inv b -> exists b', b_setSize x b = Val b' /\ b_inv b' /\
  length (b_view b') = x /\ b_reserve b' = Nat.max (b_reserve b) x /\
  firstn (b_size b) (b_view b') = firstn x (b_view b).
Proof.
  intros x b [H1 H2]. unfold b_setSize. destruct (Nat.ltb_spec (b_reserve b) x).
  - destruct (setReserve_ok x (mkB (b_reserve b) (b_reserve b) (b_data b))) as (b1 & E & [I1 I2] & V & R).
    { split; cbn; auto. }
    rewrite E. cbn [obind]. eexists. split; [reflexivity|].
    assert (I : b_inv (mkB (b_reserve b1) x (b_data b1))) by (split; cbn; lia).
    split; [exact I|]. split; [rewrite view_length; auto|]. split; [cbn; lia|].
    unfold b_view in *. cbn [b_size b_data] in *.
    rewrite !firstn_firstn in *.
    assert (S1 : b_size b1 = b_reserve b).
    { unfold b_setReserve in E. cbn [b_reserve b_size b_data] in E.
      destruct (Nat.eqb_spec x (b_reserve b)); [lia|]. cbn [negb] in E. destruct (copy_into _ _ _); cbn [obind] in E; [|discriminate].
      injection E as <-. cbn. rewrite Nat.min_l; lia. }
    rewrite S1 in V.
    replace (Nat.min (b_size b) x) with (Nat.min (b_size b) (b_reserve b)) by lia.
    replace (Nat.min x (b_size b)) with (Nat.min (b_size b) (Nat.min x (b_reserve b))) by lia.
    rewrite <- firstn_firstn, V, firstn_firstn. f_equal.
  - cbn [obind]. eexists. split; [reflexivity|].
    assert (I : b_inv (mkB (b_reserve b) x (b_data b))) by (split; cbn; lia).
    split; [exact I|]. split; [rewrite view_length; auto|]. split; [cbn; lia|].
    unfold b_view. cbn [b_size b_data]. rewrite !firstn_firstn. f_equal. lia.
Qed.

Lemma assign_ok : forall d b, b_inv b -> exists b', b_assign d b = Val b' /\ b_inv b' /\ b_view b' = d.
Proof.
  intros d b [H1 H2]. unfold b_assign.
  set (b1 := if b_reserve b <? length d then mkB (length d) (b_size b) (repeat None (length d)) else b).
  assert (HR : length d <= b_reserve b1 /\ b_reserve b1 <= length (b_data b1)).
  { unfold b1. destruct (Nat.ltb_spec (b_reserve b) (length d)); cbn; [rewrite repeat_length|]; lia. }
  unfold copy_into. replace ((length d <=? length d) && (length d <=? length (b_data b1))) with true
    by (symmetry; apply andb_true_iff; split; apply Nat.leb_le; lia).
  cbn [obind]. eexists. split; [reflexivity|]. rewrite firstn_all. split.
  - split; cbn; [lia|]. rewrite app_length, skipn_length. lia.
  - unfold b_view. cbn [b_size b_data]. now apply firstn_at.
Qed.

Lemma of_ok : forall d, exists b', b_of d = Val b' /\ b_inv b' /\ b_view b' = d.
Proof.
  intros d. unfold b_of, copy_into. rewrite repeat_length, Nat.leb_refl. cbn [andb obind].
  eexists. split; [reflexivity|]. rewrite firstn_all. split.
  - split; cbn; [lia|]. rewrite app_length. lia.
  - unfold b_view. cbn. now apply firstn_at.
Qed.

Lemma store_ok : forall pos bytes b, b_inv b -> pos + length bytes <= b_size b ->
  exists b', b_store pos bytes b = Val b' /\ b_inv b' /\
  b_view b' = firstn pos (b_view b) ++ bytes ++ skipn (pos + length bytes) (b_view b) /\
  b_reserve b' = b_reserve b /\ b_size b' = b_size b.
Proof.
  intros pos bytes b [H1 H2] HP. unfold b_store.
  destruct (Nat.leb_spec (pos + length bytes) (length (b_data b))); [|lia].
  eexists. split; [reflexivity|].
  assert (LF : length (firstn pos (b_data b)) = pos) by (rewrite firstn_length; lia).
  split; [|split; [|split; reflexivity]].
  - split; cbn; [lia|]. rewrite !app_length, LF, skipn_length. lia.
  - unfold b_view. cbn [b_size b_data].
    rewrite firstn_app, LF, firstn_app.
    rewrite (firstn_all2 (firstn pos (b_data b))) by lia.
    rewrite (firstn_all2 bytes) by lia.
    rewrite firstn_firstn, Nat.min_l by lia. f_equal. f_equal.
    rewrite skipn_firstn_comm. f_equal. lia.
Qed.

Lemma upd_app : forall (A : Type) (pre : list A) x post y i, i = length pre ->
  upd (pre ++ x :: post) i y = pre ++ y :: post.
Proof. induction pre; intros; subst; cbn; auto. f_equal. auto. Qed.

Lemma map_split : forall (A B : Type) (f : A -> B) a x b,
  map f (a ++ x :: b) = map f a ++ f x :: map f b.
Proof. intros. now rewrite map_app. Qed.

(** Every operation on valid blocks is defined and does what it should. *)
Lemma bstep_ok : forall o bs r, Forall b_inv bs -> bstep o bs = Some r ->
  exists bs', r = Val bs' /\ Forall b_inv bs' /\ vstep o (map b_view bs) (map b_view bs').
Proof.
  intros o bs r HI HS.
  assert (SPLIT : forall i b, nth_error bs i = Some b -> b_inv b /\
    exists pre post, bs = pre ++ b :: post /\ i = length pre /\ Forall b_inv pre /\ Forall b_inv post).
  { intros i b N. split.
    - rewrite Forall_forall in HI. apply HI. eapply nth_error_In; eauto.
    - apply nth_error_split in N as (pre & post & E & L). exists pre, post.
      rewrite E in HI. apply Forall_app in HI as [F1 F2]. inversion F2; subst. auto. }
  assert (NILOK : forall d, b_inv (mkB 0 0 d)) by (intro; split; cbn; lia).
  destruct o as [n|d|i x|i x|i|i d|i|i j|i pos bytes]; cbn [bstep] in HS.
  - injection HS as <-. eexists. split; [reflexivity|]. split.
    + apply Forall_app. split; auto. constructor; [|constructor]. split; cbn; [|rewrite repeat_length]; lia.
    + rewrite map_app. cbn [map]. unfold b_sized at 1, b_view at 3. cbn [b_size b_data].
      rewrite firstn_all2 by (rewrite repeat_length; lia). constructor.
  - destruct (of_ok d) as (b & E & I & V). rewrite E in HS. cbn in HS. injection HS as <-.
    eexists. split; [reflexivity|]. split; [apply Forall_app; auto|].
    rewrite map_app. cbn [map]. rewrite V. constructor.
  - destruct (nth_error bs i) as [b|] eqn:N; [|discriminate].
    destruct (SPLIT _ _ N) as (IB & pre & post & -> & -> & F1 & F2).
    destruct (setReserve_ok x b IB) as (b' & E & I & V & _). rewrite E in HS. cbn [obind] in HS. injection HS as <-.
    rewrite upd_app by reflexivity. eexists. split; [reflexivity|]. split; [apply Forall_app; auto|].
    rewrite !map_split, V. constructor. now rewrite map_length.
  - destruct (nth_error bs i) as [b|] eqn:N; [|discriminate].
    destruct (SPLIT _ _ N) as (IB & pre & post & -> & -> & F1 & F2).
    destruct (setSize_ok x b IB) as (b' & E & I & L & _ & V). rewrite E in HS. cbn [obind] in HS. injection HS as <-.
    rewrite upd_app by reflexivity. eexists. split; [reflexivity|]. split; [apply Forall_app; auto|].
    rewrite !map_split. pose proof (view_length b IB) as LB.
    destruct (Nat.le_ge_cases x (b_size b)) as [C|C].
    + rewrite firstn_all2 in V by lia. rewrite V. apply v_shrink; [now rewrite map_length|lia].
    + rewrite (firstn_all2 (b_view b)) in V by lia.
      rewrite <- (firstn_skipn (b_size b) (b_view b')), V.
      apply v_grow; [now rewrite map_length|]. rewrite <- V at 1. now rewrite firstn_skipn.
  - destruct (nth_error bs i) as [b|] eqn:N; [|discriminate].
    destruct (SPLIT _ _ N) as (IB & pre & post & -> & -> & F1 & F2). cbn [obind] in HS. injection HS as <-.
    rewrite upd_app by reflexivity. eexists. split; [reflexivity|].
    split; [apply Forall_app; split; auto; constructor; auto; apply NILOK|].
    rewrite !map_split. constructor. now rewrite map_length.
  - destruct (nth_error bs i) as [b|] eqn:N; [|discriminate].
    destruct (SPLIT _ _ N) as (IB & pre & post & -> & -> & F1 & F2).
    destruct (assign_ok d b IB) as (b' & E & I & V). rewrite E in HS. cbn [obind] in HS. injection HS as <-.
    rewrite upd_app by reflexivity. eexists. split; [reflexivity|]. split; [apply Forall_app; auto|].
    rewrite !map_split, V. constructor. now rewrite map_length.
  - destruct (nth_error bs i) as [b|] eqn:N; [|discriminate].
    destruct (SPLIT _ _ N) as (IB & pre & post & -> & -> & F1 & F2). cbn [b_move] in HS. injection HS as <-.
    rewrite upd_app by reflexivity. eexists. split; [reflexivity|].
    split; [rewrite <- app_assoc; apply Forall_app; split; auto; constructor; [apply NILOK|apply Forall_app; auto]|].
    rewrite <- app_assoc. cbn [app]. rewrite !map_split. cbn [map].
    change (b_view (mkB 0 0 [])) with (@nil obyte). constructor. now rewrite map_length.
  - destruct (nth_error bs i) as [bi|] eqn:Ni; [|discriminate].
    destruct (nth_error bs j) as [bj|] eqn:Nj; [|discriminate].
    destruct (Nat.eqb_spec i j) as [->|NE].
    + destruct (SPLIT _ _ Nj) as (IB & pre & post & -> & -> & F1 & F2). injection HS as <-.
      rewrite upd_app by reflexivity. eexists. split; [reflexivity|].
      split; [apply Forall_app; split; auto; constructor; auto; apply NILOK|].
      rewrite !map_split. unfold b_selfMove. change (b_view (mkB 0 0 (b_data bj))) with (@nil obyte).
      constructor. now rewrite map_length.
    + cbn [b_move] in HS. injection HS as <-.
      destruct (SPLIT _ _ Ni) as (IBi & pre & post & E & Li & F1 & F2).
      destruct (SPLIT _ _ Nj) as (IBj & _).
      rewrite E in Nj |- *. destruct (Nat.lt_ge_cases j i) as [C|C].
      * (* j first *)
        rewrite nth_error_app1 in Nj by lia.
        apply nth_error_split in Nj as (a & c & -> & Lj).
        apply Forall_app in F1 as [F11 F12]. inversion F12; subst.
        rewrite <- !app_assoc. cbn [app]. rewrite upd_app by reflexivity.
        replace (upd (a ++ mkB 0 0 [] :: c ++ bi :: post) (length (a ++ bj :: c)) bj)
          with (a ++ mkB 0 0 [] :: c ++ bj :: post).
        2:{ change (a ++ mkB 0 0 [] :: c ++ bi :: post) with (a ++ (mkB 0 0 [] :: c) ++ bi :: post).
            rewrite app_assoc. rewrite upd_app by (rewrite !app_length; reflexivity).
            now rewrite <- app_assoc. }
        eexists. split; [reflexivity|]. split.
        { repeat (apply Forall_app; split; auto; try apply Forall_cons; auto; try apply NILOK). }
        rewrite !map_split. change (b_view (mkB 0 0 [])) with (@nil obyte).
        apply v_move_right; [now rewrite map_length|]. rewrite !app_length. cbn. now rewrite !map_length.
      * rewrite nth_error_app2 in Nj by lia.
        destruct (j - length pre) as [|k] eqn:K; [lia|]. cbn [nth_error] in Nj.
        apply nth_error_split in Nj as (b & c & -> & Lj).
        apply Forall_app in F2 as [F21 F22]. inversion F22; subst.
        replace (upd (pre ++ bi :: b ++ bj :: c) j (mkB 0 0 [])) with (pre ++ bi :: b ++ mkB 0 0 [] :: c).
        2:{ change (pre ++ bi :: b ++ bj :: c) with (pre ++ (bi :: b) ++ bj :: c).
            rewrite app_assoc. rewrite upd_app by (rewrite !app_length; cbn; lia).
            now rewrite <- app_assoc. }
        rewrite upd_app by reflexivity.
        eexists. split; [reflexivity|]. split.
        { apply Forall_app; split; auto. apply Forall_cons; auto. apply Forall_app; split; auto. }
        rewrite !map_split. change (b_view (mkB 0 0 [])) with (@nil obyte).
        apply v_move_left; [now rewrite map_length|]. rewrite !app_length. cbn. rewrite !map_length. lia.
  - destruct (nth_error bs i) as [b|] eqn:N; [|discriminate].
    destruct (SPLIT _ _ N) as (IB & pre & post & -> & -> & F1 & F2).
    destruct (Nat.leb_spec (pos + length bytes) (b_size b)) as [C|]; [|discriminate].
    destruct (store_ok pos bytes b IB C) as (b' & E & I & V & _ & _). rewrite E in HS. cbn [obind] in HS. injection HS as <-.
    rewrite upd_app by reflexivity. eexists. split; [reflexivity|]. split; [apply Forall_app; auto|].
    rewrite !map_split, V. pose proof (view_length b IB) as LB.
    set (v := b_view b) in *.
    replace v with (firstn pos v ++ firstn (length bytes) (skipn pos v) ++ skipn (pos + length bytes) v) at 1.
    2:{ rewrite skipn_add, firstn_skipn. apply firstn_skipn. }
    replace pos with (length (firstn pos v)) at 1 by (rewrite firstn_length; lia).
    apply v_store; [now rewrite map_length|]. rewrite firstn_length, skipn_length. lia.
Qed.

(** Histories. *)
Inductive bruns : list bop -> list block -> Prop :=
| br_nil : bruns [] []
| br_step : forall os o bs bs', bruns os bs -> bstep o bs = Some (Val bs') -> bruns (os ++ [o]) bs'.

Inductive vruns : list bop -> list (list obyte) -> Prop :=
| vr_nil : vruns [] []
| vr_step : forall os o vs vs', vruns os vs -> vstep o vs vs' -> vruns (os ++ [o]) vs'.

Lemma bruns_ok : forall os bs, bruns os bs -> Forall b_inv bs /\ vruns os (map b_view bs).
Proof.
  induction 1 as [|os o bs bs' H [I V] S]; [split; constructor|].
  destruct (bstep_ok o bs _ I S) as (b2 & E & I2 & V2). injection E as <-. split; auto.
  econstructor; eauto.
Qed.

Lemma block_history : forall os bs, bruns os bs ->
  Forall (fun b => b_size b <= b_reserve b) bs /\ vruns os (map b_view bs) /\
  forall o r, bstep o bs = Some r -> r <> UB.
Proof.
  intros os bs H. destruct (bruns_ok os bs H) as [I V]. split; [|split; auto].
  - eapply Forall_impl; [|exact I]. intros b [X _]. exact X.
  - intros o r S. destruct (bstep_ok o bs r I S) as (b & -> & _). discriminate.
Qed.
