(** What is left when the group is destroyed (C50). *)
From Coq Require Import List NArith Bool Arith Lia.
From Verif Require Import Model.Sockets Spec.SocketSpec Proofs.SocketProofs.
Import ListNotations.

(** What destroying the Sockets in turn needs. *)
Record einv (l : list (N * nat)) (s : grp) : Prop := mkEinv {
  e_open : NoDup (map fst (g_open s));
  e_kind : forall fd o, In (fd, o) (g_open s) -> exists d, o = KConn d /\ In (fd, d) l;
  e_valid : forall d x, nth_error (g_data s) d = Some x -> d_valid x = true -> In (d_fd x, KConn d) (g_open s);
  e_conn : forall fd d, In (fd, KConn d) (g_open s) -> exists x, nth_error (g_data s) d = Some x /\ d_valid x = true /\ d_fd x = fd;
  e_data : forall fd d, In (fd, d) l -> exists x, nth_error (g_data s) d = Some x
}.

Lemma end_all : forall l s, einv l s ->
  exists s', end_sockets l s = Some s' /\ g_open s' = [] /\ length (g_data s') = length (g_data s)
    /\ forall d x, nth_error (g_data s') d = Some x -> d_valid x = false.
Proof.
  induction l as [|[fd d] l IH]; intros s I; cbn [end_sockets].
  - exists s. split; [reflexivity|]. assert (O : g_open s = []).
    { destruct (g_open s) as [|[fd o] k] eqn:E; [reflexivity|]. destruct (e_kind _ _ I fd o) as [d [_ []]]. rewrite E. now left. }
    split; [exact O|]. split; [reflexivity|]. intros d x E. destruct (d_valid x) eqn:V; [|reflexivity].
    pose proof (e_valid _ _ I d x E V) as Q. rewrite O in Q. destruct Q.
  - destruct (e_data _ _ I fd d (or_introl eq_refl)) as [x E]. unfold destroy. rewrite E.
    destruct (d_valid x) eqn:V.
    + pose proof (e_valid _ _ I d x E V) as O.
      assert (Ow : owned (d_fd x) d s = true) by (unfold owned; rewrite (findN_nodup _ _ _ (e_open _ _ I) O); apply Nat.eqb_refl).
      rewrite Ow. destruct (IH (set_data (upd d invalidate (g_data s)) (shut (d_fd x) s))) as (s' & A & B & C & D).
      * constructor; cbn.
        -- apply filter_nodup, (e_open _ _ I).
        -- intros fd' o H. apply dropN_In in H as [H N]. cbn in N. destruct (e_kind _ _ I fd' o H) as [d' [-> [Q|Q]]]; [|eauto].
           injection Q as <- <-. destruct (e_conn _ _ I _ _ H) as [y [F [_ G]]]. congruence.
        -- intros e y F W. rewrite upd_nth in F. destruct (Nat.eqb_spec e d) as [->|N].
           ++ rewrite E in F. cbn in F. injection F as <-. discriminate.
           ++ apply dropN_In. cbn. pose proof (e_valid _ _ I e y F W) as O'. split; [exact O'|]. intro X. rewrite X in O'.
              assert (Y := nodup_fst _ _ _ _ (e_open _ _ I) O O'). congruence.
        -- intros fd' e H. apply dropN_In in H as [H N]. cbn in N. destruct (e_conn _ _ I fd' e H) as [y [F [W Z]]].
           exists y. rewrite upd_nth. destruct (Nat.eqb_spec e d) as [->|]; [|auto]. congruence.
        -- intros fd' e H. destruct (e_data _ _ I fd' e (or_intror H)) as [y F]. rewrite upd_nth, F.
           destruct (Nat.eqb e d); cbn; eauto.
      * exists s'. cbn in C. rewrite upd_length in C. auto.
    + apply IH. constructor; try apply I.
      * intros fd' o H. destruct (e_kind _ _ I fd' o H) as [d' [-> [Q|Q]]]; [|eauto].
        injection Q as <- <-. destruct (e_conn _ _ I _ _ H) as [y [F [W _]]]. congruence.
      * intros fd' e H. exact (e_data _ _ I fd' e (or_intror H)).
Qed.

Lemma group_ended : forall s, greachable s ->
  exists s', gend s = Some s' /\ g_open s' = [] /\ g_map s' = []
    /\ forall d fd v, is_socket s d fd v -> exists fd', is_socket s' d fd' false.
Proof.
  intros s R. assert (I : ginv s) by (now apply greachable_inv).
  unfold gend. match goal with |- context[end_sockets _ ?x] => set (s1 := x) end.
  destruct (end_all (g_map s1) s1) as (s' & A & B & C & D).
  - constructor; cbn.
    + apply filter_nodup, (i_open _ I).
    + intros fd o H. apply filter_In in H as [H Q]. cbn in Q. destruct o as [| |d].
      * apply (i_wake _ I) in H. subst fd. now rewrite N.eqb_refl in Q.
      * apply (i_lis _ I), memN_In in H. now rewrite H in Q.
      * exists d. split; [reflexivity|]. destruct (i_conn _ I _ _ H) as [x [E [V F]]]. subst fd. apply (i_valid _ I d x E V).
    + intros d x E V. apply filter_In. split; [|reflexivity]. apply (i_valid _ I d x E V).
    + intros fd d H. apply filter_In in H as [H _]. exact (i_conn _ I fd d H).
    + intros fd d H. destruct (i_mapd _ I fd d H) as [x [E _]]. eauto.
  - change (g_map s1) with (g_map s) in *. rewrite A. exists (set_map [] s'). split; [reflexivity|]. split; [exact B|]. split; [reflexivity|].
    intros d fd v (x & E & _).
    assert (L : (d < length (g_data s'))%nat) by (rewrite C; cbn; apply nth_error_Some; congruence).
    destruct (nth_error (g_data s') d) as [y|] eqn:F; [|apply nth_error_None in F; lia].
    exists (d_fd y), y. split; [exact F|]. split; [reflexivity|]. exact (D d y F).
Qed.
