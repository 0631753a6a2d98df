From Coq Require Import List NArith ZArith Bool Lia Sorted Permutation.
From Verif Require Import Model.Base Model.RequestMap.
Import ListNotations.
Local Open Scope N_scope.

Lemma less_spec : forall x y, less x y = true <->
  (r_socket x < r_socket y \/ (r_socket x = r_socket y /\ r_id x < r_id y)).
Proof.
  intros [sx ix] [sy iy]. unfold less, socket_eq, socket_lt. cbn.
  destruct (N.eqb_spec sx sy); rewrite N.ltb_lt; lia.
Qed.

Lemma less_false : forall x y, less x y = false <->
  ~ (r_socket x < r_socket y \/ (r_socket x = r_socket y /\ r_id x < r_id y)).
Proof. intros x y. rewrite <- less_spec. destruct (less x y); split; congruence. Qed.

Lemma rid_eq : forall x y : rid, r_socket x = r_socket y -> r_id x = r_id y -> x = y.
Proof. intros [] []; cbn; congruence. Qed.

Lemma order_laws :
  (forall x, less x x = false) /\
  (forall x y z, less x y = true -> less y z = true -> less x z = true) /\
  (forall x y, less x y = true \/ x = y \/ less y x = true).
Proof.
  split; [|split].
  - intro x. apply less_false. lia.
  - intros x y z. rewrite !less_spec. lia.
  - intros x y. rewrite !less_spec.
    destruct (N.lt_trichotomy (r_socket x) (r_socket y)) as [H|[H|H]]; auto.
    destruct (N.lt_trichotomy (r_id x) (r_id y)) as [I|[I|I]]; auto.
    right. left. now apply rid_eq.
Qed.

(** Two identifiers are not separated by the order exactly when they are the
    same. *)
Lemma equiv_eq : forall x y, negb (less x y) && negb (less y x) = true <-> x = y.
Proof.
  intros x y. split.
  - intro H. apply andb_true_iff in H as [H1 H2]. apply negb_true_iff in H1, H2.
    rewrite less_false in *. apply rid_eq; lia.
  - intros <-. replace (less x x) with false; auto. symmetry. apply less_false. lia.
Qed.

(** The connection comparisons agree with the order. *)
Lemma socket_consistent : forall x y s,
  (less_socket x s = true <-> r_socket x < s) /\ (socket_less s x = true <-> s < r_socket x) /\
  (less x y = true -> less_socket y s = true -> less_socket x s = true) /\
  (less x y = true -> socket_less s x = true -> socket_less s y = true).
Proof.
  intros x y s. unfold less_socket, socket_less, socket_lt. rewrite less_spec, !N.ltb_lt. lia.
Qed.

Section M.
Context {A : Type}.
Definition lt (x y : rid * A) : Prop := less (fst x) (fst y) = true.
Definition sorted (m : @rmap A) : Prop := StronglySorted lt m.

Lemma emplace_in : forall k (v : A) m p, In p (map_emplace k v m) -> p = (k, v) \/ In p m.
Proof.
  induction m as [|[k' v'] m IH]; cbn [map_emplace]; intros p H.
  - destruct H as [<-|[]]; auto.
  - destruct (less k k'); [destruct H as [<-|H]; auto|].
    destruct (less k' k); [|auto].
    destruct H as [<-|H]; [right; now left|].
    apply IH in H as [->|H]; auto. right. now right.
Qed.

Lemma erase_in : forall k (m : @rmap A) p, In p (map_erase k m) -> In p m.
Proof.
  induction m as [|[k' v'] m IH]; cbn; intros p H; auto.
  destruct (_ && _); [now right|]. destruct H as [<-|H]; auto.
Qed.

Lemma emplace_sorted : forall k (v : A) m, sorted m -> sorted (map_emplace k v m).
Proof.
  induction m as [|[k' v'] m IH]; intro S; cbn.
  - repeat constructor.
  - inversion S as [|? ? S' F]; subst. destruct (less k k') eqn:E1.
    + constructor; auto. constructor; auto. rewrite Forall_forall in *.
      intros p I. specialize (F p I). unfold lt in *. cbn in *. rewrite less_spec in *. lia.
    + destruct (less k' k) eqn:E2; auto. constructor; [now apply IH|].
      rewrite Forall_forall in *. intros p I. apply emplace_in in I as [->|I]; auto.
Qed.

Lemma erase_sorted : forall k m, sorted m -> sorted (map_erase k m).
Proof.
  induction m as [|[k' v'] m IH]; intro S; cbn; auto.
  inversion S as [|? ? S' F]; subst. destruct (_ && _); auto. constructor; [now apply IH|].
  rewrite Forall_forall in *. intros p I. apply F. eapply erase_in; eauto.
Qed.

Lemma run_sorted_from : forall ops m, sorted m -> sorted (fold_left map_step ops m).
Proof.
  induction ops as [|[k v|k] ops IH]; intros m S; cbn; auto; apply IH.
  - now apply emplace_sorted.
  - now apply erase_sorted.
Qed.

Lemma run_sorted : forall ops, sorted (map_run ops).
Proof. intro. apply run_sorted_from. constructor. Qed.

Lemma find_none_above : forall k (m : @rmap A), Forall (fun p => less k (fst p) = true) m -> map_find k m = None.
Proof.
  induction 1 as [|[k' v'] m H F IH]; cbn; auto. cbn in H. rewrite H. auto.
Qed.

Lemma less_irr : forall k, less k k = false.
Proof. intro. apply (proj1 order_laws). Qed.

Lemma find_emplace : forall k (v : A) k0 m, sorted m ->
  map_find k0 (map_emplace k v m) =
  match map_find k0 m with Some w => Some w
  | None => if negb (less k0 k) && negb (less k k0) then Some v else None end.
Proof.
  induction m as [|[k' v'] m IH]; intro S; cbn [map_emplace map_find]; auto.
  inversion S as [|? ? S' F]; subst.
  destruct (less k k') eqn:E1.
  - cbn [map_find].
    destruct (negb (less k0 k) && negb (less k k0)) eqn:E0.
    + apply equiv_eq in E0. subst k0. rewrite E1. cbn.
      rewrite find_none_above; auto. revert F. apply Forall_impl. intros p L.
      unfold lt in L. cbn in L. rewrite less_spec in *. lia.
    + destruct (negb (less k0 k') && _); auto. now destruct (map_find k0 m).
  - destruct (less k' k) eqn:E2; cbn [map_find].
    + rewrite IH by auto. now destruct (negb (less k0 k') && _).
    + assert (k = k') by (apply equiv_eq; now rewrite E1, E2). subst k'.
      destruct (negb (less k0 k) && _); auto. now destruct (map_find k0 m).
Qed.

Lemma find_erase : forall k k0 m, sorted m ->
  map_find k0 (map_erase k m) = if negb (less k0 k) && negb (less k k0) then None else map_find k0 m.
Proof.
  induction m as [|[k' v'] m IH]; intro S; cbn [map_erase map_find].
  { now destruct (_ && _). }
  inversion S as [|? ? S' F]; subst.
  destruct (negb (less k k') && negb (less k' k)) eqn:E.
  - apply equiv_eq in E. subst k'. destruct (negb (less k0 k) && _) eqn:E0; auto.
    apply equiv_eq in E0. subst k0. now apply find_none_above.
  - cbn [map_find]. rewrite IH by auto.
    destruct (negb (less k0 k') && negb (less k' k0)) eqn:E1; auto.
    apply equiv_eq in E1. subst k'. destruct (negb (less k0 k) && negb (less k k0)) eqn:E2; auto.
    apply equiv_eq in E2. subst k0. rewrite less_irr in E. discriminate.
Qed.

Lemma lower_split : forall s (m : @rmap A), exists pre, m = pre ++ map_lower s m /\
  Forall (fun p => r_socket (fst p) < s) pre /\
  (sorted m -> Forall (fun p => s <= r_socket (fst p)) (map_lower s m)).
Proof.
  induction m as [|[k' v'] m IH]; cbn [map_lower].
  - exists []. repeat split; constructor.
  - unfold less_socket, socket_lt. destruct (N.ltb_spec (r_socket k') s).
    + destruct IH as (pre & E & F & G). exists ((k', v') :: pre). split; [cbn; now f_equal|].
      split; [constructor; auto|]. intro S. inversion S; auto.
    + exists []. split; auto. split; [constructor|]. intro S. inversion S as [|? ? S' F]; subst.
      constructor; auto. revert F. apply Forall_impl. intros p L. unfold lt in L.
      cbn in L. rewrite less_spec in L. lia.
Qed.

Lemma upper_split : forall s (m : @rmap A), exists pre, m = pre ++ map_upper s m /\
  Forall (fun p => r_socket (fst p) <= s) pre /\
  (sorted m -> Forall (fun p => s < r_socket (fst p)) (map_upper s m)).
Proof.
  induction m as [|[k' v'] m IH]; cbn [map_upper].
  - exists []. repeat split; constructor.
  - unfold socket_less, socket_lt. destruct (N.ltb_spec s (r_socket k')).
    + exists []. split; auto. split; [constructor|]. intro S. inversion S as [|? ? S' F]; subst.
      constructor; auto. revert F. apply Forall_impl. intros p L. unfold lt in L.
      cbn in L. rewrite less_spec in L. lia.
    + destruct IH as (pre & E & F & G). exists ((k', v') :: pre). split; [cbn; now f_equal|].
      split; [constructor; auto|]. intro S. inversion S; auto.
Qed.

Lemma filter_all : forall (B : Type) (f : B -> bool) l, Forall (fun x => f x = true) l -> filter f l = l.
Proof. induction 1; cbn; auto. rewrite H. now f_equal. Qed.

Lemma filter_none : forall (B : Type) (f : B -> bool) l, Forall (fun x => f x = false) l -> filter f l = [].
Proof. induction 1; cbn; auto. now rewrite H. Qed.

(** The range for a connection is exactly its requests. *)
Lemma range_filter : forall s m, sorted m ->
  map_equal_range s m = filter (fun p => r_socket (fst p) =? s) m /\
  exists below above, m = below ++ map_equal_range s m ++ above.
Proof.
  intros s m S.
  destruct (lower_split s m) as (p1 & E1 & F1 & G1). specialize (G1 S).
  destruct (upper_split s m) as (p2 & E2 & F2 & G2). specialize (G2 S).
  assert (P : exists mid, map_lower s m = mid ++ map_upper s m).
  { clear S G1 G2 E1 F1 E2 F2 p1 p2. induction m as [|[k v] m IH]; cbn; [now exists []|].
    unfold less_socket, socket_less, socket_lt.
    destruct (N.ltb_spec (r_socket k) s).
    - replace (s <? r_socket k) with false by (symmetry; apply N.ltb_ge; lia). auto.
    - destruct (N.ltb_spec s (r_socket k)); [now exists []|].
      destruct (upper_split s m) as (p & E & _). exists ((k, v) :: p). cbn. now f_equal. }
  destruct P as (mid & P).
  assert (M : Forall (fun p => r_socket (fst p) = s) mid).
  { assert (p2 = p1 ++ mid).
    { apply (app_inv_tail (map_upper s m)). rewrite <- app_assoc, <- P, <- E1. now symmetry. }
    subst p2. apply Forall_app in F2 as [_ F2]. rewrite P in G1. apply Forall_app in G1 as [G1 _].
    rewrite Forall_forall in *. intros x I. specialize (F2 x I). specialize (G1 x I). lia. }
  assert (R : map_equal_range s m = mid).
  { unfold map_equal_range. rewrite P, app_length.
    replace (length mid + length (map_upper s m) - length (map_upper s m))%nat with (length mid + 0)%nat by lia.
    rewrite firstn_app_2. cbn. now rewrite app_nil_r. }
  rewrite R. split.
  - rewrite E1, P, !filter_app.
    rewrite (filter_none _ _ p1), (filter_all _ _ mid), (filter_none _ _ (map_upper s m)).
    + cbn. now rewrite app_nil_r.
    + revert G2. apply Forall_impl. intros a H. apply N.eqb_neq. lia.
    + revert M. apply Forall_impl. intros a H. now apply N.eqb_eq.
    + revert F1. apply Forall_impl. intros a H. apply N.eqb_neq. lia.
  - exists p1, (map_upper s m). now rewrite <- P.
Qed.
End M.

Lemma range_of_history : forall (A : Type) (ops : list (@map_op A)) s,
  (forall k v, In (k, v) (map_equal_range s (map_run ops)) <-> In (k, v) (map_run ops) /\ r_socket k = s) /\
  exists below above, map_run ops = below ++ map_equal_range s (map_run ops) ++ above.
Proof.
  intros A ops s. destruct (range_filter s (map_run ops) (run_sorted ops)) as (E & R).
  split; auto. intros k v. rewrite E, filter_In, N.eqb_eq. reflexivity.
Qed.

Lemma find_laws : forall (A : Type) (ops : list (@map_op A)) k v k0,
  map_find k0 (map_run (ops ++ [Emplace k v])) =
    match map_find k0 (map_run ops) with Some w => Some w
    | None => if (r_socket k0 =? r_socket k) && (r_id k0 =? r_id k) then Some v else None end /\
  map_find k0 (map_run (ops ++ [Erase k])) =
    if (r_socket k0 =? r_socket k) && (r_id k0 =? r_id k) then None else map_find k0 (map_run ops).
Proof.
  intros A ops k v k0.
  assert (Q : (r_socket k0 =? r_socket k) && (r_id k0 =? r_id k) = negb (less k0 k) && negb (less k k0)).
  { apply eq_true_iff_eq. rewrite equiv_eq, andb_true_iff, !N.eqb_eq. split.
    - intros []. now apply rid_eq.
    - now intros ->. }
  rewrite Q. unfold map_run. rewrite !fold_left_app. cbn [fold_left map_step].
  split; [apply find_emplace | apply find_erase]; apply run_sorted.
Qed.

Lemma find_in : forall (A : Type) (ops : list (@map_op A)) k v,
  map_find k (map_run ops) = Some v <-> In (k, v) (map_run ops).
Proof.
  intros A ops k v. pose proof (run_sorted ops) as S. set (m := map_run ops) in *. clearbody m.
  induction m as [|[k' v'] m IH]; cbn; [split; [discriminate|tauto]|].
  inversion S as [|? ? S' F]; subst. specialize (IH S').
  destruct (negb (less k k') && negb (less k' k)) eqn:E.
  - apply equiv_eq in E. subst k'. split; [intros [= ->]; auto|].
    intros [[= ->]|I]; auto. exfalso. rewrite Forall_forall in F. specialize (F _ I).
    unfold lt in F. cbn in F. rewrite less_irr in F. discriminate.
  - rewrite IH. split; auto. intros [[= <- <-]|]; auto. now rewrite less_irr in E.
Qed.
