(** Proofs about the contents taken from any posted bytes. *)
From Coq Require Import String List NArith ZArith Bool Arith Lia.
From Verif Require Import Model.Base Model.HttpCodec Model.Environment Model.Multipart Spec.MultipartSpec
  Proofs.MultipartProofs.
Import ListNotations.

Section Any.
Variable vts : list N -> list N -> list N.
Variables buf boundary : list N.

(** What is known at [byte]. *)
Definition scanning (byte : nat) (s : mp) : Prop :=
  match mp_state s with
  | M_BODY =>
      exists p x, buf = p ++ cBody ++ x ++ skipn byte buf /\ length (p ++ cBody) = mp_bodyStart s /\
        mp_bodyStart s + length x = byte /\
        (forall i, i < length x -> prefixb boundary (skipn (mp_bodyStart s + i) buf) = false)
  | _ => True
  end /\
  Forall (fun f => posted_body boundary buf (snd (snd f))) (mp_files s) /\
  Forall (fun t => exists body, posted_body boundary buf body /\ snd t = vts body []) (mp_posts s).

Lemma skip_front : forall (a b : list N), skipn (length a) (a ++ b) = b.
Proof. intros a b. rewrite skipn_app, skipn_all, Nat.sub_diag. reflexivity. Qed.

Lemma slice_part : forall (a x r : list N) k, k <= length x -> slice (a ++ x ++ r) (length a) (length a + k) = firstn k x.
Proof.
  intros a x r k K. unfold slice. rewrite skip_front. rewrite firstn_app.
  replace (length a + k - length a) with k by lia. replace (k - length x) with 0 by lia. cbn. apply app_nil_r.
Qed.

Lemma slice_one : forall (a y r : list N) c, slice (a ++ y ++ c :: r) (length a + length y) (length a + length y + 1) = [c].
Proof.
  intros a y r c. rewrite <- app_length, app_assoc. unfold slice. rewrite skip_front.
  replace (length (a ++ y) + 1 - length (a ++ y)) with 1 by lia. reflexivity.
Qed.

Lemma snoc2 : forall (x : list N), 2 <= length x -> exists y d1 d2, x = y ++ [d1; d2].
Proof.
  intros x. destruct x as [|d2 x _] using rev_ind; [cbn; lia|].
  destruct x as [|d1 x _] using rev_ind; [cbn; lia|]. intros _. exists x, d1, d2. now rewrite <- app_assoc.
Qed.

Lemma list_eqb_one : forall a b, list_eqb [a] [b] = true <-> a = b.
Proof.
  intros a b. cbn. rewrite andb_true_r. apply N.eqb_eq.
Qed.

Lemma cut_ok : forall a x r,
  cut_body x (slice (a ++ x ++ r) (length a) (body_end (a ++ x ++ r) (length a) (length a + length x))).
Proof.
  intros a x r. unfold body_end.
  destruct (Nat.ltb_spec (length a + length x - 2) (length a)) as [L|L].
  { left. split; [lia|]. replace (length a) with (length a + 0) at 2 by lia. rewrite slice_part by lia. reflexivity. }
  destruct (Nat.leb_spec 2 (length x)) as [X|X].
  2:{ left. split; [exact X|]. assert (E : length a + length x - 2 = length a) by lia. rewrite E, Nat.sub_diag. cbn [Nat.leb andb].
      replace (length a) with (length a + 0) at 2 by lia. rewrite slice_part by lia. reflexivity. }
  apply snoc2 in X as (y & d1 & d2 & ->). right. exists d1, d2.
  rewrite app_length. cbn [length]. replace (length a + (length y + 2) - 2) with (length a + length y) by lia.
  destruct (Nat.leb_spec 2 (length a + length y - length a)) as [Y|Y].
  - destruct (snoc2 y) as (z & e1 & e2 & ->); [lia|]. rewrite app_length. cbn [length].
    assert (S1 : slice (a ++ ((z ++ [e1; e2]) ++ [d1; d2]) ++ r) (length a + (length z + 2) - 1) (length a + (length z + 2)) = [e2]).
    { replace (a ++ ((z ++ [e1; e2]) ++ [d1; d2]) ++ r) with (a ++ (z ++ [e1]) ++ e2 :: d1 :: d2 :: r)
        by (rewrite <- !app_assoc; reflexivity).
      replace (length a + (length z + 2)) with (length a + length (z ++ [e1]) + 1) by (rewrite app_length; cbn; lia).
      replace (length a + length (z ++ [e1]) + 1 - 1) with (length a + length (z ++ [e1])) by lia. apply slice_one. }
    assert (S2 : slice (a ++ ((z ++ [e1; e2]) ++ [d1; d2]) ++ r) (length a + (length z + 2) - 2) (length a + (length z + 2) - 1) = [e1]).
    { replace (a ++ ((z ++ [e1; e2]) ++ [d1; d2]) ++ r) with (a ++ z ++ e1 :: e2 :: d1 :: d2 :: r)
        by (rewrite <- !app_assoc; reflexivity).
      replace (length a + (length z + 2) - 2) with (length a + length z) by lia.
      replace (length a + (length z + 2) - 1) with (length a + length z + 1) by lia. apply slice_one. }
    rewrite S1, S2. cbn [andb].
    destruct (list_eqb [e2] [10%N] && list_eqb [e1] [13%N]) eqn:C.
    + apply andb_true_iff in C as [C1 C2]. apply list_eqb_one in C1, C2. subst e1 e2.
      left. replace (length a + (length z + 2) - 2) with (length a + length z) by lia.
      rewrite slice_part by (rewrite !app_length; lia). rewrite <- !app_assoc, firstn_app, Nat.sub_diag, firstn_all, app_nil_r.
      reflexivity.
    + right. rewrite slice_part by (rewrite !app_length; cbn; lia).
      replace (length z + 2) with (length (z ++ [e1; e2])) by (rewrite app_length; reflexivity).
      rewrite firstn_app, Nat.sub_diag, firstn_all, app_nil_r. split; [reflexivity|].
      intros w W. change crlf with ([13%N] ++ [10%N]) in W. change [e1; e2] with ([e1] ++ [e2]) in W.
      rewrite !app_assoc in W. apply app_inj_tail in W as [W ->]. apply app_inj_tail in W as [_ ->].
      discriminate C.
  - cbn [andb]. right. rewrite slice_part by (rewrite app_length; lia).
    rewrite firstn_app, Nat.sub_diag, firstn_all, app_nil_r. split; [reflexivity|].
    intros w ->. rewrite app_length in Y. cbn in Y. lia.
Qed.

Lemma scan_stored : forall byte s, scanning byte s -> mp_state s = M_BODY -> starts boundary buf byte = true ->
  posted_body boundary buf (slice buf (mp_bodyStart s) (body_end buf (mp_bodyStart s) byte)).
Proof.
  intros byte s (H & _) E S. rewrite E in H. destruct H as (p & x & B & P & X & Q).
  rewrite starts_prefix in S. apply prefixb_iff in S as (r & S). rewrite S in B.
  exists p, x, r. split; [exact B|]. split.
  - intros a b AB. destruct (Nat.lt_ge_cases (length a) (length x)) as [L|L].
    + specialize (Q _ L). rewrite <- P in Q. exfalso.
      assert (Z : skipn (length (p ++ cBody) + length a) buf = boundary ++ b ++ r).
      { rewrite B. replace (p ++ cBody ++ x ++ boundary ++ r) with ((p ++ cBody ++ a) ++ boundary ++ b ++ r).
        - replace (length (p ++ cBody) + length a) with (length (p ++ cBody ++ a)) by (rewrite !app_length; lia).
          apply skip_front.
        - rewrite <- !app_assoc. f_equal. f_equal. rewrite (app_assoc x), AB, <- !app_assoc. reflexivity. }
      rewrite Z, prefixb_self in Q. discriminate Q.
    + apply (f_equal (@length N)) in AB. rewrite !app_length in AB. destruct b; [reflexivity|cbn in AB; lia].
  - rewrite <- P, <- X, <- P. replace buf with ((p ++ cBody) ++ x ++ boundary ++ r) by (rewrite <- app_assoc; auto).
    apply cut_ok.
Qed.

Lemma reset_scanning : forall byte posts files,
  Forall (fun f => posted_body boundary buf (snd (snd f))) files ->
  Forall (fun t => exists body, posted_body boundary buf body /\ snd t = vts body []) posts ->
  scanning byte (mp_reset buf posts files).
Proof. intros byte posts files F T. repeat split; auto. Qed.

Lemma scan_step : forall byte s byte' s', byte < length buf -> scanning byte s ->
  mp_step vts buf boundary byte s = Val (byte', s') -> scanning byte' s'.
Proof.
  intros byte s byte' s' L K E. pose proof K as (H & F & T).
  destruct s as [st ns ne fs fe cs ce bs be ps fl]. cbn [mp_files mp_posts] in F, T.
  destruct st; cbn [mp_step] in E.
  - destruct ((ne =? length buf) && starts cName buf byte); [injection E as <- <-; repeat split; auto|].
    destruct ((fe =? length buf) && starts cFilename buf byte); [injection E as <- <-; repeat split; auto|].
    destruct ((ce =? length buf) && starts cContentType buf byte); [injection E as <- <-; repeat split; auto|].
    destruct ((be =? length buf) && starts cBody buf byte) eqn:B; injection E as <- <-; [|repeat split; auto].
    apply andb_true_iff in B as [_ B]. rewrite starts_prefix in B. apply prefixb_iff in B as (r & B).
    split; [|split; auto]. cbn [mp_state mp_bodyStart]. exists (firstn byte buf), []. cbn [app].
    assert (FL : length (firstn byte buf) = byte) by (rewrite firstn_length; lia).
    split; [|split; [|split]].
    + rewrite <- (firstn_skipn byte buf) at 1. f_equal. rewrite B. f_equal.
      rewrite <- (skip_front cBody r), <- B. rewrite skipn_add. reflexivity.
    + rewrite app_length, FL. reflexivity.
    + cbn [length]. lia.
    + intros i I. cbn in I. lia.
  - destruct (rd buf byte) as [c|]; [|discriminate E]. destruct (N.eqb c 34); injection E as <- <-; repeat split; auto.
  - destruct (rd buf byte) as [c|]; [|discriminate E]. destruct (N.eqb c 34); injection E as <- <-; repeat split; auto.
  - destruct (rd buf byte) as [c|]; [|discriminate E]. destruct (N.eqb c 13 || N.eqb c 10)%bool; injection E as <- <-; repeat split; auto.
  - destruct (starts boundary buf byte) eqn:S; injection E as <- <-.
    + pose proof (scan_stored _ _ K eq_refl S) as PB. cbn [mp_bodyStart] in PB.
      unfold mp_store. cbn [mp_nameEnd mp_posts mp_files mp_ctEnd mp_bodyStart mp_nameStart mp_ctStart mp_filenameEnd mp_filenameStart].
      destruct (ne =? length buf); [apply reset_scanning; auto|].
      destruct (negb (ce =? length buf)); apply reset_scanning; auto; apply Forall_app; split; auto;
        constructor; auto. exists (slice buf bs (body_end buf bs byte)). auto.
    + split; [|split; auto]. cbn [mp_state mp_bodyStart] in *. destruct H as (p & x & B & P & X & Q).
      destruct (skipn byte buf) as [|c r] eqn:SK.
      { apply (f_equal (@length N)) in SK. rewrite skipn_length in SK. cbn in SK. lia. }
      assert (SK' : skipn (Datatypes.S byte) buf = r).
      { change (Datatypes.S byte) with (1 + byte). rewrite Nat.add_comm, <- skipn_add, SK. reflexivity. }
      exists p, (x ++ [c]). rewrite SK'. split; [rewrite <- app_assoc; exact B|]. split; [exact P|].
      rewrite app_length. cbn [length]. split; [lia|]. intros i I.
      destruct (Nat.eq_dec i (length x)) as [->|NE].
      * rewrite X, <- starts_prefix. exact S.
      * apply Q. lia.
Qed.

Lemma scan_loop : forall fuel byte s s', scanning byte s -> mp_loop vts buf boundary fuel byte s = Done s' ->
  exists b, scanning b s'.
Proof.
  induction fuel as [|f IH]; intros byte s s' K E; cbn [mp_loop] in E.
  - destruct (Nat.ltb byte (length buf)); [discriminate|]. injection E as <-. eauto.
  - destruct (Nat.ltb_spec byte (length buf)) as [L|L]; [|injection E as <-; eauto].
    destruct (mp_step vts buf boundary byte s) as [[b t]|] eqn:M; [|discriminate].
    exact (IH _ _ _ (scan_step _ _ _ _ L K M) E).
Qed.
End Any.

Theorem multipart_any : forall vts e, exists posts files,
  parsePostsMultipart vts e = Done (set_files (e_files e ++ files) (set_posts (e_posts e ++ posts) e)) /\
  Forall (fun f => posted_body (e_boundary e) (e_postBuffer e) (snd (snd f))) files /\
  Forall (fun t => exists body, posted_body (e_boundary e) (e_postBuffer e) body /\ snd t = vts body []) posts.
Proof.
  intros vts e. unfold parsePostsMultipart.
  destruct (mp_loop_total vts (e_postBuffer e) (e_boundary e) (2 * length (e_postBuffer e)) 0
     (mp_reset (e_postBuffer e) [] [])) as (s & E); [lia|cbn [mp_state mp_reset]; lia|].
  rewrite E. exists (mp_posts s), (mp_files s). split; [reflexivity|].
  destruct (scan_loop vts (e_postBuffer e) (e_boundary e) _ 0 _ s
    (reset_scanning vts (e_postBuffer e) (e_boundary e) 0 [] [] (Forall_nil _) (Forall_nil _)) E) as (b & _ & F & T).
  auto.
Qed.
