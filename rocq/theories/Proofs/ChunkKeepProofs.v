(** The body of a chunked buffer only grows, whatever is written. *)
From Coq Require Import List NArith Bool Arith Lia.
From Verif Require Import Model.Base Model.WebMaps Model.Streams Model.Chunks.
Import ListNotations.

Definition grows (a b : list (list N)) : Prop := exists t, concat b = concat a ++ t.
Lemma grows_refl : forall a, grows a a.
Proof. intros a. exists []. now rewrite app_nil_r. Qed.
Lemma grows_trans : forall a b c, grows a b -> grows b c -> grows a c.
Proof. intros a b c (t & B) (u & C). exists (t ++ u). now rewrite C, B, app_assoc. Qed.

Lemma convert_grows : forall strict cap fuel from body last ok rest body',
  chunk_convert strict cap fuel from body last = Done (ok, rest, body') -> grows (body ++ [last]) body'.
Proof.
  intros strict cap. induction fuel as [|f IH]; intros from body last ok rest body' H; cbn [chunk_convert] in H; [discriminate|].
  destruct (ucs4_out _ _ _ _ _) as [bytes|bytes r| |]; try discriminate.
  - injection H as _ _ <-. exists bytes. rewrite !concat_app. cbn. now rewrite !app_nil_r, app_assoc.
  - apply IH in H. eapply grows_trans; [|exact H]. exists bytes.
    rewrite !concat_app. cbn. now rewrite !app_nil_r, app_assoc.
  - injection H as _ _ <-. apply grows_refl.
Qed.

Lemma empty_grows : forall strict fuel w b w', emptyBuffer_wchunk strict fuel w = Val (b, w') -> grows (w_dev w) (w_dev w').
Proof.
  intros strict fuel w b w' H. unfold emptyBuffer_wchunk in H. destruct (w_pend w) as [|c p].
  { injection H as _ <-. apply grows_refl. }
  assert (S : forall body last, concat (body ++ [last]) = concat (w_dev w) ->
    match chunk_convert strict (w_cap w) fuel (c :: p) body last with
    | Done (true, _, body') => Val (true, mkW [] (w_cap w) (w_enc w) body')
    | Done (false, rest, body') =>
        Val (false, mkW (firstn (length (c :: p) - length rest) (c :: p)) (w_cap w) (w_enc w) body')
    | _ => UB end = Val (b, w') -> grows (w_dev w) (w_dev w')).
  { intros body last E X. destruct (chunk_convert _ _ _ _ _ _) as [[[[] rest] body']| |] eqn:C; try discriminate;
      injection X as _ <-; cbn [w_dev]; apply convert_grows in C; destruct C as (t & C); exists t; now rewrite C, E. }
  destruct (rev (w_dev w)) as [|l r] eqn:R.
  - eapply S; [|exact H]. apply (f_equal (@rev _)) in R. rewrite rev_involutive in R. now rewrite R.
  - destruct (Nat.eqb _ _).
    + eapply S; [|exact H]. rewrite concat_app. cbn. now rewrite app_nil_r.
    + eapply S; [|exact H]. apply (f_equal (@rev _)) in R. rewrite rev_involutive in R. now rewrite R.
Qed.

Lemma pass_dev : forall (Dev : Type) s (w : wsb Dev), w_dev (snd (put_pass s w)) = w_dev w.
Proof.
  intros Dev s w. unfold put_pass. destruct (w_enc w); [reflexivity|..]; destruct (put_mapped _ _ _ _); reflexivity.
Qed.

Lemma xsputn_grows : forall strict ef fuel s w w', xsputn (emptyBuffer_wchunk strict ef) fuel s w = Done w' -> grows (w_dev w) (w_dev w').
Proof.
  intros strict ef. induction fuel as [|f IH]; intros s w w' H; cbn [xsputn] in H; [discriminate|].
  pose proof (pass_dev _ s w) as P. destruct (put_pass s w) as [s' w1]. cbn [snd] in P. rewrite <- P.
  destruct s'; [injection H as <-; apply grows_refl|].
  destruct (emptyBuffer_wchunk strict ef w1) as [[b w2]|] eqn:E; [|discriminate].
  eapply grows_trans; [eapply empty_grows; exact E|]. eapply IH; exact H.
Qed.

Lemma sputc_grows : forall strict ef eof fuel c w b w', sputc (emptyBuffer_wchunk strict ef) eof fuel c w = Done (b, w') ->
  grows (w_dev w) (w_dev w').
Proof.
  intros strict ef eof. induction fuel as [|f IH]; intros c w b w' H; cbn [sputc] in H;
    (destruct (Nat.ltb _ _); [injection H as _ <-; apply grows_refl|]); [discriminate|].
  destruct (emptyBuffer_wchunk strict ef w) as [[[] w2]|] eqn:E; try discriminate.
  - apply empty_grows in E. destruct (eof c); [injection H as _ <-; exact E|].
    eapply grows_trans; [exact E|]. eapply IH; exact H.
  - injection H as _ <-. eapply empty_grows; exact E.
Qed.

Lemma ops_grow : forall strict ef eof fuel os w w', chunk_ops (emptyBuffer_wchunk strict ef) eof fuel os w = Done w' ->
  grows (w_dev w) (w_dev w').
Proof.
  intros strict ef eof fuel. induction os as [|o os IH]; intros w w' H; cbn [chunk_ops] in H.
  { injection H as <-. apply grows_refl. }
  destruct (chunk_op _ _ _ _ _) as [w1| |] eqn:E; try discriminate.
  eapply grows_trans; [|eapply IH; exact H]. clear H IH.
  destruct o; cbn [chunk_op] in E.
  - eapply xsputn_grows; exact E.
  - destruct (sputc _ _ _ _ _) as [[b w2]| |] eqn:S; try discriminate. injection E as <-. eapply sputc_grows; exact S.
  - injection E as <-. apply grows_refl.
  - destruct (emptyBuffer_wchunk strict ef w) as [[b w2]|] eqn:S; [|discriminate]. injection E as <-. eapply empty_grows; exact S.
Qed.

Lemma ops_app : forall (Dev : Type) (eb : wsb Dev -> outcome (bool * wsb Dev)) eof fuel a b w,
  chunk_ops eb eof fuel (a ++ b) w =
  match chunk_ops eb eof fuel a w with Done w' => chunk_ops eb eof fuel b w' | Spin => Spin | Undef => Undef end.
Proof.
  intros Dev eb eof fuel. induction a as [|o a IH]; intros b w; [reflexivity|]. cbn [app chunk_ops].
  destruct (chunk_op _ _ _ _ _); auto.
Qed.

Lemma wide_grows : forall strict fuel os more w w', wide_chunks strict fuel os = Done w ->
  wide_chunks strict fuel (os ++ more) = Done w' -> exists t, concat (w_dev w') = concat (w_dev w) ++ t.
Proof.
  intros strict fuel os more w w' H1 H2. unfold wide_chunks in *. rewrite ops_app, H1 in H2. eapply ops_grow; exact H2.
Qed.
