From Coq Require Import String List NArith ZArith Lia ZifyBool ZifyNat ZifyN Bool.
From Verif Require Import Model.Base Model.WebMaps Model.HttpCodec Spec.EscapeSpec
  Proofs.Arith Proofs.ProtocolProofs.
Import ListNotations.
Local Open Scope N_scope.

Lemma byte_sweep : forall (f : N -> bool),
  forallb f (map N.of_nat (seq 0 256)) = true -> forall b, b < 256 -> f b = true.
Proof.
  intros f H b Hb. rewrite forallb_forall in H. apply H.
  apply in_map_iff. exists (N.to_nat b). split; [lia|]. apply in_seq. lia.
Qed.

Lemma wr_at : forall A (a : list A) x b v, wr (a ++ x :: b) (length a) v = Some (a ++ v :: b).
Proof. induction a; intros; cbn; auto. now rewrite IHa. Qed.

Lemma nth_at : forall A (a : list A) x b, nth_error (a ++ x :: b) (length a) = Some x.
Proof. induction a; intros; cbn; auto. Qed.

Definition first_nibble (c : N) : option N :=
  let low := N.lor c 0x20 in
  if (0x61 <=? low) && (low <=? 0x66) then Some (trunc 8 (N.shiftl (low - 0x57) 4))
  else if (0x30 <=? c) && (c <=? 0x39) then Some (trunc 8 (N.shiftl (N.land c 0x0f) 4))
  else None.

Definition second_nibble (c : N) : option N :=
  let low := N.lor c 0x20 in
  if (0x61 <=? low) && (low <=? 0x66) then Some (low - 0x57)
  else if (0x30 <=? c) && (c <=? 0x39) then Some (N.land c 0x0f)
  else None.

Definition onat (o : option N) : N := match o with Some v => v | None => 0 end.

Lemma first_ok : forall c, c < 256 -> onat (first_nibble c) = 16 * hexval c.
Proof.
  intros c Hc. apply N.eqb_eq.
  apply (byte_sweep (fun c => onat (first_nibble c) =? 16 * hexval c)); auto.
Qed.

Lemma second_ok : forall c, c < 256 -> onat (second_nibble c) = hexval c.
Proof.
  intros c Hc. apply N.eqb_eq.
  apply (byte_sweep (fun c => onat (second_nibble c) =? hexval c)); auto.
Qed.

Lemma hexval_lt : forall c, hexval c < 16.
Proof.
  intros. unfold hexval.
  repeat match goal with |- context [if ?b then _ else _] => destruct b eqn:? end; lia.
Qed.

Lemma percent_first_step : forall c src out rest, c < 256 ->
  percent P_FIRST (c :: src) (out ++ 0 :: rest) (length out)
  = percent P_SECOND src (out ++ 16 * hexval c :: rest) (length out).
Proof.
  intros c src out rest Hc. cbn [percent].
  rewrite <- first_ok by assumption. unfold first_nibble.
  destruct ((97 <=? N.lor c 32) && (N.lor c 32 <=? 102)).
  - rewrite wr_at. reflexivity.
  - destruct ((48 <=? c) && (c <=? 57)); [rewrite wr_at|]; reflexivity.
Qed.

Lemma percent_second_step : forall c src out v rest, c < 256 -> v < 16 ->
  percent P_SECOND (c :: src) (out ++ 16 * v :: rest) (length out)
  = percent P_NORMAL src (out ++ (16 * v + hexval c) :: rest) (S (length out)).
Proof.
  intros c src out v rest Hc Hv. cbn [percent].
  assert (E : N.lor (16 * v) (hexval c) = 16 * v + hexval c).
  { replace (16 * v) with (v * 2 ^ 4) by (change (2^4) with 16; lia).
    apply lor_add. change (2^4) with 16. apply hexval_lt. }
  pose proof (second_ok c Hc) as S2. unfold second_nibble in S2.
  destruct ((97 <=? N.lor c 32) && (N.lor c 32 <=? 102)); cbn [onat] in S2.
  - rewrite nth_at, wr_at, S2, E. reflexivity.
  - destruct ((48 <=? c) && (c <=? 57)); cbn [onat] in S2.
    + rewrite nth_at, wr_at, S2, E. reflexivity.
    + rewrite <- S2, N.add_0_r. reflexivity.
Qed.

Lemma app_snoc : forall A (a : list A) x b, a ++ x :: b = (a ++ [x]) ++ b.
Proof. intros. rewrite <- app_assoc. reflexivity. Qed.

Lemma percent_normal : forall n src out rest,
  (length src <= n)%nat -> bytes_ok src -> (length src <= length rest)%nat ->
  exists rest',
    percent P_NORMAL src (out ++ rest) (length out)
      = Val (out ++ percent_decode src ++ rest', (length out + length (percent_decode src))%nat)
    /\ (length (percent_decode src) + length rest' = length rest)%nat
    /\ (length (percent_decode src) <= length src)%nat.
Proof.
  induction n; intros src out rest HL HB HR.
  - destruct src; [|cbn in HL; lia]. exists rest. cbn. rewrite Nat.add_0_r. auto.
  - destruct src as [|c src]; [exists rest; cbn; rewrite Nat.add_0_r; auto|].
    destruct rest as [|x rest]; [cbn in HR; lia|].
    cbn [length] in *. inversion HB as [|? ? Hc HB']; subst. unfold is_byte in Hc.
    cbn [percent percent_decode].
    destruct (c =? 37) eqn:E37.
    + rewrite wr_at.
      destruct src as [|a src].
      { cbn [percent]. exists (0 :: rest). cbn. rewrite Nat.add_0_r. repeat split; auto; lia. }
      inversion HB' as [|? ? Ha HB'']; subst.
      pose proof (percent_first_step a src out rest Ha) as E.
      rewrite E. clear E.
      destruct src as [|b src].
      { cbn [percent]. exists (16 * hexval a :: rest). cbn. rewrite Nat.add_0_r.
        repeat split; auto; lia. }
      inversion HB'' as [|? ? Hb HB3]; subst.
      rewrite percent_second_step by (auto using hexval_lt).
      rewrite app_snoc.
      replace (S (length out)) with (length (out ++ [16 * hexval a + hexval b]))
        by (rewrite app_length; cbn; lia).
      cbn [length] in *.
      destruct (IHn src (out ++ [16 * hexval a + hexval b]) rest) as (rest' & E & L1 & L2);
        [lia|auto|lia|].
      exists rest'. rewrite E. rewrite <- !app_assoc. cbn [app length].
      rewrite app_length. cbn [length]. repeat split; try lia. f_equal. f_equal. lia.
    + rewrite wr_at.
      set (v := if c =? 43 then 32 else c).
      replace (if c =? 43 then 32 :: percent_decode src else c :: percent_decode src)
        with (v :: percent_decode src) by (unfold v; destruct (c =? 43); reflexivity).
      rewrite app_snoc.
      replace (S (length out)) with (length (out ++ [v])) by (rewrite app_length; cbn; lia).
      destruct (IHn src (out ++ [v]) rest) as (rest' & E & L1 & L2); [lia|auto|lia|].
      exists rest'. change 0x2b with 43 in *. change 0x20 with 32 in *. fold v.
      rewrite E. rewrite <- !app_assoc. cbn [app length].
      rewrite app_length. cbn [length]. repeat split; try lia. f_equal. f_equal. lia.
Qed.

Lemma percent_total : forall src dst,
  bytes_ok src -> (length src <= length dst)%nat ->
  exists rest,
    percentEscapedToRealBytes src dst
      = Val (percent_decode src ++ rest, length (percent_decode src))
    /\ length (percent_decode src ++ rest) = length dst
    /\ (length (percent_decode src) <= length src)%nat.
Proof.
  intros src dst HB HL.
  destruct (percent_normal (length src) src [] dst) as (rest & E & L1 & L2); auto.
  exists rest. unfold percentEscapedToRealBytes. cbn [app length] in E. rewrite E.
  rewrite app_length. auto.
Qed.

(** Round trip of URL escaping. *)
Definition decode_check (c : N) : bool :=
  match url_escape1 c with
  | [x] => (x =? c) && negb (c =? 37) && negb (c =? 43)
  | [x; a; b] => (x =? 37) && (16 * hexval a + hexval b =? c)
  | _ => false
  end.

Lemma decode_escape1 : forall c r, c < 256 ->
  percent_decode (url_escape1 c ++ r) = c :: percent_decode r.
Proof.
  intros c r Hc.
  assert (H : decode_check c = true) by (apply (byte_sweep decode_check); auto).
  unfold decode_check in H.
  destruct (url_escape1 c) as [|x [|a [|b [|]]]]; try discriminate.
  - cbn [app percent_decode].
    destruct (x =? c) eqn:E; [|discriminate]. apply N.eqb_eq in E. subst x.
    destruct (c =? 37); [discriminate|]. destruct (c =? 43); [discriminate|]. reflexivity.
  - cbn [app percent_decode].
    destruct (x =? 37); [|discriminate]. cbn [andb] in H.
    apply N.eqb_eq in H. rewrite H. reflexivity.
Qed.

Lemma decode_escape : forall s, bytes_ok s -> percent_decode (url_escape s) = s.
Proof.
  induction s as [|c s IH]; intros H; auto.
  inversion H; subst. cbn [url_escape flat_map].
  rewrite decode_escape1 by assumption. unfold url_escape in IH. now rewrite IH.
Qed.

Lemma bytes_url_escape : forall s, bytes_ok s -> bytes_ok (url_escape s).
Proof.
  induction s as [|c s IH]; intros H; [constructor|].
  inversion H; subst. cbn [url_escape flat_map].
  apply Forall_app. split; [|apply IH; assumption].
  assert (K : forallb (fun x => x <? 256) (url_escape1 c) = true)
    by (apply (byte_sweep (fun c => forallb (fun x => x <? 256) (url_escape1 c))); auto).
  rewrite forallb_forall in K. apply Forall_forall. intros x Hx. apply K in Hx.
  unfold is_byte. lia.
Qed.

(** Frame: bytes beyond what suffices for a run are not touched. *)
Lemma wr_frame : forall A (m : list A) i v m' x, wr m i v = Some m' -> wr (m ++ x) i v = Some (m' ++ x).
Proof.
  induction m as [|y m IH]; intros i v m' x H; [discriminate|].
  destruct i; cbn [app wr] in *.
  - injection H as <-. reflexivity.
  - destruct (wr m i v) eqn:E; [|discriminate]. injection H as <-.
    rewrite (IH _ _ _ x E). reflexivity.
Qed.

Lemma percent_frame : forall src st dst d r x,
  percent st src dst d = Val r ->
  percent st src (dst ++ x) d = Val (fst r ++ x, snd r).
Proof.
  induction src as [|c src IH]; intros st dst d r x H.
  - cbn in H |- *. destruct st; injection H as <-; reflexivity.
  - destruct st; cbn [percent] in *.
    + destruct (c =? 37).
      * destruct (wr dst d 0) eqn:E; [|discriminate]. rewrite (wr_frame _ _ _ _ _ x E). auto.
      * destruct (wr dst d _) eqn:E; [|discriminate]. rewrite (wr_frame _ _ _ _ _ x E). auto.
    + destruct (_ && _).
      * destruct (wr dst d _) eqn:E; [|discriminate]. rewrite (wr_frame _ _ _ _ _ x E). auto.
      * destruct (_ && _); auto.
        destruct (wr dst d _) eqn:E; [|discriminate]. rewrite (wr_frame _ _ _ _ _ x E). auto.
    + destruct (if _ && _ then _ else _); auto.
      destruct (nth_error dst d) as [old|] eqn:E1; [|discriminate].
      assert (L : (d < length dst)%nat) by (apply nth_error_Some; congruence).
      rewrite nth_error_app1, E1 by assumption.
      destruct (wr dst d _) eqn:E; [|discriminate]. rewrite (wr_frame _ _ _ _ _ x E). auto.
Qed.

Lemma percent_total_frame : forall src dst,
  bytes_ok src -> (length src <= length dst)%nat ->
  exists dst', percentEscapedToRealBytes src dst = Val (dst', length (percent_decode src))
    /\ firstn (length (percent_decode src)) dst' = percent_decode src
    /\ (length (percent_decode src) <= length src)%nat
    /\ skipn (length src) dst' = skipn (length src) dst
    /\ length dst' = length dst.
Proof.
  intros src dst HB HL.
  destruct (percent_total src (firstn (length src) dst) HB) as (rest & E & L1 & L2).
  { rewrite firstn_length. lia. }
  exists ((percent_decode src ++ rest) ++ skipn (length src) dst).
  rewrite firstn_length, Nat.min_l in L1 by lia.
  unfold percentEscapedToRealBytes in *.
  rewrite <- (firstn_skipn (length src) dst) at 1.
  rewrite (percent_frame _ _ _ _ _ (skipn (length src) dst) E). cbn [fst snd].
  split; [reflexivity|]. split; [rewrite <- app_assoc; now apply firstn_at|].
  split; [assumption|]. split; [now apply skipn_at|].
  rewrite app_length, L1, skipn_length. lia.
Qed.
