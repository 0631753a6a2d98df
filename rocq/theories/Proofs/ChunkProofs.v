(** Proofs about the chunked stream buffers. *)
From Coq Require Import List NArith Bool Arith Lia.
From Verif Require Import Model.Base Model.WebMaps Model.Streams Model.Chunks Spec.StreamSpec Spec.ChunkSpec Proofs.StreamProofs.
Import ListNotations.

Lemma chunkCap_val : N.of_nat chunkCap = 4096%N.
Proof. unfold chunkCap; lia. Qed.

(** ** char *)
Record cinv (w : wsb cdev) (t : list N) : Prop := mkCinv {
  ci_len : length (w_pend w) <= w_cap w;
  ci_cap : 0 < w_cap w;
  ci_cur : exists n, c_cur (w_dev w) = Some n;
  ci_full : Forall (fun c => length c = w_cap w) (c_full (w_dev w));
  ci_text : t = concat (c_full (w_dev w)) ++ w_pend w
}.

Lemma eb_chunk : forall w t, cinv w t -> exists w', emptyBuffer_chunk w = Val (true, w') /\ cinv w' t /\
  w_enc w' = w_enc w /\ w_cap w' = w_cap w /\ length (w_pend w') < w_cap w /\ c_cur (w_dev w') = Some (length (w_pend w')).
Proof.
  intros w t [L C [n E] F T]; unfold emptyBuffer_chunk; rewrite E.
  destruct (Nat.eqb_spec (length (w_pend w)) (w_cap w)) as [Q|Q].
  - eexists; split; [reflexivity|]; cbn; repeat split; cbn; try lia; try (now exists 0).
    + apply Forall_app; split; [exact F|repeat constructor; exact Q].
    + rewrite T, concat_app; cbn; now rewrite !app_nil_r.
  - eexists; split; [reflexivity|]; cbn; repeat split; cbn; try lia; try assumption; try (now exists (length (w_pend w))).
Qed.

Lemma put_pass_room : forall Dev s (w : wsb Dev) s' w', put_pass s w = (s', w') -> w_enc w = E_NONE ->
  length (w_pend w) < w_cap w -> s <> [] -> length s' < length s.
Proof.
  intros Dev s w s' w' H E L N; unfold put_pass in H; rewrite E in H; injection H as <- _.
  rewrite skipn_length; destruct s; [congruence|]; cbn [length]; lia.
Qed.

Lemma pass_inv : forall s w s' w' t, cinv w t -> put_pass s w = (s', w') ->
  exists taken, s = taken ++ s' /\ cinv w' (t ++ escape (w_enc w) taken) /\ w_enc w' = w_enc w /\ w_cap w' = w_cap w.
Proof.
  intros s w s' w' t [L C [n E] F T] P; apply put_pass_ok in P as (taken & -> & P1 & P2 & P3 & P4 & P5 & _); auto.
  exists taken; split; [reflexivity|]; split; [|auto]; split; rewrite ?P3, ?P5; auto; [now exists n|].
  rewrite T, P1, app_assoc; reflexivity.
Qed.

Lemma xsputn_done : forall fuel s w t w', cinv w t -> xsputn emptyBuffer_chunk fuel s w = Done w' ->
  cinv w' (t ++ escape (w_enc w) s) /\ w_enc w' = w_enc w /\ w_cap w' = w_cap w.
Proof.
  induction fuel as [|f IH]; intros s w t w' I H; cbn in H; [discriminate|].
  destruct (put_pass s w) as [s1 w1] eqn:P; destruct (pass_inv _ _ _ _ _ I P) as (taken & -> & I1 & E1 & C1).
  destruct s1 as [|c s1]; [injection H as <-; rewrite app_nil_r; auto|].
  destruct (eb_chunk w1 _ I1) as (w2 & X & I2 & E2 & C2 & _); rewrite X in H.
  destruct (IH _ _ _ _ I2 H) as (I3 & E3 & C3); rewrite E2, E1 in I3; rewrite escape_app, app_assoc.
  split; [exact I3|split; congruence].
Qed.

Lemma xsputn_undef : forall fuel s w t, cinv w t -> xsputn emptyBuffer_chunk fuel s w <> Undef.
Proof.
  induction fuel as [|f IH]; intros s w t I H; cbn in H; [discriminate|].
  destruct (put_pass s w) as [s1 w1] eqn:P; destruct (pass_inv _ _ _ _ _ I P) as (taken & -> & I1 & E1 & C1).
  destruct s1 as [|c s1]; [discriminate|].
  destruct (eb_chunk w1 _ I1) as (w2 & X & I2 & _); rewrite X in H; exact (IH _ _ _ I2 H).
Qed.

Lemma xsputn_none : forall fuel s w t, cinv w t -> w_enc w = E_NONE ->
  length s + (if length (w_pend w) <? w_cap w then 1 else 2) <= fuel -> exists w', xsputn emptyBuffer_chunk fuel s w = Done w'.
Proof.
  induction fuel as [|f IH]; intros s w t I E L.
  { destruct (_ <? _); lia. }
  cbn; destruct (put_pass s w) as [s1 w1] eqn:P; destruct (pass_inv _ _ _ _ _ I P) as (taken & -> & I1 & E1 & C1).
  destruct s1 as [|c s1]; [now exists w1|].
  destruct (eb_chunk w1 _ I1) as (w2 & X & I2 & E2 & C2 & L2 & _); rewrite X.
  apply (IH _ _ _ I2); [congruence|].
  rewrite C2, (proj2 (Nat.ltb_lt _ _) L2).
  destruct (Nat.ltb_spec (length (w_pend w)) (w_cap w)) as [R|R].
  - assert (Y := put_pass_room _ _ _ _ _ P E R); assert (N : taken ++ c :: s1 <> []) by (destruct taken; discriminate).
    specialize (Y N); rewrite !app_length in *; cbn [length] in *; lia.
  - rewrite app_length in L; cbn [length] in *; lia.
Qed.

Lemma sputc_chunk : forall fuel c w t, cinv w t -> 0 < fuel ->
  exists w' b, sputc emptyBuffer_chunk (fun _ => false) fuel c w = Done (b, w') /\ cinv w' (t ++ [c]) /\ w_enc w' = w_enc w /\ w_cap w' = w_cap w.
Proof.
  assert (A : forall c w t, cinv w t -> length (w_pend w) < w_cap w -> cinv (mkW (w_pend w ++ [c]) (w_cap w) (w_enc w) (w_dev w)) (t ++ [c])).
  { intros c w t [L C [n E] F T] Q; split; cbn; auto; [rewrite app_length; cbn; lia|now exists n|now rewrite T, app_assoc]. }
  intros fuel c w t I P; destruct fuel as [|f]; [lia|]; cbn -[Nat.ltb].
  destruct (Nat.ltb_spec (length (w_pend w)) (w_cap w)) as [R|R].
  - eexists; eexists; split; [reflexivity|]; split; [now apply A|auto].
  - destruct (eb_chunk w _ I) as (w2 & X & I2 & E2 & C2 & L2 & _); rewrite X.
    destruct f as [|f]; cbn -[Nat.ltb]; rewrite C2, (proj2 (Nat.ltb_lt _ _) L2);
    (eexists; eexists; split; [reflexivity|]; split; [rewrite <- C2; apply A; [exact I2|congruence]|cbn; split; congruence]).
Qed.

Lemma sputc_zero : forall c w w' b t, cinv w t -> sputc emptyBuffer_chunk (fun _ => false) 0 c w = Done (b, w') ->
  cinv w' (t ++ [c]) /\ w_enc w' = w_enc w /\ w_cap w' = w_cap w.
Proof.
  intros c w w' b t [L C [n E] F T] H; cbn -[Nat.ltb] in H; destruct (Nat.ltb_spec (length (w_pend w)) (w_cap w)) as [R|R]; [|discriminate].
  injection H as _ <-; split; [|auto]; split; cbn; auto; [rewrite app_length; cbn; lia|now exists n|now rewrite T, app_assoc].
Qed.

Lemma op_done : forall fuel o w t w', cinv w t -> chunk_op emptyBuffer_chunk (fun _ => false) fuel o w = Done w' ->
  cinv w' (t ++ ctext (w_enc w) [o]) /\ w_enc w' = match o with CEnc e => e | _ => w_enc w end /\ w_cap w' = w_cap w.
Proof.
  intros fuel o w t w' I H; destruct o as [s|c|e|]; cbn in H |- *; rewrite ?app_nil_r.
  - exact (xsputn_done _ _ _ _ _ I H).
  - destruct fuel as [|f].
    + destruct (sputc _ _ 0 c w) as [[b w1]| |] eqn:S; try discriminate; injection H as <-; exact (sputc_zero _ _ _ _ _ I S).
    + destruct (sputc_chunk (S f) c w t I) as (w1 & b & S & R); [lia|]; rewrite S in H; injection H as <-; exact R.
  - injection H as <-; split; [|auto]; destruct I; split; auto.
  - destruct (eb_chunk w _ I) as (w1 & X & I1 & E1 & C1 & _); rewrite X in H; injection H as <-; auto.
Qed.

Lemma ctext_cons : forall e o os, ctext e (o :: os) = ctext e [o] ++ ctext (match o with CEnc e => e | _ => e end) os.
Proof. intros e o os; destruct o; cbn; rewrite ?app_nil_r; reflexivity. Qed.

Lemma ops_done : forall fuel os w t w', cinv w t -> chunk_ops emptyBuffer_chunk (fun _ => false) fuel os w = Done w' ->
  cinv w' (t ++ ctext (w_enc w) os) /\ w_cap w' = w_cap w.
Proof.
  intros fuel os; induction os as [|o os IH]; intros w t w' I H; cbn [chunk_ops] in H.
  - injection H as <-; cbn; rewrite app_nil_r; auto.
  - destruct (chunk_op _ _ _ o w) as [w1| |] eqn:O; try discriminate.
    destruct (op_done _ _ _ _ _ I O) as (I1 & E1 & C1); destruct (IH _ _ _ I1 H) as [I2 C2].
    rewrite ctext_cons, app_assoc; rewrite E1 in I2; split; [|congruence]; destruct o; exact I2.
Qed.

Lemma chunk_fresh_inv : forall cap, 0 < cap -> cinv (chunk_fresh cap) [].
Proof. intros cap H; split; cbn; auto; [lia|now exists 0]. Qed.

Lemma flush_packed : forall w t w', cinv w t -> emptyBuffer_chunk w = Val (true, w') ->
  concat (chunk_body w') = t /\ packed (w_cap w) (chunk_body w').
Proof.
  intros w t w' I H; destruct (eb_chunk w t I) as (w1 & X & I1 & E1 & C1 & L1 & U); rewrite X in H; injection H as <-.
  unfold chunk_body; rewrite U, firstn_all; split.
  - rewrite (ci_text _ _ I1), concat_app; cbn; now rewrite app_nil_r.
  - exists (c_full (w_dev w1)), (w_pend w1); split; [reflexivity|]; split; [rewrite <- C1; exact (ci_full _ _ I1)|exact L1].
Qed.

Lemma char_content : forall fuel os w, char_chunks fuel os = Done w ->
  exists body w', chunk_take w = Val (body, w') /\ concat body = ctext E_NONE os /\ packed chunkCap body.
Proof.
  intros fuel os w H; assert (P := chunkCap_val).
  destruct (ops_done _ _ _ _ _ (chunk_fresh_inv chunkCap ltac:(lia)) H) as [I C]; cbn [app chunk_fresh w_enc w_cap] in *.
  destruct (eb_chunk w _ I) as (w1 & X & R); destruct (flush_packed w _ w1 I X) as [A B].
  unfold chunk_take; rewrite X; eexists; eexists; split; [reflexivity|]; split; [exact A|now rewrite <- C].
Qed.

Lemma ops_undef : forall fuel os w t, cinv w t -> chunk_ops emptyBuffer_chunk (fun _ => false) fuel os w <> Undef.
Proof.
  intros fuel os; induction os as [|o os IH]; intros w t I H; cbn [chunk_ops] in H; [discriminate|].
  destruct (chunk_op _ _ _ o w) as [w1| |] eqn:O; try discriminate.
  - destruct (op_done _ _ _ _ _ I O) as (I1 & _); exact (IH _ _ I1 H).
  - clear H IH; destruct o as [s|c|e|]; cbn in O.
    + exact (xsputn_undef _ _ _ _ I O).
    + destruct fuel as [|f]; [cbn -[Nat.ltb] in O; destruct (Nat.ltb _ _); discriminate|].
      destruct (sputc_chunk (S f) c w t I) as (w1 & b & S & _); [lia|]; rewrite S in O; discriminate.
    + discriminate.
    + destruct (eb_chunk w _ I) as (w1 & X & _); rewrite X in O; discriminate.
Qed.

Lemma char_defined : forall fuel os, char_chunks fuel os <> Undef.
Proof. intros fuel os; assert (P := chunkCap_val); apply (ops_undef fuel os _ [] (chunk_fresh_inv chunkCap ltac:(lia))). Qed.

Lemma char_terminates : forall fuel os, plain E_NONE os = true -> size_of os + 2 <= fuel -> exists w, char_chunks fuel os = Done w.
Proof.
  intros fuel os P L; assert (Q := chunkCap_val).
  unfold char_chunks; assert (I := chunk_fresh_inv chunkCap ltac:(lia)).
  change E_NONE with (w_enc (chunk_fresh chunkCap)) in P; revert P I; generalize (chunk_fresh chunkCap) ([] : list N).
  induction os as [|o os IH]; intros w t P I; [now exists w|]; cbn [chunk_ops].
  assert (X : exists w1, chunk_op emptyBuffer_chunk (fun _ => false) fuel o w = Done w1).
  { destruct o as [s|c|e|]; cbn.
    - cbn in L, P; destruct (w_enc w) eqn:E.
      + apply (xsputn_none _ _ _ _ I E); destruct (_ <? _); lia.
      + destruct s; [|discriminate]; destruct fuel as [|f]; [lia|]; cbn; unfold put_pass; rewrite E; cbn; eexists; reflexivity.
      + destruct s; [|discriminate]; destruct fuel as [|f]; [lia|]; cbn; unfold put_pass; rewrite E; cbn; eexists; reflexivity.
    - destruct (sputc_chunk fuel c w t I) as (w1 & b & S & _); [lia|]; rewrite S; eexists; reflexivity.
    - eexists; reflexivity.
    - destruct (eb_chunk w _ I) as (w1 & E & _); rewrite E; eexists; reflexivity. }
  destruct X as [w1 X]; rewrite X; destruct (op_done _ _ _ _ _ I X) as (I1 & E1 & _).
  apply (IH ltac:(unfold size_of in *; cbn [fold_right] in L; lia) w1 (t ++ ctext (w_enc w) [o])); [|exact I1].
  rewrite E1; destruct o as [s|c|e|]; cbn in P; auto; destruct (w_enc w), s; auto; discriminate.
Qed.

(** An escape that does not fit into the rest of a chunk. *)
Lemma stuck : forall fuel (w : wsb cdev) n, w_enc w = E_HTML -> w_cap w = length (w_pend w) + 1 -> c_cur (w_dev w) = Some n ->
  xsputn emptyBuffer_chunk fuel [60%N] w = Spin.
Proof.
  induction fuel as [|f IH]; intros w n E C U; [reflexivity|]; cbn -[put_pass].
  assert (P : put_pass [60%N] w = ([60%N], w)).
  { unfold put_pass; rewrite E; cbn [put_mapped enc_table]; change (map_find htmlCharacters 60%N) with (Some [38%N; 108%N; 116%N; 59%N]).
    replace (w_cap w - length (w_pend w)) with 1 by lia; cbn; destruct w; cbn in *; now subst. }
  rewrite P; unfold emptyBuffer_chunk; rewrite U; destruct (Nat.eqb_spec (length (w_pend w)) (w_cap w)); [lia|].
  eapply IH; cbn; eauto.
Qed.

Lemma plain_write : forall f s w, w_enc w = E_NONE -> length s + length (w_pend w) <= w_cap w ->
  xsputn emptyBuffer_chunk (S f) s w = Done (mkW (w_pend w ++ s) (w_cap w) E_NONE (w_dev w)).
Proof.
  intros f s w E L; cbn -[put_pass]; unfold put_pass; rewrite E.
  replace (Nat.min (length s) (w_cap w - length (w_pend w))) with (length s) by lia.
  now rewrite skipn_all, firstn_all.
Qed.

Lemma char_spins : exists os, ctext E_NONE os <> [] /\ forall fuel, char_chunks fuel os = Spin.
Proof.
  assert (P := chunkCap_val).
  exists [CWrite (repeat 97%N (chunkCap - 1)); CEnc E_HTML; CWrite [60%N]]; split.
  - cbn; intros H; apply (f_equal (@length N)) in H; rewrite app_length in H; cbn in H; lia.
  - intros fuel; unfold char_chunks; cbn -[xsputn chunk_fresh chunkCap]; destruct fuel as [|f]; [reflexivity|].
    rewrite plain_write; [|reflexivity|rewrite repeat_length; cbn -[chunkCap]; lia].
    rewrite (stuck (S f) _ 0); try reflexivity.
Qed.

(** Whatever was written, the destructor is undefined once the body is taken. *)
Lemma taken_destroyed : forall fuel os w body w', char_chunks fuel os = Done w -> chunk_take w = Val (body, w') -> chunk_destroy w' = UB.
Proof.
  intros fuel os w body w' H T; unfold chunk_take in T; destruct (emptyBuffer_chunk w) as [[b w1]|]; [|discriminate].
  injection T as _ <-; reflexivity.
Qed.

(** ** wchar_t *)
Lemma conv_room : forall strict s room acc, Forall scalar s -> (room < 2 ^ 64)%N ->
  (ucs4_out strict s room room acc = CvOk (acc ++ utf8 s) /\ (N.of_nat (length (utf8 s)) <= room)%N) \/
  (exists a c b, s = a ++ c :: b /\ ucs4_out strict s room room acc = CvPartial (acc ++ utf8 a) (c :: b) /\
     (N.of_nat (length (utf8 a)) <= room < N.of_nat (length (utf8 a) + length (utf8_1 c)))%N).
Proof.
  intros strict s; induction s as [|c s IH]; intros room acc G R.
  - left; cbn; rewrite app_nil_r; split; [reflexivity|lia].
  - inversion G as [|x y G1 G2]; subst; cbn [ucs4_out].
    assert (NR : refused strict c = false).
    { assert (X := scalar_not_refused strict [c] (Forall_cons c G1 (Forall_nil scalar))); cbn in X; now rewrite orb_false_r in X. }
    rewrite NR, utf8_write_spec; assert (L := utf8_1_length c).
    destruct (N.ltb_spec room (N.of_nat (length (utf8_1 c)))) as [Q|Q].
    + right; exists [], c, s; cbn; rewrite app_nil_r; repeat split; lia.
    + assert (T : trunc 64 (room + 2 ^ 64 - N.of_nat (length (utf8_1 c))) = (room - N.of_nat (length (utf8_1 c)))%N).
      { unfold trunc; replace (room + 2 ^ 64 - N.of_nat (length (utf8_1 c)))%N
          with (room - N.of_nat (length (utf8_1 c)) + 1 * 2 ^ 64)%N by lia.
        rewrite N.mod_add by discriminate; apply N.mod_small; lia. }
      rewrite T; destruct (IH (room - N.of_nat (length (utf8_1 c)))%N (acc ++ utf8_1 c) G2 ltac:(lia)) as [[E B]|(a & d & b & S & E & B)].
      * left; rewrite E; cbn [utf8 flat_map]; fold (utf8 s); rewrite app_length, <- app_assoc; split; [reflexivity|lia].
      * right; exists (c :: a), d, b; rewrite E; cbn [utf8 flat_map app]; fold (utf8 a); rewrite app_length, <- app_assoc; subst s; repeat split; lia.
Qed.

Definition full_enough (cap : nat) (c : list N) : Prop := utf8_chunk cap c /\ cap < length c + 4.

Lemma utf8_chunk_app : forall cap l u, utf8_chunk cap l -> Forall scalar u -> length l + length (utf8 u) <= cap -> utf8_chunk cap (l ++ utf8 u).
Proof.
  intros cap l u (v & V & -> & L) U B; exists (v ++ u); repeat split; [now apply Forall_app|now rewrite utf8_app|rewrite app_length; lia].
Qed.
Lemma utf8_chunk_nil : forall cap, utf8_chunk cap [].
Proof. intros cap; exists []; repeat split; [constructor|cbn; lia]. Qed.

Lemma convert_ok : forall strict cap fuel from body last, 4 <= cap -> (N.of_nat cap < 2 ^ 64)%N -> Forall scalar from ->
  Forall (full_enough cap) body -> utf8_chunk cap last -> length from + (if length last + 4 <=? cap then 1 else 2) <= fuel ->
  exists front l, chunk_convert strict cap fuel from body last = Done (true, [], front ++ [l]) /\
    Forall (full_enough cap) front /\ utf8_chunk cap l /\ concat (front ++ [l]) = concat body ++ last ++ utf8 from.
Proof.
  intros strict cap fuel; induction fuel as [|f IH]; intros from body last C B G F U L.
  { destruct (_ <=? _); lia. }
  cbn [chunk_convert]; assert (UL : length last <= cap) by (destruct U as (? & _ & _ & ?); assumption).
  destruct (conv_room strict from (N.of_nat (cap - length last)) [] G ltac:(lia)) as [[E Q]|(a & c & b & S & E & Q)]; rewrite E; cbn [app].
  - exists body, (last ++ utf8 from); split; [reflexivity|]; split; [exact F|]; split.
    + apply utf8_chunk_app; auto; lia.
    + rewrite concat_app; cbn; now rewrite app_nil_r.
  - subst from; apply Forall_app in G as [G1 G2]; assert (X := utf8_1_length c).
    assert (F' : Forall (full_enough cap) (body ++ [last ++ utf8 a])).
    { apply Forall_app; split; [exact F|repeat constructor]; [apply utf8_chunk_app; auto; lia|rewrite app_length; lia]. }
    destruct (IH (c :: b) _ [] C B G2 F' (utf8_chunk_nil cap)) as (front & l & E1 & E2 & E3 & E4).
    { rewrite app_length in L; cbn [length] in L |- *; replace (0 + 4 <=? cap) with true by (symmetry; apply Nat.leb_le; lia).
      destruct (Nat.leb_spec (length last + 4) cap) as [Y|Y]; [|lia].
      destruct a; cbn [length utf8 flat_map] in *; lia. }
    exists front, l; split; [exact E1|]; split; [exact E2|]; split; [exact E3|].
    rewrite E4, concat_app; cbn; rewrite utf8_app, <- !app_assoc; reflexivity.
Qed.

Record wcinv (w : wsb (list (list N))) (t : list N) : Prop := mkWC {
  wc_len : length (w_pend w) <= w_cap w;
  wc_cap : w_cap w = chunkCap;
  wc_good : Forall scalar (w_pend w);
  wc_packed : utf8_packed (w_cap w) (w_dev w);
  wc_text : t = concat (w_dev w) ++ utf8 (w_pend w)
}.

Lemma eb_wchunk : forall strict fuel w t, wcinv w t -> chunkCap + 2 <= fuel -> exists w',
  emptyBuffer_wchunk strict fuel w = Val (true, w') /\ wcinv w' t /\ w_enc w' = w_enc w /\ w_pend w' = [].
Proof.
  intros strict fuel w t [L C G P T] B; assert (V := chunkCap_val); unfold emptyBuffer_wchunk.
  destruct (w_pend w) as [|c0 p0] eqn:Q; [exists w; repeat split; auto; rewrite ?Q; cbn; auto; lia|].
  rewrite <- Q in *; clear c0 p0 Q.
  assert (K : forall body last, Forall (full_enough (w_cap w)) body -> utf8_chunk (w_cap w) last -> concat body ++ last = concat (w_dev w) ->
    exists w', match chunk_convert strict (w_cap w) fuel (w_pend w) body last with
      | Done (true, _, body') => Val (true, mkW [] (w_cap w) (w_enc w) body')
      | Done (false, rest, body') => Val (false, mkW (firstn (length (w_pend w) - length rest) (w_pend w)) (w_cap w) (w_enc w) body')
      | _ => UB end = Val (true, w') /\ wcinv w' t /\ w_enc w' = w_enc w /\ w_pend w' = []).
  { intros body last F U S.
    destruct (convert_ok strict (w_cap w) fuel (w_pend w) body last) as (front & l & E1 & E2 & E3 & E4); auto; try lia.
    { destruct (_ <=? _); lia. }
    rewrite E1; eexists; split; [reflexivity|]; split; [|auto]; split; cbn; auto; try lia.
    - right; exists front, l; auto.
    - rewrite E4, app_assoc, S, app_nil_r; exact T. }
  destruct P as [P|(front & last & P & U & F)].
  - rewrite P; cbn [rev]; destruct (K [] []) as (w' & X); [constructor|apply utf8_chunk_nil|now rewrite P|]; exists w'; exact X.
  - assert (R : rev (w_dev w) = last :: rev front) by (rewrite P, rev_app_distr; reflexivity).
    rewrite R; destruct (Nat.eqb_spec (length last) (w_cap w)) as [Q|Q].
    + apply (K (w_dev w) []); [|apply utf8_chunk_nil|now rewrite app_nil_r].
      rewrite P; apply Forall_app; split; [exact F|repeat constructor; [exact U|lia]].
    + rewrite rev_involutive; apply (K front last F U); rewrite P, concat_app; cbn; now rewrite app_nil_r.
Qed.

Lemma escape_scalar : forall e s, Forall scalar s -> Forall scalar (escape e s).
Proof.
  intros e s H; rewrite escape_flat; induction H; cbn; [constructor|]; apply Forall_app; split; [now apply escape1_scalar|assumption].
Qed.

Lemma wpass_inv : forall s w s' w' t, wcinv w t -> Forall scalar s -> put_pass s w = (s', w') ->
  exists taken, s = taken ++ s' /\ wcinv w' (t ++ utf8 (escape (w_enc w) taken)) /\ w_enc w' = w_enc w /\
    ((6 <= w_cap w - length (w_pend w)) -> s <> [] -> taken <> []).
Proof.
  intros s w s' w' t [L C G K T] S P; apply put_pass_ok in P as (taken & -> & P1 & P2 & P3 & P4 & P5 & P6); auto.
  apply Forall_app in S as [S1 S2].
  exists taken; split; [reflexivity|]; split; [|auto]; split; rewrite ?P3, ?P5, ?P1; auto.
  - rewrite <- P1; exact P2.
  - apply Forall_app; split; [exact G|now apply escape_scalar].
  - rewrite T, utf8_app, app_assoc; reflexivity.
Qed.

Lemma wxsputn : forall strict ef fuel s w t, wcinv w t -> Forall scalar s -> chunkCap + 2 <= ef ->
  length s + (if 6 <=? w_cap w - length (w_pend w) then 1 else 2) <= fuel ->
  exists w', xsputn (emptyBuffer_wchunk strict ef) fuel s w = Done w' /\ wcinv w' (t ++ utf8 (escape (w_enc w) s)) /\ w_enc w' = w_enc w.
Proof.
  intros strict ef fuel; induction fuel as [|f IH]; intros s w t I S B L.
  { destruct (_ <=? _); lia. }
  assert (V := chunkCap_val).
  cbn [xsputn]; destruct (put_pass s w) as [s1 w1] eqn:P; destruct (wpass_inv _ _ _ _ _ I S P) as (taken & -> & I1 & E1 & T1).
  apply Forall_app in S as [S1 S2].
  destruct s1 as [|c s1]; [exists w1; rewrite app_nil_r; auto|].
  destruct (eb_wchunk strict ef w1 _ I1 B) as (w2 & X & I2 & E2 & Z); rewrite X.
  destruct (IH (c :: s1) w2 _ I2 S2 B) as (w3 & R1 & R2 & R3).
  { rewrite Z, (wc_cap _ _ I2); cbn [length]; destruct (Nat.leb_spec 6 (chunkCap - 0)); [|lia].
    rewrite app_length in L; cbn [length] in L.
    destruct (Nat.leb_spec 6 (w_cap w - length (w_pend w))); [|lia].
    assert (taken <> []) by (apply T1; [assumption|destruct taken; discriminate]).
    destruct taken; [congruence|cbn [length] in L; lia]. }
  exists w3; split; [exact R1|]; split; [|congruence]; rewrite escape_app, utf8_app, app_assoc; rewrite E2, E1 in R2; exact R2.
Qed.

Lemma wop : forall strict fuel o w t, wcinv w t -> cop_scalar o -> op_size o + chunkCap + 2 <= fuel ->
  exists w', chunk_op (emptyBuffer_wchunk strict fuel) (fun c => N.eqb c 0xffffffff) fuel o w = Done w' /\
    wcinv w' (t ++ utf8 (ctext (w_enc w) [o])) /\ w_enc w' = match o with CEnc e => e | _ => w_enc w end.
Proof.
  intros strict fuel o w t I G L; assert (V := chunkCap_val); destruct o as [s|c|e|]; cbn -[Nat.ltb sputc xsputn utf8]; rewrite ?app_nil_r.
  - apply wxsputn; auto; cbn in L; [lia|destruct (_ <=? _); lia].
  - assert (A : forall w t, wcinv w t -> length (w_pend w) < w_cap w -> wcinv (mkW (w_pend w ++ [c]) (w_cap w) (w_enc w) (w_dev w)) (t ++ utf8 [c])).
    { intros w0 t0 [L0 C0 G0 K0 T0] Q; split; cbn -[utf8]; auto; [rewrite app_length; cbn; lia|apply Forall_app; auto|].
      rewrite T0, utf8_app, app_assoc; reflexivity. }
    assert (EOF : N.eqb c 0xffffffff = false) by (apply N.eqb_neq; intros ->; cbn in G; unfold scalar in G; lia).
    destruct fuel as [|f]; [lia|]; cbn -[Nat.ltb utf8]; destruct (Nat.ltb_spec (length (w_pend w)) (w_cap w)) as [R|R].
    + eexists; split; [reflexivity|]; split; [now apply A|reflexivity].
    + destruct (eb_wchunk strict (S f) w _ I ltac:(lia)) as (w2 & X & I2 & E2 & Z); rewrite X, EOF.
      destruct f as [|f]; [lia|]; cbn -[Nat.ltb utf8].
      assert (Y : length (w_pend w2) < w_cap w2) by (rewrite Z, (wc_cap _ _ I2); cbn [length]; lia).
      rewrite (proj2 (Nat.ltb_lt _ _) Y); eexists; split; [reflexivity|]; split; [now apply A|exact E2].
  - eexists; split; [reflexivity|]; split; [|auto]; destruct I; split; cbn; rewrite ?app_nil_r; auto.
  - destruct (eb_wchunk strict fuel w _ I ltac:(lia)) as (w2 & X & I2 & E2 & Z); rewrite X; eexists; split; [reflexivity|].
    change (utf8 []) with (@nil N); rewrite ?app_nil_r; auto.
Qed.

Lemma wide_ok : forall strict fuel os, Forall cop_scalar os -> size_of os + chunkCap + 2 <= fuel ->
  exists w w', wide_chunks strict fuel os = Done w /\ emptyBuffer_wchunk strict fuel w = Val (true, w') /\
    concat (w_dev w') = utf8 (ctext E_NONE os) /\ utf8_packed chunkCap (w_dev w').
Proof.
  intros strict fuel os S L; assert (V := chunkCap_val); unfold wide_chunks.
  assert (I : wcinv (mkW [] chunkCap E_NONE []) []) by (split; cbn -[chunkCap]; auto; [lia|now left]).
  assert (K : forall os w t, wcinv w t -> Forall cop_scalar os -> size_of os + chunkCap + 2 <= fuel ->
    exists w', chunk_ops (emptyBuffer_wchunk strict fuel) (fun c => N.eqb c 0xffffffff) fuel os w = Done w' /\
      wcinv w' (t ++ utf8 (ctext (w_enc w) os))).
  { clear; induction os as [|o os IH]; intros w t I S L; cbn [chunk_ops].
    - exists w; cbn; rewrite app_nil_r; auto.
    - inversion S; subst; unfold size_of in L; cbn [fold_right] in L; fold (size_of os) in L.
      destruct (wop strict fuel o w t I) as (w1 & X & I1 & E1); auto; [lia|]; rewrite X.
      destruct (IH w1 _ I1) as (w2 & Y & I2); auto; [lia|]; exists w2; split; [exact Y|].
      rewrite ctext_cons, utf8_app, app_assoc; rewrite E1 in I2; destruct o; exact I2. }
  destruct (K os _ [] I S L) as (w & X & I1); cbn [app w_enc] in I1.
  destruct (eb_wchunk strict fuel w _ I1 ltac:(lia)) as (w' & Y & I2 & E2 & Z).
  exists w, w'; split; [exact X|]; split; [exact Y|]; split.
  - assert (T := wc_text _ _ I2); rewrite Z in T; cbn in T; rewrite app_nil_r in T; now symmetry.
  - rewrite <- (wc_cap _ _ I2); exact (wc_packed _ _ I2).
Qed.

Definition bad_text : list N := repeat 233%N (N.to_nat 2049) ++ [0x110000%N].
Lemma wide_twice : exists w, wide_chunks true (N.to_nat 9000) [CWrite bad_text; CFlush; CFlush] = Done w /\
  concat (w_dev w) = utf8 (repeat 233%N (N.to_nat 4096)).
Proof. eexists; split; vm_compute; reflexivity. Qed.
Lemma wide_repeats : exists s w, wide_chunks true (N.to_nat 9000) [CWrite s; CFlush; CFlush] = Done w /\
  exists a, a <> [] /\ concat (w_dev w) = utf8 (a ++ a) /\ exists b, s = a ++ b /\ length b < length a.
Proof.
  destruct wide_twice as (w & E & C); exists bad_text, w; split; [exact E|].
  exists (repeat 233%N (N.to_nat 2048)); split; [discriminate|]; split.
  - rewrite C; vm_compute; reflexivity.
  - exists [233; 0x110000]%N; split; vm_compute; [reflexivity|]. repeat constructor.
Qed.

Lemma taken_then_destroyed : forall fuel os w, char_chunks fuel os = Done w ->
  exists body w', chunk_take w = Val (body, w') /\ chunk_destroy w' = UB.
Proof.
  intros fuel os w H; destruct (char_content _ _ _ H) as (body & w' & T & _); exists body, w'; split; [exact T|].
  exact (taken_destroyed _ _ _ _ _ H T).
Qed.
