(** Proofs about a request of the HTTP client. *)
From Coq Require Import String List NArith ZArith Bool Arith Lia.
From Verif Require Import Model.Base Model.WebMaps Model.Streams Model.Chunks Model.Curl
  Spec.StreamSpec Spec.EscapeSpec Spec.ChunkSpec Spec.CurlSpec Proofs.StreamProofs Proofs.ChunkProofs.
Import ListNotations.

(** * Upload *)
Definition small (c : list N) : Prop := (N.of_nat (length c) < 2 ^ 32)%N.
Definition at_ok (chunks : list (list N)) (rc : N) : Prop :=
  match chunks with [] => rc = 0%N | c :: _ => (rc <= N.of_nat (length c))%N end.
Definition rest_of (st : list (list N) * N) : list N := skipn (N.to_nat (snd st)) (concat (fst st)).

Lemma trunc_sub : forall a b, (b <= a)%N -> (a < 2 ^ 32)%N -> trunc 32 (a + 2 ^ 32 - b) = (a - b)%N.
Proof.
  intros a b L S; unfold trunc; replace (a + 2 ^ 32 - b)%N with (a - b + 1 * 2 ^ 32)%N by lia.
  rewrite N.mod_add by discriminate; apply N.mod_small; lia.
Qed.
Lemma trunc_id : forall a, (a < 2 ^ 32)%N -> trunc 32 a = a.
Proof. intros a L; now apply N.mod_small. Qed.

Lemma slice_skip : forall (c : list N) a n, slice c a (a + n) = firstn n (skipn a c).
Proof. intros c a n; unfold slice; f_equal; lia. Qed.

Lemma skipn_add : forall A (l : list A) a b, skipn (a + b) l = skipn b (skipn a l).
Proof. intros A l a; revert l; induction a as [|a IH]; intros l b; [reflexivity|]; destruct l; cbn; [now destruct b|apply IH]. Qed.
Lemma firstn_add : forall A (l : list A) a b, firstn (a + b) l = firstn a l ++ firstn b (skipn a l).
Proof. intros A l a; revert l; induction a as [|a IH]; intros l b; [reflexivity|]; destruct l; cbn; [now destruct b|f_equal; apply IH]. Qed.

Lemma read_loop_ok : forall fuel chunks rc ws out, Forall small chunks -> at_ok chunks rc -> (ws < 2 ^ 32)%N ->
  length chunks + (if (ws =? 0)%N then 1 else 2) <= fuel ->
  exists st, read_loop fuel chunks rc ws out = Done (out ++ firstn (N.to_nat ws) (rest_of (chunks, rc)), st) /\
    Forall small (fst st) /\ at_ok (fst st) (snd st) /\ rest_of st = skipn (N.to_nat ws) (rest_of (chunks, rc)) /\
    (Forall (fun c => c <> []) chunks -> Forall (fun c => c <> []) (fst st)) /\
    (match chunks with [] => True | c :: _ => (rc < N.of_nat (length c))%N end ->
     Forall (fun c => c <> []) chunks -> match fst st with [] => True | c :: _ => (snd st < N.of_nat (length c))%N end).
Proof.
  induction fuel as [|f IH]; intros chunks rc ws out S A W L; [destruct (_ =? _)%N; lia|].
  cbn [read_loop]; destruct chunks as [|c cs].
  { exists ([], rc); cbn in A; subst rc; unfold rest_of; cbn; rewrite ?firstn_nil, ?skipn_nil, app_nil_r; repeat split; auto. }
  destruct (N.eqb_spec ws 0) as [E|E].
  { subst ws; exists (c :: cs, rc); cbn [N.to_nat firstn skipn]; rewrite app_nil_r; repeat split; auto. }
  inversion S as [|x y S1 S2]; subst; cbn in A; unfold small in S1.
  rewrite trunc_sub by lia.
  set (n := N.min ws (N.of_nat (length c) - rc)); assert (Ln : (n <= ws /\ n <= N.of_nat (length c) - rc)%N) by (unfold n; lia).
  destruct (N.ltb_spec (N.of_nat (length c)) (rc + n)); [lia|].
  rewrite (trunc_id (rc + n)), (trunc_sub ws n) by lia.
  replace (N.to_nat (rc + n)) with (N.to_nat rc + N.to_nat n) by lia; rewrite slice_skip.
  assert (R : rest_of (c :: cs, rc) = skipn (N.to_nat rc) c ++ concat cs).
  { unfold rest_of; cbn [fst snd concat]; rewrite skipn_app; replace (N.to_nat rc - length c) with 0 by lia; reflexivity. }
  assert (Lc : length (skipn (N.to_nat rc) c) = length c - N.to_nat rc) by apply skipn_length.
  destruct (N.leb_spec (N.of_nat (length c)) (rc + n)) as [P|P].
  - assert (Q : N.to_nat n = length (skipn (N.to_nat rc) c)) by lia.
    destruct (IH cs 0%N (ws - n)%N (out ++ firstn (N.to_nat n) (skipn (N.to_nat rc) c)) S2) as (st & E1 & E2 & E3 & E4 & E5 & E6).
    { destruct cs; cbn; lia. } { lia. } { cbn [length] in L; destruct (_ =? _)%N; lia. }
    exists st; rewrite E1; split.
    + f_equal; f_equal; rewrite <- app_assoc; f_equal; rewrite R; unfold rest_of at 1; cbn [fst snd N.to_nat skipn].
      replace (N.to_nat ws) with (N.to_nat n + N.to_nat (ws - n)) by lia.
      rewrite firstn_app, (firstn_all2 (n := N.to_nat n + _)) by lia.
      rewrite (firstn_all2 (n := N.to_nat n)) by lia; do 2 f_equal; lia.
    + split; [exact E2|]; split; [exact E3|]; split; [|split].
      * rewrite E4, R; unfold rest_of; cbn [fst snd N.to_nat skipn].
        replace (N.to_nat ws) with (N.to_nat n + N.to_nat (ws - n)) by lia.
        rewrite skipn_add, skipn_app, Q, skipn_all, Nat.sub_diag; reflexivity.
      * intros Z; inversion Z; auto.
      * intros _ Z; inversion Z as [|z zs Z1 Z2]; subst; apply E6; auto; destruct cs as [|d ds]; [exact I|].
        inversion Z2; subst; destruct d; [congruence|cbn; lia].
  - assert (Q : n = ws) by (unfold n in *; lia); rewrite Q in *.
    destruct (IH (c :: cs) (rc + ws)%N (ws - ws)%N (out ++ firstn (N.to_nat ws) (skipn (N.to_nat rc) c)) S) as (st & E1 & E2 & E3 & E4 & E5 & E6).
    { cbn; lia. } { lia. } { cbn [length] in *; replace (ws - ws =? 0)%N with true by (symmetry; apply N.eqb_eq; lia); lia. }
    exists st; rewrite E1; split.
    + replace (N.to_nat (ws - ws)) with 0 by lia; cbn [firstn]; rewrite app_nil_r, R, firstn_app.
      replace (N.to_nat ws - length (skipn (N.to_nat rc) c)) with 0 by lia; cbn [firstn]; now rewrite app_nil_r.
    + split; [exact E2|]; split; [exact E3|]; split; [|split].
      * rewrite E4; replace (N.to_nat (ws - ws)) with 0 by lia; unfold rest_of; cbn [fst snd skipn].
        rewrite <- skipn_add; f_equal; lia.
      * exact E5.
      * intros _ Z; apply E6; [lia|exact Z].
Qed.

Definition pos_ok (st : list (list N) * N) : Prop :=
  Forall small (fst st) /\ at_ok (fst st) (snd st).
Definition live (st : list (list N) * N) : Prop :=
  Forall (fun c => c <> []) (fst st) /\ match fst st with [] => True | c :: _ => (snd st < N.of_nat (length c))%N end.

Lemma reads_ok : forall offers st, Forall (fun n => n < 2 ^ 32)%N offers -> pos_ok st ->
  exists st', reads offers st = Done (hand_out (rest_of st) offers, st') /\ pos_ok st' /\
    rest_of st' = skipn (N.to_nat (fold_right N.add 0%N offers)) (rest_of st) /\ (live st -> live st').
Proof.
  induction offers as [|n offers IH]; intros st O P; cbn [reads].
  { exists st; repeat split; try apply P; auto; apply H. }
  inversion O as [|x y O1 O2]; subst; unfold readCallback; rewrite trunc_id by exact O1.
  destruct P as [P1 P2]; destruct (read_loop_ok (length (fst st) + 2) (fst st) (snd st) n [] P1 P2 O1) as (st1 & E1 & E2 & E3 & E4 & E5 & E6).
  { destruct (_ =? _)%N; lia. }
  rewrite E1; destruct (IH st1 O2 (conj E2 E3)) as (st2 & F1 & F2 & F3 & F4); rewrite F1; exists st2.
  rewrite <- surjective_pairing in E4; cbn [app hand_out fold_right]; rewrite <- surjective_pairing, E4.
  split; [reflexivity|]; split; [exact F2|]; split.
  - rewrite F3, E4, <- skipn_add; f_equal; lia.
  - intros [V1 V2]; apply F4; split; [exact (E5 V1)|exact (E6 V2 V1)].
Qed.

Lemma prepare_sum : forall chunks, prepare chunks = announced (concat chunks).
Proof.
  intros chunks; unfold prepare.
  assert (E : forall (l : list (list N)) n, fold_left (fun n c => (n + N.of_nat (length c))%N) l n = (n + N.of_nat (length (concat l)))%N).
  { clear; induction l as [|c l IH]; intros n; cbn; [lia|]; rewrite IH, app_length; lia. }
  rewrite E; unfold announced; destruct (concat chunks) as [|x r]; [reflexivity|].
  destruct (N.ltb_spec 0 (0 + N.of_nat (length (x :: r)))) as [L|L]; [f_equal; lia|cbn [length] in L; lia].
Qed.

Lemma upload_chunks : forall chunks offers, Forall (fun c => length c <= chunkCap) chunks -> Forall (fun n => n < 2 ^ 32)%N offers ->
  prepare chunks = announced (concat chunks) /\
  exists left, reads offers (chunks, 0%N) = Done (hand_out (concat chunks) offers, left).
Proof.
  intros chunks offers S O; split; [apply prepare_sum|].
  destruct (reads_ok offers (chunks, 0%N) O) as (st & E & _); [|exists st; exact E].
  assert (V := chunkCap_val); split; cbn [fst snd].
  - revert S; apply Forall_impl; intros c L; unfold small; lia.
  - destruct chunks; cbn; lia.
Qed.

Lemma upload_narrow : forall fuel os w, char_chunks fuel os = Done w ->
  exists body w', chunk_take w = Val (body, w') /\ prepare body = announced (ctext E_NONE os) /\
    forall offers, Forall (fun n => n < 2 ^ 32)%N offers ->
      exists left, reads offers (body, 0%N) = Done (hand_out (ctext E_NONE os) offers, left).
Proof.
  intros fuel os w H; destruct (char_content _ _ _ H) as (body & w' & T & C & P); exists body, w'; split; [exact T|].
  assert (S : Forall (fun c => length c <= chunkCap) body).
  { destruct P as (full & last & -> & F & L); apply Forall_app; split; [|constructor; [lia|constructor]].
    revert F; apply Forall_impl; intros; lia. }
  rewrite <- C; split; [apply prepare_sum|]; intros offers O; now apply upload_chunks.
Qed.

Lemma upload_wide : forall strict fuel os, Forall cop_scalar os -> size_of os + chunkCap + 2 <= fuel ->
  exists w w', wide_chunks strict fuel os = Done w /\ emptyBuffer_wchunk strict fuel w = Val (true, w') /\
    prepare (w_dev w') = announced (utf8 (ctext E_NONE os)) /\
    forall offers, Forall (fun n => n < 2 ^ 32)%N offers ->
      exists left, reads offers (w_dev w', 0%N) = Done (hand_out (utf8 (ctext E_NONE os)) offers, left).
Proof.
  intros strict fuel os S L; destruct (wide_ok strict fuel os S L) as (w & w' & E1 & E2 & E3 & E4).
  exists w, w'; split; [exact E1|]; split; [exact E2|]; rewrite <- E3; split; [apply prepare_sum|].
  intros offers O; apply upload_chunks; auto; destruct E4 as [->|(front & last & -> & (u & _ & _ & U) & F)]; [constructor|].
  apply Forall_app; split; [|constructor; [exact U|constructor]].
  revert F; apply Forall_impl; intros c [(v & _ & _ & V) _]; exact V.
Qed.

Lemma hand_out_all : forall offers body, concat (hand_out body offers) = firstn (N.to_nat (fold_right N.add 0%N offers)) body.
Proof.
  induction offers as [|n offers IH]; intros body; cbn [hand_out concat fold_right]; [reflexivity|].
  rewrite IH; replace (N.to_nat (n + _)) with (N.to_nat n + N.to_nat (fold_right N.add 0%N offers)) by lia; now rewrite firstn_add.
Qed.

(** Once all is read the destructor of a narrow body fails. *)
Lemma destroyed : forall fuel os w body w' offers outs left, char_chunks fuel os = Done w -> chunk_take w = Val (body, w') ->
  length (ctext E_NONE os) mod chunkCap <> 0 -> Forall (fun n => n < 2 ^ 32)%N offers ->
  reads offers (body, 0%N) = Done (outs, left) -> concat outs = ctext E_NONE os -> narrow_destroy (fst left) = UB.
Proof.
  intros fuel os w body w' offers outs left H T M O R C.
  destruct (char_content _ _ _ H) as (body' & w'' & T' & C' & P); rewrite T in T'; injection T' as <- <-.
  assert (V := chunkCap_val); destruct P as (full & last & B & F & L).
  assert (NE : last <> []).
  { intros ->; apply M; rewrite <- C', B, concat_app; cbn; rewrite app_nil_r.
    clear - F V; replace (length (concat full)) with (length full * chunkCap).
    - apply Nat.mod_mul; lia.
    - induction F as [|c l E F IH]; [reflexivity|]; cbn -[Nat.mul]; rewrite app_length, <- IH, E; lia. }
  assert (N1 : Forall (fun c => c <> []) body).
  { rewrite B; apply Forall_app; split; [|constructor; [exact NE|constructor]]; revert F; apply Forall_impl; intros c E ->; cbn in E; lia. }
  assert (P0 : pos_ok (body, 0%N)).
  { split; cbn [fst snd]; [|destruct body; cbn; lia]; rewrite B; apply Forall_app; split; [|constructor; [unfold small; lia|constructor]].
    revert F; apply Forall_impl; intros c E; unfold small; lia. }
  destruct (reads_ok offers _ O P0) as (st' & E1 & E2 & E3 & E4); rewrite R in E1; injection E1 as -> ->.
  assert (LV : live st').
  { apply E4; split; cbn [fst snd]; [exact N1|]; destruct body as [|c b]; [exact I|]; inversion N1; subst; destruct c; [congruence|cbn; lia]. }
  assert (Z : rest_of st' = []).
  { rewrite hand_out_all in C; rewrite E3.
    assert (LL := f_equal (@length N) C); rewrite <- C' in LL; unfold rest_of in *; cbn [fst snd N.to_nat skipn] in *.
    rewrite firstn_length in LL; apply skipn_all2; lia. }
  destruct LV as [L1 L2]; destruct st' as [[|c cs] rc]; [reflexivity|exfalso]; cbn [fst snd] in *.
  unfold rest_of in Z; cbn [fst snd concat] in Z; apply (f_equal (@length N)) in Z; rewrite skipn_length, app_length in Z; cbn in Z; lia.
Qed.

(** * Response *)
Definition rinv (r : resp) : Prop := r_reserve r = length (r_cells r) /\ r_size r <= length (r_cells r).
Definition got (r : resp) : list (option N) := firstn (r_size r) (r_cells r).

Lemma rinv_data : forall r, rinv r -> r_data r = Val (got r).
Proof. intros r [_ L]; unfold r_data; now rewrite (proj2 (Nat.leb_le _ _) L). Qed.

Lemma grow_ok : forall n r, rinv r -> exists r', grow n r = Val r' /\ rinv r' /\ got r' = got r /\ r_size r' = r_size r /\
  r_headers r' = r_headers r /\ r_size r + n <= r_reserve r'.
Proof.
  intros n r [E L]; unfold grow; destruct (Nat.ltb_spec (r_reserve r) (r_size r + n)) as [Q|Q].
  - rewrite (proj2 (Nat.leb_le _ _) L); eexists; split; [reflexivity|].
    assert (Lf : length (firstn (r_size r) (r_cells r)) = r_size r) by (rewrite firstn_length; lia).
    remember (firstn (r_size r) (r_cells r)) as g eqn:Eg.
    unfold rinv, got; change (r_cells (mkR (Some (g ++ repeat None n)) (r_size r) (r_size r + n) (r_headers r))) with (g ++ repeat None n).
    cbn [r_mem r_size r_reserve r_headers]; rewrite app_length, repeat_length, Lf.
    repeat split; try lia; rewrite <- Lf at 1; rewrite firstn_app, firstn_all, Nat.sub_diag; cbn [firstn]; rewrite app_nil_r; exact Eg.
  - exists r; repeat split; auto.
Qed.

Lemma store_ok : forall v r, rinv r -> r_size r + length v <= r_reserve r -> exists r', store v r = Val r' /\ rinv r' /\
  got r' = got r ++ map Some v /\ r_headers r' = r_headers r.
Proof.
  intros v r [E L] B; unfold store; rewrite (proj2 (Nat.leb_le _ _)) by lia; eexists; split; [reflexivity|].
  unfold rinv, got, r_cells in *; cbn [r_mem r_size r_reserve r_headers] in *; destruct (r_mem r) as [m|]; cbn [length] in *.
  - assert (Lf : length (firstn (r_size r) m) = r_size r) by (rewrite firstn_length; lia).
    split; [|split; [|reflexivity]].
    + rewrite !app_length, map_length, Lf, skipn_length; lia.
    + rewrite app_assoc, firstn_app, app_length, map_length, Lf, Nat.sub_diag; cbn [firstn]; rewrite app_nil_r.
      apply firstn_all2; rewrite app_length, map_length, Lf; lia.
  - assert (length v = 0) by lia; destruct v; [|discriminate]; cbn; rewrite !firstn_nil; repeat split; lia.
Qed.

Lemma inject_ok : forall d r, rinv r -> exists r', injectResponse d r = Val r' /\ rinv r' /\
  got r' = got r ++ map Some d /\ r_headers r' = r_headers r.
Proof.
  intros d r I; unfold injectResponse; destruct (grow_ok (length d) r I) as (r1 & E1 & I1 & G1 & S1 & H1 & B1); rewrite E1; cbn [obind].
  destruct (store_ok d r1 I1 ltac:(lia)) as (r2 & E2 & I2 & G2 & H2); exists r2; rewrite G2, G1, H2, H1; auto.
Qed.

(** ** The header callback *)
Lemma hspace_white : forall c, hspace c = white c.
Proof. intros c; unfold hspace, white; cbn; destruct (c =? 32)%N, (c =? 10)%N, (c =? 13)%N, (c =? 9)%N; reflexivity. Qed.

Lemma find_cut : forall c l, match cut_char c l with
  | None => find_from c l = length l
  | Some (a, b) => l = a ++ c :: b /\ find_from c l = length a
  end.
Proof.
  intros c; induction l as [|x l IH]; cbn; [reflexivity|]; destruct (N.eqb_spec x c) as [->|Q].
  - split; reflexivity.
  - destruct (cut_char c l) as [[a b]|]; [destruct IH as [-> IH]; cbn; rewrite IH; split; reflexivity|now rewrite IH].
Qed.

Lemma skip_front_ok : forall fuel pre l, length l < fuel ->
  skip_front fuel (pre ++ l) (length pre) = Done (length pre + (length l - length (strip_by white l))).
Proof.
  induction fuel as [|f IH]; intros pre l L; [lia|]; cbn [skip_front]; destruct l as [|c l].
  - rewrite app_nil_r, Nat.ltb_irrefl; cbn; f_equal; lia.
  - rewrite app_length; cbn [length]; rewrite (proj2 (Nat.ltb_lt _ _)) by lia; unfold rd.
    rewrite nth_error_app2, Nat.sub_diag by lia; cbn [nth_error strip_by]; rewrite hspace_white; destruct (white c).
    + replace (pre ++ c :: l) with ((pre ++ [c]) ++ l) by (rewrite <- app_assoc; reflexivity).
      replace (S (length pre)) with (length (pre ++ [c])) by (rewrite app_length; cbn; lia).
      rewrite IH by (cbn in L; lia); f_equal; rewrite app_length; cbn [length].
      assert (X : length (strip_by white l) <= length l) by (clear; induction l as [|y l IH]; cbn [strip_by length]; [lia|destruct (white y); cbn [length]; lia]).
      lia.
    + f_equal; cbn [length]; lia.
Qed.

Lemma strip_suffix : forall f l, exists p, l = p ++ strip_by f l /\ length p = length l - length (strip_by f l).
Proof.
  intros f; induction l as [|c l (p & E & L)]; [exists []; auto|]; cbn [strip_by]; destruct (f c).
  - exists (c :: p); cbn [app length]; rewrite <- E; split; [reflexivity|]; rewrite L.
    assert (X := f_equal (@length N) E); rewrite app_length in X; lia.
  - exists []; cbn; split; [reflexivity|lia].
Qed.

Lemma rev_cons_inv : forall A (l : list A) x r, rev l = x :: r -> l = rev r ++ [x].
Proof. intros A l x r H; apply (f_equal (@rev A)) in H; rewrite rev_involutive in H; exact H. Qed.

Lemma skip_back_ok : forall fuel pre l, length l < fuel ->
  skip_back fuel (pre ++ l) (length pre) (Z.of_nat (length (pre ++ l)) - 1) =
  Done (Z.of_nat (length pre + length (strip_by white (rev l))) - 1)%Z.
Proof.
  intros fuel pre l; assert (G : forall post, length l < fuel ->
    skip_back fuel (pre ++ l ++ post) (length pre) (Z.of_nat (length pre + length l) - 1) =
    Done (Z.of_nat (length pre + length (strip_by white (rev l))) - 1)%Z).
  { revert l; induction fuel as [|f IH]; intros l post L; [lia|]; cbn [skip_back].
    destruct (rev l) as [|x r] eqn:E.
    - assert (l = []) by (apply (f_equal (@rev N)) in E; rewrite rev_involutive in E; exact E); subst l; cbn [length strip_by].
      destruct (Z.leb_spec (Z.of_nat (length pre)) (Z.of_nat (length pre + 0) - 1)); [lia|reflexivity].
    - apply rev_cons_inv in E; subst l; rewrite app_length in L |- *; cbn [length] in *.
      destruct (Z.leb_spec (Z.of_nat (length pre)) (Z.of_nat (length pre + (length (rev r) + 1)) - 1)); [|lia].
      destruct (Z.ltb_spec (Z.of_nat (length pre + (length (rev r) + 1)) - 1) 0); [lia|].
      unfold rd; replace (Z.to_nat (Z.of_nat (length pre + (length (rev r) + 1)) - 1)) with (length (pre ++ rev r)) by (rewrite app_length; lia).
      replace (pre ++ (rev r ++ [x]) ++ post) with ((pre ++ rev r) ++ x :: post) by (rewrite <- !app_assoc; reflexivity).
      rewrite nth_error_app2, Nat.sub_diag by lia; cbn [nth_error strip_by]; rewrite hspace_white; destruct (white x) eqn:W.
      + replace ((pre ++ rev r) ++ x :: post) with (pre ++ rev r ++ x :: post) by (rewrite <- app_assoc; reflexivity).
        replace (Z.of_nat (length pre + (length (rev r) + 1)) - 1 - 1)%Z with (Z.of_nat (length pre + length (rev r)) - 1)%Z by lia.
        rewrite IH by lia; rewrite rev_involutive; reflexivity.
      + f_equal; cbn [length]; rewrite rev_length; lia. }
  intros L; specialize (G [] L); rewrite app_nil_r in G; rewrite app_length; exact G.
Qed.

Lemma headerCallback_ok : forall line, headerCallback line = Done (header_of line).
Proof.
  intros line; unfold headerCallback, header_of; assert (F := find_cut 58 line); destruct (cut_char 58 line) as [[k v]|].
  - destruct F as [-> F]; rewrite F, app_length; cbn [length].
    destruct (Nat.eqb_spec (length k) (length k + S (length v))); [lia|].
    replace (k ++ 58%N :: v) with ((k ++ [58%N]) ++ v) by (rewrite <- app_assoc; reflexivity).
    replace (S (length k)) with (length (k ++ [58%N])) by (rewrite app_length; cbn; lia).
    rewrite skip_front_ok by lia.
    destruct (strip_suffix white v) as (p & E & L); rewrite <- L.
    set (v1 := strip_by white v) in *; rewrite <- app_length.
    replace ((k ++ [58%N]) ++ v) with (((k ++ [58%N]) ++ p) ++ v1) by (rewrite <- app_assoc, <- E; reflexivity).
    set (pre := (k ++ [58%N]) ++ p).
    replace (Z.of_nat (length k + S (length v)) - 1)%Z with (Z.of_nat (length (pre ++ v1)) - 1)%Z.
    2:{ unfold pre; rewrite <- app_assoc, <- E, !app_length; cbn; lia. }
    rewrite skip_back_ok.
    2:{ assert (X := f_equal (@length N) E); rewrite app_length in X; lia. }
    do 3 f_equal.
    + unfold slice, pre; cbn [skipn]; rewrite Nat.sub_0_r, <- !app_assoc, firstn_app, firstn_all, Nat.sub_diag; cbn; apply app_nil_r.
    + unfold trim_by; fold v1; destruct (strip_suffix white (rev v1)) as (q & E2 & L2).
      replace (Z.to_nat (Z.of_nat (length pre + length (strip_by white (rev v1))) - 1 + 1)) with (length pre + length (strip_by white (rev v1))) by lia.
      rewrite slice_skip, skipn_app, skipn_all, Nat.sub_diag; cbn [app skipn].
      apply (f_equal (@rev N)) in E2; rewrite rev_involutive, rev_app_distr in E2.
      rewrite E2 at 2; rewrite firstn_app, <- (rev_length (strip_by white (rev v1))), firstn_all, Nat.sub_diag; cbn; apply app_nil_r.
  - now rewrite F, Nat.eqb_refl.
Qed.

(** ** Content-Length *)
Lemma stoi_digits_number : forall l v, Forall (fun c => 48 <= c <= 57)%N l -> stoi_digits l v = fold_left (fun a c => (10 * a + (Z.of_N c - 48))%Z) l v.
Proof.
  induction l as [|c l IH]; intros v F; [reflexivity|]; inversion F as [|x y F1 F2]; subst; cbn beta in F1; cbn [stoi_digits fold_left].
  unfold isdigit; rewrite (proj2 (N.leb_le 48 c)), (proj2 (N.leb_le c 57)) by lia; cbn [andb]; now apply IH.
Qed.
Lemma number_nonneg : forall l v, (0 <= v)%Z -> Forall (fun c => 48 <= c <= 57)%N l -> (0 <= fold_left (fun a c => (10 * a + (Z.of_N c - 48))%Z) l v)%Z.
Proof. induction l as [|c l IH]; intros v P F; [exact P|]; inversion F as [|x y F1 F2]; subst; cbn beta in F1; cbn [fold_left]; apply IH; auto; lia. Qed.

Lemma stoi_ok : forall l, l <> [] -> Forall (fun c => 48 <= c <= 57)%N l -> stoi l = if (number l <? 2 ^ 31)%Z then Some (number l) else None.
Proof.
  intros l NE F; unfold stoi; destruct l as [|c l]; [congruence|]; inversion F as [|x y F1 F2]; subst; cbn beta in F1.
  cbn [stoi_skip]; unfold isspace; destruct (N.eqb_spec c 32); [lia|]; destruct (N.leb_spec 9 c), (N.leb_spec c 13); try lia; cbn [andb orb].
  cbn [stoi_sign]; destruct (N.eqb_spec c 45); [lia|]; destruct (N.eqb_spec c 43); [lia|].
  unfold isdigit; rewrite (proj2 (N.leb_le 48 c)), (proj2 (N.leb_le c 57)) by lia; cbn [andb]; rewrite Z.mul_1_l.
  rewrite stoi_digits_number by exact F; fold (number (c :: l)); assert (P := number_nonneg (c :: l) 0%Z (Z.le_refl 0) F); fold (number (c :: l)) in P.
  destruct (Z.ltb_spec (number (c :: l)) (- 2 ^ 31)), (Z.ltb_spec (2 ^ 31 - 1) (number (c :: l))), (Z.ltb_spec (number (c :: l)) (2 ^ 31)); cbn [orb]; lia || reflexivity.
Qed.

Lemma list_eqb_refl : forall l, list_eqb l l = true.
Proof. induction l as [|x l IH]; [reflexivity|]; cbn; now rewrite N.eqb_refl. Qed.
Lemma list_eqb_spec : forall a b, list_eqb a b = true <-> a = b.
Proof.
  induction a as [|x a IH]; destruct b as [|y b]; cbn; split; intros H; try discriminate; auto.
  - apply andb_prop in H as [H1 H2]; apply N.eqb_eq in H1; apply IH in H2; congruence.
  - injection H as -> ->; now rewrite N.eqb_refl, list_eqb_refl.
Qed.

(** The map holds the first value of each name. *)
Lemma lookup_app : forall k a b, lookup k (a ++ b) = match lookup k a with Some v => Some v | None => lookup k b end.
Proof. intros k; induction a as [|[x v] a IH]; intros b; cbn; [reflexivity|]; destruct (list_eqb x k); auto. Qed.
Lemma lookup_emplace : forall k h l, lookup k (emplace h l) = lookup k (l ++ [h]).
Proof.
  intros k h l; unfold emplace; destruct (existsb _ l) eqn:E; [|reflexivity].
  rewrite lookup_app; destruct (lookup k l) as [v|] eqn:L; [reflexivity|].
  destruct h as [x v]; cbn; destruct (list_eqb x k) eqn:Q; [|reflexivity]; exfalso; apply list_eqb_spec in Q; subst k.
  clear - E L; induction l as [|[y w] l IH]; cbn in *; [discriminate|]; destruct (list_eqb y x); cbn in *; [discriminate|auto].
Qed.
Lemma emplace_nodup : forall h l, NoDup (map fst l) -> NoDup (map fst (emplace h l)).
Proof.
  intros h l N; unfold emplace; destruct (existsb _ l) eqn:E; [exact N|].
  rewrite map_app; cbn; assert (X : ~ In (fst h) (map fst l)).
  { intros X; apply in_map_iff in X as (x & X1 & X2); assert (Y : existsb (fun x => list_eqb (fst x) (fst h)) l = true); [|congruence].
    apply existsb_exists; exists x; split; [exact X2|]; rewrite X1; apply list_eqb_refl. }
  clear E; induction l as [|y l IH]; cbn in *; [repeat constructor; auto|]; inversion N; subst; constructor.
  - intros Z; apply in_app_iff in Z as [Z|[Z|[]]]; [auto|apply X; now left].
  - apply IH; auto.
Qed.

Definition same_map (l hs : list (list N * list N)) : Prop := NoDup (map fst l) /\ forall k, lookup k l = lookup k hs.
Lemma same_map_emplace : forall l hs h, same_map l hs -> same_map (emplace h l) (hs ++ [h]).
Proof.
  intros l hs h [N S]; split; [now apply emplace_nodup|]; intros k; rewrite lookup_emplace, !lookup_app, S; reflexivity.
Qed.

Lemma header_event_ok : forall line r hs seen, rinv r -> (seen = false -> r_size r = 0) -> same_map (r_headers r) hs -> length_ok line ->
  (seen && names_length line = false) ->
  exists r', header_event injectHeader line r = RGood r' /\ rinv r' /\ got r' = got r /\ r_size r' = r_size r /\
    same_map (r_headers r') (hs ++ headers_of [line]).
Proof.
  intros line r hs seen I S M LO SN; unfold header_event; rewrite headerCallback_ok; cbn [headers_of].
  unfold names_length, length_ok in *; unfold names_length in LO; destruct (header_of line) as [[k v]|] eqn:H.
  2:{ exists r; rewrite app_nil_r; auto. }
  unfold injectHeader; cbn [fst snd]; unfold is_content_length.
  destruct (list_eqb k (lit "Content-Length") || list_eqb k (lit "content-length")) eqn:E.
  - rewrite andb_true_r in SN; specialize (S SN); destruct (LO eq_refl) as (k' & v' & X & NE & F & B); injection X as <- <-.
    rewrite stoi_ok, (proj2 (Z.ltb_lt _ _) B) by assumption.
    assert (P := number_nonneg v 0%Z (Z.le_refl 0) F); fold (number v) in P; destruct (Z.ltb_spec (number v) 0); [lia|].
    eexists; split; [reflexivity|]; unfold rinv, got, r_cells; cbn [r_mem r_size r_reserve r_headers]; rewrite repeat_length, S.
    repeat split; try lia; [|apply same_map_emplace, M]; apply emplace_nodup, M.
  - eexists; split; [reflexivity|]; unfold rinv, got, r_cells in *; cbn [r_mem r_size r_reserve r_headers]; repeat split; try apply I;
      [apply emplace_nodup, M|apply same_map_emplace, M].
Qed.

Lemma headers_of_cons : forall l ls, headers_of (l :: ls) = headers_of [l] ++ headers_of ls.
Proof. intros l ls; cbn; destruct (header_of l); reflexivity. Qed.

Lemma narrow_gen : forall es r hs seen, rinv r -> (seen = false -> r_size r = 0) -> same_map (r_headers r) hs ->
  Forall length_ok (lines_of es) -> length_first seen es = true ->
  exists r', respond narrow_event es r = RGood r' /\ rinv r' /\ got r' = got r ++ map Some (body_of es) /\
    same_map (r_headers r') (hs ++ headers_of (lines_of es)).
Proof.
  induction es as [|e es IH]; intros r hs seen I S M LO LF.
  { exists r; cbn; rewrite !app_nil_r; auto. }
  destruct e as [line|d]; cbn [respond narrow_event lines_of body_of length_first] in *.
  - inversion LO; subst; apply andb_prop in LF as [L1 L2]; apply negb_true_iff in L1.
    destruct (header_event_ok line r hs seen) as (r1 & E1 & I1 & G1 & S1 & M1); auto; rewrite E1.
    destruct (IH r1 (hs ++ headers_of [line]) seen I1) as (r2 & E2 & I2 & G2 & M2); auto; [intros Q; rewrite S1; auto|].
    exists r2; rewrite E2, G2, G1; split; [reflexivity|]; split; [exact I2|]; split; [reflexivity|].
    rewrite headers_of_cons, app_assoc; exact M2.
  - destruct (inject_ok d r I) as (r1 & E1 & I1 & G1 & H1); rewrite E1.
    destruct (IH r1 hs true I1) as (r2 & E2 & I2 & G2 & M2); auto; [discriminate|now rewrite H1|].
    exists r2; rewrite E2, G2, G1, map_app, <- app_assoc; auto.
Qed.

Lemma rinv_init : rinv resp_init.
Proof. split; cbn; lia. Qed.
Lemma same_init : same_map (r_headers resp_init) [].
Proof. split; [constructor|reflexivity]. Qed.

Lemma narrow_response : forall es, Forall length_ok (lines_of es) -> length_first false es = true ->
  exists r, respond narrow_event es resp_init = RGood r /\ r_data r = Val (map Some (body_of es)) /\
    NoDup (map fst (r_headers r)) /\ forall k, lookup k (r_headers r) = lookup k (headers_of (lines_of es)).
Proof.
  intros es LO LF; destruct (narrow_gen es resp_init [] false rinv_init (fun _ => eq_refl) same_init LO LF) as (r & E & I & G & M1 & M2).
  exists r; split; [exact E|]; split; [rewrite rinv_data, G by exact I; reflexivity|]; split; [exact M1|exact M2].
Qed.

(** ** Wide text *)
Lemma continuation_ok : forall n, continuation (128 + n mod 64) = true.
Proof.
  intros n; assert (L : (n mod 64 < 64)%N) by (apply N.mod_lt; discriminate).
  assert (A : forallb (fun k => continuation (128 + k)) (map N.of_nat (seq 0 64)) = true) by (vm_compute; reflexivity).
  rewrite forallb_forall in A; apply A; apply in_map_iff; exists (N.to_nat (n mod 64)); split; [lia|apply in_seq; lia].
Qed.

Lemma read_char : forall strict c r, scalar c -> read_code_point strict (utf8_1 c ++ r) = MbChar c r.
Proof.
  intros strict c r S; unfold scalar in S.
  assert (D1 := N.div_mod c 64 ltac:(discriminate)); assert (M1 := N.mod_lt c 64 ltac:(discriminate)).
  assert (D2 := N.div_mod (c / 64) 64 ltac:(discriminate)); assert (M2 := N.mod_lt (c / 64) 64 ltac:(discriminate)).
  assert (D3 := N.div_mod (c / 64 / 64) 64 ltac:(discriminate)); assert (M3 := N.mod_lt (c / 64 / 64) 64 ltac:(discriminate)).
  assert (Q4 : (c / 4096 = c / 64 / 64)%N) by (rewrite N.div_div by discriminate; reflexivity).
  assert (Q5 : (c / 262144 = c / 64 / 64 / 64)%N) by (rewrite !N.div_div by discriminate; reflexivity).
  unfold utf8_1; destruct (N.ltb_spec c 128).
  { cbn [app read_code_point]; destruct (N.ltb_spec c 128); [reflexivity|lia]. }
  destruct (N.ltb_spec c 2048).
  { cbn [app read_code_point]; set (a := (c / 64)%N) in *; set (b := (c mod 64)%N) in *.
    destruct (N.ltb_spec (192 + a) 128); [lia|]; destruct (N.ltb_spec (192 + a) 194); [lia|]; destruct (N.ltb_spec (192 + a) 224); [|lia].
    unfold b at 1; rewrite continuation_ok; cbn [negb]; f_equal; rewrite N.shiftl_mul_pow2; change (2 ^ 6)%N with 64%N; lia. }
  destruct (N.ltb_spec c 65536).
  { cbn [app read_code_point]; rewrite !continuation_ok, Q4; cbn [negb].
    set (a := (c / 64 / 64)%N) in *; set (b := (c mod 64)%N) in *; set (d := (c / 64 mod 64)%N) in *; set (e := (c / 64)%N) in *.
    destruct (N.ltb_spec (224 + a) 128); [lia|]; destruct (N.ltb_spec (224 + a) 194); [lia|]; destruct (N.ltb_spec (224 + a) 224); [lia|].
    destruct (N.ltb_spec (224 + a) 240); [|lia].
    destruct (N.eqb_spec (224 + a) 224), (N.ltb_spec (128 + d) 160); cbn [andb]; try lia;
      destruct strict, (N.eqb_spec (224 + a) 237), (N.leb_spec 160 (128 + d)); cbn [andb]; try lia;
      f_equal; rewrite !N.shiftl_mul_pow2; change (2 ^ 6)%N with 64%N; change (2 ^ 12)%N with 4096%N; lia. }
  cbn [app read_code_point]; rewrite !continuation_ok, Q4, Q5; cbn [negb].
  set (a := (c / 64 / 64 / 64)%N) in *; set (b := (c mod 64)%N) in *; set (d := (c / 64 mod 64)%N) in *; set (g := (c / 64 / 64 mod 64)%N) in *;
    set (h := (c / 64 / 64)%N) in *; set (e := (c / 64)%N) in *.
  destruct (N.ltb_spec (240 + a) 128); [lia|]; destruct (N.ltb_spec (240 + a) 194); [lia|]; destruct (N.ltb_spec (240 + a) 224); [lia|].
  destruct (N.ltb_spec (240 + a) 240); [lia|]; destruct (N.ltb_spec (240 + a) 245); [|lia].
  destruct (N.eqb_spec (240 + a) 240), (N.ltb_spec (128 + g) 144); cbn [andb]; try lia;
    destruct (N.eqb_spec (240 + a) 244), (N.leb_spec 144 (128 + g)); cbn [andb]; try lia;
    f_equal; rewrite !N.shiftl_mul_pow2; change (2 ^ 6)%N with 64%N; change (2 ^ 12)%N with 4096%N; change (2 ^ 18)%N with 262144%N; lia.
Qed.

Lemma read_cut : forall strict c p q, scalar c -> utf8_1 c = p ++ q -> p <> [] -> q <> [] -> read_code_point strict p = MbIncomplete.
Proof.
  intros strict c p q S E P Q; unfold scalar in S.
  assert (Q4 : (c / 4096 = c / 64 / 64)%N) by (rewrite N.div_div by discriminate; reflexivity).
  assert (Q5 : (c / 262144 = c / 64 / 64 / 64)%N) by (rewrite !N.div_div by discriminate; reflexivity).
  assert (D1 := N.div_mod c 64 ltac:(discriminate)); assert (M1 := N.mod_lt c 64 ltac:(discriminate)).
  assert (D2 := N.div_mod (c / 64) 64 ltac:(discriminate)); assert (M2 := N.mod_lt (c / 64) 64 ltac:(discriminate)).
  assert (D3 := N.div_mod (c / 64 / 64) 64 ltac:(discriminate)); assert (M3 := N.mod_lt (c / 64 / 64) 64 ltac:(discriminate)).
  unfold utf8_1 in E; rewrite Q4, Q5 in E; destruct p as [|x p]; [congruence|]; clear P; cbn [app] in E.
  assert (Lq : 0 < length q) by (destruct q; [congruence|cbn; lia]).
  assert (K : forall (y : N) l, y :: l = x :: p ++ q -> x = y /\ length p < length l).
  { intros y l H; assert (X := f_equal (@length N) H); split; [now inversion H|]; cbn [length] in X; rewrite app_length in X; lia. }
  destruct (N.ltb_spec c 128).
  { apply K in E as [_ E]; cbn in E; lia. }
  destruct (N.ltb_spec c 2048).
  { apply K in E as [-> E]; destruct p as [|y p]; [|cbn in E; lia].
    cbn [read_code_point]; destruct (N.ltb_spec (192 + c / 64) 128); [lia|]; destruct (N.ltb_spec (192 + c / 64) 194); [lia|].
    destruct (N.ltb_spec (192 + c / 64) 224); [reflexivity|lia]. }
  destruct (N.ltb_spec c 65536).
  { apply K in E as [-> E]; cbn [read_code_point]; set (a := (c / 64 / 64)%N) in *; set (e := (c / 64)%N) in *.
    destruct (N.ltb_spec (224 + a) 128); [lia|]; destruct (N.ltb_spec (224 + a) 194); [lia|]; destruct (N.ltb_spec (224 + a) 224); [lia|].
    destruct (N.ltb_spec (224 + a) 240); [|lia].
    destruct p as [|y [|z p]]; [reflexivity|reflexivity|cbn in E; lia]. }
  apply K in E as [-> E]; cbn [read_code_point]; set (a := (c / 64 / 64 / 64)%N) in *; set (h := (c / 64 / 64)%N) in *; set (e := (c / 64)%N) in *.
  destruct (N.ltb_spec (240 + a) 128); [lia|]; destruct (N.ltb_spec (240 + a) 194); [lia|]; destruct (N.ltb_spec (240 + a) 224); [lia|].
  destruct (N.ltb_spec (240 + a) 240); [lia|]; destruct (N.ltb_spec (240 + a) 245); [|lia].
  destruct p as [|y [|z [|t p]]]; [reflexivity|reflexivity|reflexivity|cbn in E; lia].
Qed.

Lemma ucs4_in_text : forall strict u fuel tail room acc, Forall scalar u -> length u <= room -> length u <= fuel ->
  ucs4_in strict fuel (utf8 u ++ tail) room acc = ucs4_in strict (fuel - length u) tail (room - length u) (acc ++ u).
Proof.
  intros strict; induction u as [|c u IH]; intros fuel tail room acc S R F.
  - cbn; rewrite app_nil_r, !Nat.sub_0_r; reflexivity.
  - inversion S; subst; cbn [length] in *; destruct fuel as [|f]; [lia|]; destruct room as [|m]; [lia|].
    cbn [utf8 flat_map]; fold (utf8 u); rewrite <- app_assoc; cbn [ucs4_in].
    assert (L := utf8_1_length c); destruct (utf8_1 c ++ utf8 u ++ tail) as [|x r] eqn:E.
    { apply (f_equal (@length N)) in E; rewrite app_length in E; cbn in E; lia. }
    rewrite <- E, read_char by assumption; rewrite IH by (auto; lia); cbn [Nat.sub]; rewrite <- app_assoc; reflexivity.
Qed.

Lemma length_utf8 : forall u, length u <= length (utf8 u).
Proof. induction u as [|c u IH]; cbn; [lia|]; fold (utf8 u); rewrite app_length; assert (L := utf8_1_length c); lia. Qed.

Lemma ucs4_in_whole : forall strict u room, Forall scalar u -> length u <= room -> ucs4_in strict (length (utf8 u)) (utf8 u) room [] = InOk u.
Proof.
  intros strict u room S R; rewrite <- (app_nil_r (utf8 u)) at 2; rewrite ucs4_in_text by (auto; apply length_utf8).
  cbn [app]; now destruct (length (utf8 u) - length u).
Qed.
Lemma from_bytes_ok : forall strict u, Forall scalar u -> from_bytes strict (utf8 u) = Some u.
Proof. intros strict u S; unfold from_bytes; rewrite ucs4_in_whole; auto using length_utf8. Qed.

Lemma injectW_ok : forall strict u r, rinv r -> Forall scalar u -> exists r', injectResponseW strict (utf8 u) r = Val (r', length (utf8 u)) /\
  rinv r' /\ got r' = got r ++ map Some u /\ r_headers r' = r_headers r.
Proof.
  intros strict u r I S; unfold injectResponseW; destruct (grow_ok (length (utf8 u)) r I) as (r1 & E1 & I1 & G1 & S1 & H1 & B1); rewrite E1; cbn [obind].
  assert (L := length_utf8 u); rewrite ucs4_in_whole by (auto; lia).
  destruct (store_ok u r1 I1 ltac:(lia)) as (r2 & E2 & I2 & G2 & H2); rewrite E2; exists r2; cbn [obind]; rewrite G2, G1, H2, H1; auto.
Qed.

Lemma injectW_cut : forall strict u c p q r, rinv r -> Forall scalar u -> scalar c -> utf8_1 c = p ++ q -> p <> [] -> q <> [] ->
  exists r', injectResponseW strict (utf8 u ++ p) r = Val (r', length (utf8 u)) /\ got r' = got r ++ map Some u.
Proof.
  intros strict u c p q r I S C E P Q; unfold injectResponseW; destruct (grow_ok (length (utf8 u ++ p)) r I) as (r1 & E1 & I1 & G1 & S1 & H1 & B1).
  rewrite E1; cbn [obind]; assert (L := length_utf8 u); rewrite app_length in *.
  assert (LP : 0 < length p) by (destruct p; [congruence|cbn; lia]).
  rewrite ucs4_in_text by (auto; lia).
  assert (X : ucs4_in strict (length (utf8 u) + length p - length u) p (r_reserve r1 - r_size r1 - length u) ([] ++ u) = InPartial u p).
  { destruct (length (utf8 u) + length p - length u) as [|f] eqn:F; [lia|].
    destruct (r_reserve r1 - r_size r1 - length u) as [|m] eqn:M; [lia|].
    cbn [ucs4_in]; destruct p as [|x p'] eqn:PP; [congruence|]; rewrite <- PP in *.
    rewrite (read_cut strict c p q) by auto; reflexivity. }
  rewrite X; destruct (store_ok u r1 I1 ltac:(lia)) as (r2 & E2 & I2 & G2 & H2); rewrite E2; exists r2; cbn [obind].
  rewrite G2, G1; split; [do 2 f_equal; lia|reflexivity].
Qed.

(** Header lines of characters. *)
Lemma utf8_1_ascii : forall c, (c < 128)%N -> utf8_1 c = [c].
Proof. intros c L; unfold utf8_1; destruct (N.ltb_spec c 128); [reflexivity|lia]. Qed.
Lemma utf8_1_high : forall c, (128 <= c)%N -> Forall (fun b => 128 <= b)%N (utf8_1 c).
Proof.
  intros c L; unfold utf8_1; destruct (N.ltb_spec c 128); [lia|].
  destruct (_ <? 2048)%N; [|destruct (_ <? 65536)%N]; repeat (apply Forall_cons; [lia|]); constructor.
Qed.

Lemma cut_high : forall b r, Forall (fun b => 128 <= b)%N b ->
  cut_char 58 (b ++ r) = match cut_char 58 r with Some (x, y) => Some (b ++ x, y) | None => None end.
Proof.
  induction b as [|x b IH]; intros r F; cbn [app cut_char]; [destruct (cut_char 58 r) as [[? ?]|]; reflexivity|].
  inversion F as [|y z F1 F2]; subst; cbn beta in F1; destruct (N.eqb_spec x 58); [lia|]; rewrite IH by exact F2.
  destruct (cut_char 58 r) as [[? ?]|]; reflexivity.
Qed.
Lemma cut_utf8 : forall l, cut_char 58 (utf8 l) = match cut_char 58 l with Some (x, y) => Some (utf8 x, utf8 y) | None => None end.
Proof.
  induction l as [|c l IH]; [reflexivity|]; cbn [utf8 flat_map cut_char]; fold (utf8 l).
  destruct (N.ltb_spec c 128) as [L|L].
  - rewrite utf8_1_ascii by exact L; cbn [app cut_char]; destruct (c =? 58)%N; [reflexivity|]; rewrite IH; destruct (cut_char 58 l) as [[x y]|]; [|reflexivity].
    cbn [utf8 flat_map]; rewrite utf8_1_ascii by exact L; reflexivity.
  - rewrite cut_high by (now apply utf8_1_high); destruct (N.eqb_spec c 58); [lia|]; rewrite IH; destruct (cut_char 58 l) as [[x y]|]; reflexivity.
Qed.

Lemma white_high : forall c, (128 <= c)%N -> white c = false.
Proof.
  intros c L; unfold white; cbn [existsb]; destruct (N.eqb_spec c 32), (N.eqb_spec c 9), (N.eqb_spec c 10), (N.eqb_spec c 13); try lia; reflexivity.
Qed.
Lemma strip_high : forall b r, b <> [] -> Forall (fun b => 128 <= b)%N b -> strip_by white (b ++ r) = b ++ r.
Proof. intros b r NE F; destruct b as [|x b]; [congruence|]; inversion F; subst; cbn [app strip_by]; now rewrite white_high. Qed.
Lemma utf8_1_nonempty : forall c, utf8_1 c <> [].
Proof. intros c E; assert (L := utf8_1_length c); rewrite E in L; cbn in L; lia. Qed.

Lemma strip_utf8 : forall l, strip_by white (utf8 l) = utf8 (strip_by white l).
Proof.
  induction l as [|c l IH]; [reflexivity|]; cbn [utf8 flat_map strip_by]; fold (utf8 l); destruct (N.ltb_spec c 128) as [L|L].
  - rewrite utf8_1_ascii by exact L; cbn [app strip_by]; destruct (white c); [exact IH|]; cbn [utf8 flat_map]; now rewrite utf8_1_ascii by exact L.
  - rewrite white_high, strip_high by (auto using utf8_1_nonempty, utf8_1_high); reflexivity.
Qed.
Lemma strip_rev_utf8 : forall l, strip_by white (rev (utf8 l)) = rev (utf8 (rev (strip_by white (rev l)))).
Proof.
  intros l; rewrite <- (rev_involutive l) at 1; generalize (rev l) as m; clear l; induction m as [|c m IH]; [reflexivity|].
  cbn [rev strip_by]; rewrite utf8_app, rev_app_distr; cbn [utf8 flat_map]; rewrite app_nil_r; destruct (N.ltb_spec c 128) as [L|L].
  - rewrite utf8_1_ascii by exact L; cbn [rev app strip_by]; destruct (white c) eqn:W; [exact IH|].
    cbn [rev]; rewrite utf8_app, rev_app_distr; cbn [utf8 flat_map]; rewrite utf8_1_ascii by exact L; reflexivity.
  - rewrite white_high by exact L; rewrite strip_high.
    + cbn [rev]; rewrite utf8_app, rev_app_distr; cbn [utf8 flat_map]; rewrite app_nil_r; reflexivity.
    + intros E; apply (f_equal (@length N)) in E; rewrite rev_length in E; assert (X := utf8_1_length c); cbn in E; lia.
    + apply Forall_rev; now apply utf8_1_high.
Qed.

Lemma header_utf8 : forall l, header_of (utf8 l) = match header_of l with Some (k, v) => Some (utf8 k, utf8 v) | None => None end.
Proof.
  intros l; unfold header_of; rewrite cut_utf8; destruct (cut_char 58 l) as [[k v]|]; [|reflexivity].
  unfold trim_by; rewrite strip_utf8, strip_rev_utf8, rev_involutive; reflexivity.
Qed.

Lemma cut_parts : forall c l a b, cut_char c l = Some (a, b) -> l = a ++ c :: b.
Proof. intros c l a b H; assert (F := find_cut c l); rewrite H in F; apply F. Qed.
Lemma trim_sub : forall f l, exists p q, l = p ++ trim_by f l ++ q.
Proof.
  intros f l; unfold trim_by; destruct (strip_suffix f l) as (p & E & _); destruct (strip_suffix f (rev (strip_by f l))) as (q & E2 & _).
  exists p, (rev q); rewrite E at 1; f_equal; apply (f_equal (@rev N)) in E2; rewrite rev_involutive, rev_app_distr in E2; exact E2.
Qed.
Lemma header_scalar : forall l k v, Forall scalar l -> header_of l = Some (k, v) -> Forall scalar k /\ Forall scalar v.
Proof.
  intros l k v S H; unfold header_of in H; destruct (cut_char 58 l) as [[a b]|] eqn:C; [|discriminate]; injection H as <- <-.
  apply cut_parts in C; subst l; apply Forall_app in S as [S1 S2]; inversion S2; subst; split; [exact S1|].
  destruct (trim_sub white b) as (p & q & E); rewrite E in H2; apply Forall_app in H2 as [_ H2]; apply Forall_app in H2 as [H2 _]; exact H2.
Qed.

Lemma wide_header_event : forall strict l r, Forall scalar l -> header_event (injectHeaderW strict) (utf8 l) r = header_event injectHeader l r.
Proof.
  intros strict l r S; unfold header_event; rewrite !headerCallback_ok, header_utf8; destruct (header_of l) as [[k v]|] eqn:H; [|reflexivity].
  destruct (header_scalar _ _ _ S H); unfold injectHeaderW; cbn [fst snd]; rewrite !from_bytes_ok by assumption; reflexivity.
Qed.

Lemma wide_gen : forall strict es r hs seen, rinv r -> (seen = false -> r_size r = 0) -> same_map (r_headers r) hs -> Forall event_scalar es ->
  Forall length_ok (lines_of es) -> length_first seen es = true ->
  exists r', respond (wide_event strict) (map event_utf8 es) r = RGood r' /\ rinv r' /\ got r' = got r ++ map Some (body_of es) /\
    same_map (r_headers r') (hs ++ headers_of (lines_of es)).
Proof.
  intros strict; induction es as [|e es IH]; intros r hs seen I S M SC LO LF.
  { exists r; cbn; rewrite !app_nil_r; auto. }
  inversion SC as [|x y C1 C2]; subst; destruct e as [line|d]; cbn [map event_utf8 respond wide_event lines_of body_of length_first] in *.
  - inversion LO; subst; apply andb_prop in LF as [L1 L2]; apply negb_true_iff in L1; rewrite wide_header_event by exact C1.
    destruct (header_event_ok line r hs seen) as (r1 & E1 & I1 & G1 & S1 & M1); auto; rewrite E1.
    destruct (IH r1 (hs ++ headers_of [line]) seen I1) as (r2 & E2 & I2 & G2 & M2); auto; [intros Q; rewrite S1; auto|].
    exists r2; rewrite E2, G2, G1; split; [reflexivity|]; split; [exact I2|]; split; [reflexivity|].
    rewrite headers_of_cons, app_assoc; exact M2.
  - destruct (injectW_ok strict d r I C1) as (r1 & E1 & I1 & G1 & H1); rewrite E1, Nat.eqb_refl.
    destruct (IH r1 hs true I1) as (r2 & E2 & I2 & G2 & M2); auto; [discriminate|now rewrite H1|].
    exists r2; rewrite E2, G2, G1, map_app, <- app_assoc; auto.
Qed.

Lemma wide_response : forall strict es, Forall event_scalar es -> Forall length_ok (lines_of es) -> length_first false es = true ->
  exists r, respond (wide_event strict) (map event_utf8 es) resp_init = RGood r /\ r_data r = Val (map Some (body_of es)) /\
    NoDup (map fst (r_headers r)) /\ forall k, lookup k (r_headers r) = lookup k (headers_of (lines_of es)).
Proof.
  intros strict es SC LO LF; destruct (wide_gen strict es resp_init [] false rinv_init (fun _ => eq_refl) same_init SC LO LF) as (r & E & I & G & M1 & M2).
  exists r; split; [exact E|]; split; [rewrite rinv_data, G by exact I; reflexivity|]; split; [exact M1|exact M2].
Qed.

(** A character split between two callbacks ends the transfer. *)
Lemma wide_split : forall strict u c p q es, Forall scalar u -> scalar c -> utf8_1 c = p ++ q -> p <> [] -> q <> [] ->
  exists r, respond (wide_event strict) (RData (utf8 u ++ p) :: es) resp_init = RShort r /\ r_data r = Val (map Some u).
Proof.
  intros strict u c p q es S C E P Q; destruct (injectW_cut strict u c p q resp_init rinv_init S C E P Q) as (r & X & G).
  cbn [respond wide_event]; rewrite X, app_length; destruct (Nat.eqb_spec (length (utf8 u)) (length (utf8 u) + length p)) as [Z|Z].
  { destruct p; [congruence|cbn in Z; lia]. }
  exists r; split; [reflexivity|].
  unfold injectResponseW in X; destruct (grow_ok (length (utf8 u ++ p)) resp_init rinv_init) as (r1 & E1 & I1 & _).
  rewrite E1 in X; cbn [obind] in X; revert G X; cbn [got resp_init]; intros G X.
  assert (IV : rinv r).
  { destruct (ucs4_in _ _ _ _ _); cbn [obind] in X.
    - destruct (store u0 r1) eqn:ST; [|discriminate]; cbn [obind] in X; injection X as <- _; unfold store in ST.
      destruct (Nat.leb_spec (r_size r1 + length u0) (length (r_cells r1))) as [B|B]; [|discriminate].
      destruct (store_ok u0 r1 I1) as (r2 & F1 & F2 & _); [rewrite (proj1 I1); exact B|].
      unfold store in F1; rewrite (proj2 (Nat.leb_le _ _) B) in F1; congruence.
    - destruct (store u0 r1) eqn:ST; [|discriminate]; cbn [obind] in X; injection X as <- _; unfold store in ST.
      destruct (Nat.leb_spec (r_size r1 + length u0) (length (r_cells r1))) as [B|B]; [|discriminate].
      destruct (store_ok u0 r1 I1) as (r2 & F1 & F2 & _); [rewrite (proj1 I1); exact B|].
      unfold store in F1; rewrite (proj2 (Nat.leb_le _ _) B) in F1; congruence.
    - injection X as <- _; exact I1. }
  rewrite rinv_data, G by exact IV; reflexivity.
Qed.

(** ** What goes wrong *)
Definition cl_line (v : string) : list N := lit "Content-Length: " ++ lit v ++ [13; 10]%N.

(** A length behind the data discards them. *)
Lemma late_length : exists es r, Forall length_ok (lines_of es) /\ respond narrow_event es resp_init = RGood r /\
  body_of es <> [] /\ r_data r = Val (repeat None (length (body_of es))).
Proof.
  exists [RData [72; 105]%N; RHeader (cl_line "2")]; eexists; split; [|split; [vm_compute; reflexivity|]; split; [discriminate|vm_compute; reflexivity]].
  repeat constructor; intros _; exists (lit "Content-Length"), (lit "2"); split; [vm_compute; reflexivity|]; split; [discriminate|].
  split; [repeat constructor; cbn; lia|vm_compute; reflexivity].
Qed.
Lemma late_length_ub : exists es, Forall length_ok (lines_of es) /\ respond narrow_event es resp_init = RUndef.
Proof.
  exists [RData [72; 105]%N; RHeader (cl_line "0"); RData [72]%N]; split; [|vm_compute; reflexivity].
  repeat constructor; intros _; exists (lit "Content-Length"), (lit "0"); split; [vm_compute; reflexivity|]; split; [discriminate|].
  split; [repeat constructor; cbn; lia|vm_compute; reflexivity].
Qed.
(** A body of 2 GiB or more ends the process. *)
Lemma big_length : forall k v line, header_of line = Some (k, v) -> names_length line = true -> v <> [] ->
  Forall (fun c => 48 <= c <= 57)%N v -> (2 ^ 31 <= number v)%Z -> forall es, respond narrow_event (RHeader line :: es) resp_init = RThrow.
Proof.
  intros k v line H N NE F B es; cbn [respond narrow_event]; unfold header_event; rewrite headerCallback_ok, H.
  unfold names_length in N; rewrite H in N; unfold injectHeader; cbn [fst snd]; unfold is_content_length; rewrite N, stoi_ok by assumption.
  destruct (Z.ltb_spec (number v) (2 ^ 31)); [lia|reflexivity].
Qed.
(** One bad byte loses the whole piece, in silence. *)
Lemma bad_byte : exists d r, respond (wide_event true) [RData d] resp_init = RGood r /\ r_data r = Val [] /\ 2 <= length d.
Proof. exists [72; 105; 255]%N; eexists; split; [vm_compute; reflexivity|]; split; [vm_compute; reflexivity|cbn; lia]. Qed.
