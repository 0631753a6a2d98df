(** When writing to a chunked buffer of narrow characters ends. *)
From Coq Require Import List NArith Bool Arith Lia.
From Verif Require Import Model.Base Model.WebMaps Model.Streams Model.Chunks Spec.StreamSpec Spec.ChunkSpec
  Proofs.StreamProofs Proofs.ChunkProofs.
Import ListNotations.

Lemma mapped_stop : forall e s pend cap c b pend',
  put_mapped (enc_table e) s pend cap = (c :: b, pend') -> cap - length pend' < length (escape1 e c).
Proof.
  intros e. induction s as [|x s IH]; intros pend cap c b pend' H; cbn [put_mapped] in H; [discriminate|].
  pose proof (table_escape e x) as TE.
  assert (G : forall m, m = escape1 e x -> (if Nat.ltb (cap - length pend) (length m) then (x :: s, pend)
      else put_mapped (enc_table e) s (pend ++ m) cap) = (c :: b, pend') -> cap - length pend' < length (escape1 e c)).
  { intros m -> G. destruct (Nat.ltb_spec (cap - length pend) (length (escape1 e x))).
    - injection G as <- <- <-. assumption.
    - eapply IH. exact G. }
  destruct (map_find (enc_table e) x) as [m|]; eapply G; eauto.
Qed.

Lemma pass_stop : forall Dev s (w : wsb Dev) c b w', put_pass s w = (c :: b, w') ->
  w_cap w - length (w_pend w') < length (escape (w_enc w) [c]).
Proof.
  intros Dev s w c b w' H. unfold put_pass in H. destruct (w_enc w) eqn:E.
  - injection H as H <-. cbn [w_pend escape length].
    apply (f_equal (@length N)) in H. rewrite skipn_length in H. cbn [length] in H.
    rewrite app_length, firstn_length. lia.
  - destruct (put_mapped (enc_table E_HTML) s (w_pend w) (w_cap w)) as [s1 p1] eqn:P. injection H as -> <-. cbn [w_pend].
    apply mapped_stop in P. rewrite escape_flat. cbn [flat_map]. rewrite app_nil_r. exact P.
  - destruct (put_mapped (enc_table E_URL) s (w_pend w) (w_cap w)) as [s1 p1] eqn:P. injection H as -> <-. cbn [w_pend].
    apply mapped_stop in P. rewrite escape_flat. cbn [flat_map]. rewrite app_nil_r. exact P.
Qed.

Lemma cinv_pos : forall w t, cinv w t -> exists k, length t = k * w_cap w + length (w_pend w).
Proof.
  intros w t [L C E F T]. subst t. exists (length (c_full (w_dev w))). rewrite app_length. f_equal.
  induction F as [|x l HX HF IH]; [reflexivity|]. cbn [concat length Nat.mul]. rewrite app_length. lia.
Qed.

Lemma pos_mod : forall k cap n, n < cap -> (k * cap + n) mod cap = n.
Proof. intros k cap n H. rewrite Nat.add_comm, Nat.mod_add by lia. now apply Nat.mod_small. Qed.

Lemma xsputn_ends : forall fuel s w t, cinv w t ->
  (forall a c b, s = a ++ c :: b ->
     (length t + length (escape (w_enc w) a)) mod w_cap w + length (escape (w_enc w) [c]) <= w_cap w) ->
  length s + (if length (w_pend w) <? w_cap w then 1 else 2) <= fuel ->
  exists w', xsputn emptyBuffer_chunk fuel s w = Done w'.
Proof.
  induction fuel as [|f IH]; intros s w t I Q L.
  { destruct (_ <? _); lia. }
  cbn [xsputn]. destruct (put_pass s w) as [s1 w1] eqn:P. destruct s1 as [|c b]; [now exists w1|].
  pose proof (pass_stop _ _ _ _ _ _ P) as ST.
  pose proof (put_pass_ok _ _ _ _ _ P (ci_len _ _ I)) as (tk & TK & PE & _).
  destruct (pass_inv _ _ _ _ _ I P) as (taken & S & I1 & E1 & C1).
  assert (tk = taken) by (apply (app_inv_tail (c :: b)); congruence). subst tk s.
  destruct (cinv_pos _ _ I1) as (k & K). rewrite app_length in K.
  pose proof (Q taken c b eq_refl) as QC. rewrite K, C1 in QC.
  assert (F : length (w_pend w1) = w_cap w).
  { destruct I1 as [L1 _ _ _ _]. rewrite C1 in L1.
    destruct (Nat.eq_dec (length (w_pend w1)) (w_cap w)); [assumption|].
    rewrite pos_mod in QC by lia. lia. }
  destruct (eb_chunk w1 _ I1) as (w2 & X & I2 & E2 & C2 & L2 & _). rewrite X.
  apply (IH _ _ _ I2).
  - intros a c' b' HS. rewrite E2, E1, C2, C1, app_length.
    specialize (Q (taken ++ a) c' b'). rewrite escape_app, app_length, Nat.add_assoc in Q. apply Q.
    now rewrite HS, <- app_assoc.
  - rewrite C2, (proj2 (Nat.ltb_lt _ _) L2). rewrite app_length in L. cbn [length] in *.
    destruct (Nat.ltb_spec (length (w_pend w)) (w_cap w)) as [R|R]; [|lia].
    destruct taken as [|x taken]; [|cbn [length] in L; lia].
    assert (escape (w_enc w) [] = []) as EN by (destruct (w_enc w); reflexivity).
    rewrite EN, app_nil_r in PE. rewrite PE in F. lia.
Qed.

Lemma xsputn_spins : forall fuel w t a c b, cinv w t ->
  w_cap w < (length t + length (escape (w_enc w) a)) mod w_cap w + length (escape (w_enc w) [c]) ->
  xsputn emptyBuffer_chunk fuel (a ++ c :: b) w = Spin.
Proof.
  induction fuel as [|f IH]; intros w t a c b I Q; [reflexivity|].
  cbn [xsputn]. destruct (put_pass (a ++ c :: b) w) as [s1 w1] eqn:P.
  pose proof (put_pass_ok _ _ _ _ _ P (ci_len _ _ I)) as (tk & TK & PE & PL & _).
  destruct (pass_inv _ _ _ _ _ I P) as (taken & S & I1 & E1 & C1).
  assert (tk = taken) by (apply (app_inv_tail s1); congruence). subst tk. clear TK.
  assert (X : exists a', a = taken ++ a' /\ s1 = a' ++ c :: b).
  { apply app_eq_app in S. destruct S as (l & [(H1 & H2)|(H1 & H2)]).
    - exists l. auto.
    - destruct l as [|x l].
      + exists []. rewrite app_nil_r in *. cbn in H2. subst. auto.
      + exfalso. cbn in H2. injection H2 as <- H2. subst taken.
        change (c :: l) with ([c] ++ l) in PE. rewrite !escape_app in PE. apply (f_equal (@length N)) in PE.
        rewrite !app_length in PE. destruct (cinv_pos _ _ I) as (k & K). rewrite K in Q.
        pose proof (ci_cap _ _ I) as CP.
        pose proof (Nat.mod_upper_bound (k * w_cap w + length (w_pend w) + length (escape (w_enc w) a)) (w_cap w) ltac:(lia)) as MB.
        rewrite <- Nat.add_assoc in Q. rewrite pos_mod in Q by lia. lia. }
  destruct X as (a' & -> & ->).
  destruct (eb_chunk w1 _ I1) as (w2 & X & I2 & E2 & C2 & _). rewrite X.
  assert (Y : xsputn emptyBuffer_chunk f (a' ++ c :: b) w2 = Spin).
  { apply (IH w2 _ a' c b I2). rewrite E2, E1, C2, C1, app_length.
    rewrite escape_app, app_length, Nat.add_assoc in Q. exact Q. }
  destruct (a' ++ c :: b) as [|x y] eqn:Z; [now destruct a'|]. exact Y.
Qed.

(** ** Histories *)
Definition bad (cap pos : nat) (e : encoding) (os : list cop) : Prop :=
  exists pre a c b post, os = pre ++ CWrite (a ++ c :: b) :: post /\
    cap < (pos + length (ctext e pre) + length (escape (enc_after e pre) a)) mod cap
          + length (escape (enc_after e pre) [c]).

Lemma ctext_one : forall e o os, ctext e (o :: os) = ctext e [o] ++ ctext (match o with CEnc e' => e' | _ => e end) os.
Proof. intros e o os; destruct o; cbn; rewrite ?app_nil_r; reflexivity. Qed.

Lemma after_one : forall e o os, enc_after e (o :: os) = enc_after (match o with CEnc e' => e' | _ => e end) os.
Proof. intros e o os; destruct o; reflexivity. Qed.

Lemma ops_spin : forall fuel pre w t a c b post, cinv w t ->
  w_cap w < (length t + length (ctext (w_enc w) pre) + length (escape (enc_after (w_enc w) pre) a)) mod w_cap w
          + length (escape (enc_after (w_enc w) pre) [c]) ->
  chunk_ops emptyBuffer_chunk (fun _ => false) fuel (pre ++ CWrite (a ++ c :: b) :: post) w = Spin.
Proof.
  intros fuel. induction pre as [|o pre IH]; intros w t a c b post I Q; cbn [app chunk_ops].
  - cbn [chunk_op ctext enc_after length] in *. rewrite Nat.add_0_r in Q.
    now rewrite (xsputn_spins fuel w t a c b I Q).
  - destruct (chunk_op _ _ _ o w) as [w1| |] eqn:O; [|reflexivity|].
    + destruct (op_done _ _ _ _ _ I O) as (I1 & E1 & C1). apply (IH w1 _ a c b post I1).
      rewrite ctext_one, after_one, app_length in Q. rewrite E1, C1, app_length.
      assert (X : forall z : nat, length t + (length (ctext (w_enc w) [o]) + z) = length t + length (ctext (w_enc w) [o]) + z) by (intros; lia).
      rewrite X in Q. exact Q.
    + exfalso. apply (ops_undef fuel [o] w t I). cbn [chunk_ops]. now rewrite O.
Qed.

Lemma ops_end : forall fuel os w t, cinv w t -> ~ bad (w_cap w) (length t) (w_enc w) os ->
  size_of os + 2 <= fuel -> exists w', chunk_ops emptyBuffer_chunk (fun _ => false) fuel os w = Done w'.
Proof.
  intros fuel. induction os as [|o os IH]; intros w t I Q L; [now exists w|]. cbn [chunk_ops].
  assert (X : exists w1, chunk_op emptyBuffer_chunk (fun _ => false) fuel o w = Done w1).
  { destruct o as [s|c|e|]; cbn [chunk_op].
    - apply (xsputn_ends _ _ _ _ I).
      + intros a c b ->. destruct (le_lt_dec ((length t + length (escape (w_enc w) a)) mod w_cap w + length (escape (w_enc w) [c])) (w_cap w)) as [H|H]; [exact H|].
        exfalso. apply Q. exists [], a, c, b, os. split; [reflexivity|]. cbn [ctext enc_after length].
        now rewrite Nat.add_0_r.
      + unfold size_of in L. cbn [fold_right op_size] in L. destruct (_ <? _); lia.
    - destruct (sputc_chunk fuel c w t I) as (w1 & b & S & _); [lia|]. rewrite S. eexists. reflexivity.
    - eexists. reflexivity.
    - destruct (eb_chunk w _ I) as (w1 & E & _). rewrite E. eexists. reflexivity. }
  destruct X as (w1 & X). rewrite X. destruct (op_done _ _ _ _ _ I X) as (I1 & E1 & C1).
  apply (IH w1 _ I1).
  - intros (pre & a & c & b & post & HO & H). apply Q. exists (o :: pre), a, c, b, post.
    split; [cbn; now rewrite HO|]. rewrite ctext_one, after_one, app_length. rewrite E1, C1, app_length in H.
    assert (Z : forall z : nat, length t + (length (ctext (w_enc w) [o]) + z) = length t + length (ctext (w_enc w) [o]) + z) by (intros; lia).
    rewrite Z. exact H.
  - unfold size_of in *. cbn [fold_right] in L. lia.
Qed.

Lemma char_ends : forall os, ~ straddling chunkCap os -> forall fuel, size_of os + 2 <= fuel ->
  exists w, char_chunks fuel os = Done w.
Proof.
  intros os Q fuel L. pose proof chunkCap_val as P. unfold char_chunks.
  apply (ops_end fuel os (chunk_fresh chunkCap) []); [apply chunk_fresh_inv; lia| |exact L]. exact Q.
Qed.

Lemma char_stuck : forall os, straddling chunkCap os -> forall fuel, char_chunks fuel os = Spin.
Proof.
  intros os (pre & a & c & b & post & -> & H) fuel. pose proof chunkCap_val as P. unfold char_chunks.
  apply (ops_spin fuel pre (chunk_fresh chunkCap) []); [apply chunk_fresh_inv; lia|]. exact H.
Qed.
