(** Proofs about SQL parameters and results. *)
From Coq Require Import List NArith ZArith Bool Arith Lia.
From Verif Require Import Model.Base Model.Endian Model.Streams Model.Curl Model.Sql Spec.EndianSpec Spec.StreamSpec Spec.PgSpec Spec.SqlSpec
  Proofs.EndianProofs Proofs.StreamProofs Proofs.CurlProofs.
Import ListNotations.
Local Open Scope N_scope.

Local Arguments be_digits : simpl never.
Local Arguments be_value : simpl never.
Local Arguments to32 : simpl never.

(** * Numbers *)
Lemma be_signed_length : forall n z, length (be_signed n z) = n.
Proof. intros; apply be_digits_length. Qed.
Lemma be_signed_bytes : forall n z, bytes_ok (be_signed n z).
Proof. intros; apply be_digits_bytes. Qed.
Lemma set_i16_be : forall z, set_i16 z = be_signed 2 z.
Proof. intros z; unfold set_i16; rewrite to16_digits by apply to_base_lt; reflexivity. Qed.
Lemma set_i32_be : forall z, set_i32 z = be_signed 4 z.
Proof. intros z; unfold set_i32; rewrite to32_digits by apply to_base_lt; reflexivity. Qed.
Lemma set_i64_be : forall z, set_i64 z = be_signed 8 z.
Proof. intros z; unfold set_i64; rewrite to64_digits by apply to_base_lt; reflexivity. Qed.

Lemma to_base_mod : forall w z, to_base w z = Z.to_N (z mod 2 ^ Z.of_N w).
Proof. reflexivity. Qed.
Lemma signed_i : forall n z, (0 < n)%nat -> (- 2 ^ (8 * Z.of_nat n - 1) <= z < 2 ^ (8 * Z.of_nat n - 1))%Z -> signed (be_signed n z) = z.
Proof.
  intros n z P R; unfold signed; rewrite be_signed_length; unfold be_signed.
  assert (E : (256 ^ Z.of_nat n = 2 ^ Z.of_N (8 * N.of_nat n))%Z).
  { change 256%Z with (2 ^ 8)%Z; rewrite <- Z.pow_mul_r by lia; f_equal; lia. }
  rewrite E, <- to_base_mod.
  rewrite be_value_digits.
  2:{ eapply N.lt_le_trans; [apply to_base_lt|]; rewrite N.pow_mul_r; apply N.le_refl. }
  replace (8 * Z.of_nat n)%Z with (Z.of_N (8 * N.of_nat n)) by lia; rewrite <- of_base_twos by lia.
  apply of_to_base; [lia|]; replace (Z.of_N (8 * N.of_nat n)) with (8 * Z.of_nat n)%Z by lia; exact R.
Qed.

Lemma be_set_send : forall n z, num_fits n z -> be_set n z = pg_send1 (num_means n z).
Proof.
  intros n z F; destruct n; cbn [be_set num_means pg_send1]; [apply set_i16_be|apply set_i32_be|apply set_i64_be| |];
    cbn [num_fits] in F; [apply to32_digits|apply to64_digits]; lia.
Qed.
Lemma width_nat : forall n, N.to_nat (width n) = match n with SMALLINT => 2 | INTEGER | REAL => 4 | _ => 8 end%nat.
Proof. now intros []. Qed.
Lemma be_set_length : forall n z, length (be_set n z) = N.to_nat (width n).
Proof. now intros [] z. Qed.
Lemma send1_num_bytes : forall n z, bytes_ok (pg_send1 (num_means n z)).
Proof. intros [] z; apply be_digits_bytes. Qed.
Lemma send1_num_length : forall n z, length (pg_send1 (num_means n z)) = N.to_nat (width n).
Proof. intros [] z; cbn [pg_send1 num_means]; try rewrite be_signed_length; try rewrite be_digits_length; reflexivity. Qed.
Lemma be_read_set : forall n z rest, num_fits n z -> be_read n (pg_send1 (num_means n z) ++ rest) = Some z.
Proof.
  intros n z rest F; rewrite <- be_set_send by exact F; destruct n; cbn [be_read be_set num_fits] in *.
  - apply rt_i16; exact F.
  - apply rt_i32; exact F.
  - apply rt_i64; exact F.
  - rewrite rt32 by lia; cbn; f_equal; lia.
  - rewrite rt64 by lia; cbn; f_equal; lia.
Qed.
Lemma num_recv : forall n z, num_fits n z -> pg_recv1 (num_type n) (pg_send1 (num_means n z)) = Some (num_means n z).
Proof.
  intros n z F; destruct n; cbn [num_type pg_recv1 num_means pg_send1 num_fits] in *; unfold exactly;
    rewrite ?be_signed_length, ?be_digits_length; cbn [Nat.eqb].
  - rewrite signed_i by (cbn; lia); reflexivity.
  - rewrite signed_i by (cbn; lia); reflexivity.
  - rewrite signed_i by (cbn; lia); reflexivity.
  - rewrite be_value_digits; [reflexivity|cbn; lia].
  - rewrite be_value_digits; [reflexivity|cbn; lia].
Qed.

(** * Memory *)
Definition filled (a : list N) (k : nat) : mem := map Some a ++ repeat None k.
Lemma filled_length : forall a k, length (filled a k) = (length a + k)%nat.
Proof. intros; unfold filled; now rewrite app_length, map_length, repeat_length. Qed.
Lemma put_filled : forall a b k, (length b <= k)%nat -> put (N.of_nat (length a)) b (filled a k) = Val (filled (a ++ b) (k - length b)).
Proof.
  intros a b k L; unfold put; rewrite filled_length.
  destruct (N.leb_spec (N.of_nat (length a) + N.of_nat (length b)) (N.of_nat (length a + k))); [|lia].
  f_equal; rewrite Nat2N.id; unfold filled; rewrite firstn_app, map_length, Nat.sub_diag, firstn_O, app_nil_r, firstn_all2 by now rewrite map_length.
  rewrite skipn_app, map_length, (skipn_all2 (map Some a)) by (rewrite map_length; lia); cbn [app].
  rewrite map_app, <- !app_assoc; f_equal; f_equal.
  replace k with (length b + (k - length b))%nat at 1 by lia; rewrite repeat_app.
  replace (length a + length b - length a)%nat with (length b) by lia.
  rewrite skipn_app, skipn_all2 by (rewrite repeat_length; lia); cbn [app]; rewrite repeat_length, Nat.sub_diag; reflexivity.
Qed.
Lemma to32_be : forall v, v < 2 ^ 31 -> to32 (trunc 32 v) = be_signed 4 (Z.of_N v).
Proof.
  intros v L; unfold trunc; rewrite N.mod_small by lia; rewrite to32_digits by lia; unfold be_signed.
  change (256 ^ Z.of_nat 4)%Z with (2 ^ 32)%Z; rewrite Z.mod_small by lia; now rewrite N2Z.id.
Qed.
Lemma put32_filled : forall a v k p, p = N.of_nat (length a) -> v < 2 ^ 31 -> (4 <= k)%nat -> put32 p v (filled a k) = Val (filled (a ++ be_signed 4 (Z.of_N v)) (k - 4)).
Proof.
  intros a v k p -> V L; unfold put32; rewrite to32_be by exact V; rewrite put_filled by now rewrite be_signed_length.
  now rewrite be_signed_length.
Qed.
(** The first five numbers. *)
Definition head (eoid : N) (dim : nat) : list N :=
  be_signed 4 1 ++ be_signed 4 0 ++ be_signed 4 (Z.of_N eoid) ++ be_signed 4 (Z.of_nat dim) ++ be_signed 4 1.
Lemma head_length : forall e d, length (head e d) = 20%nat.
Proof. intros; unfold head; now rewrite !app_length, !be_signed_length. Qed.
Lemma header_ok : forall size eoid dim, 20 <= size -> eoid < 2 ^ 31 -> N.of_nat dim < 2 ^ 31 ->
  header size eoid (N.of_nat dim) = Val (filled (head eoid dim) (N.to_nat size - 20)).
Proof.
  intros size eoid dim S E D; unfold header.
  change (repeat None (N.to_nat size)) with (filled [] (N.to_nat size)).
  rewrite put32_filled by (try reflexivity; lia); cbn [obind app].
  rewrite put32_filled by (rewrite ?be_signed_length; try reflexivity; lia); cbn [obind].
  rewrite put32_filled by (rewrite ?app_length, ?be_signed_length; try reflexivity; lia); cbn [obind].
  rewrite put32_filled by (rewrite ?app_length, ?be_signed_length; try reflexivity; lia); cbn [obind].
  rewrite put32_filled by (rewrite ?app_length, ?be_signed_length; try reflexivity; lia).
  unfold head; rewrite <- !app_assoc, nat_N_Z; do 2 f_equal; lia.
Qed.

Definition items (l : list (list N)) : list N := flat_map (fun x => be_signed 4 (Z.of_nat (length x)) ++ x) l.
Lemma items_length : forall l, N.of_nat (length (items l)) + 20 = array_length (map (@length N) l).
Proof.
  induction l as [|x l IH]; [reflexivity|]; cbn [items flat_map map array_length fold_right]; fold (array_length (map (@length N) l)); fold (items l).
  rewrite <- IH, !app_length, be_signed_length; lia.
Qed.
Lemma put_nums_ok : forall n l i a, Forall (num_fits n) l -> N.of_nat (length a) = 20 + i * (4 + width n) ->
  put_nums n i l (filled a (length (items (map (fun z => pg_send1 (num_means n z)) l)))) =
  Val (map Some (a ++ items (map (fun z => pg_send1 (num_means n z)) l))).
Proof.
  intros n l; induction l as [|z l IH]; intros i a F L; [cbn; unfold filled; now rewrite !app_nil_r|].
  apply Forall_cons_iff in F as [Fz F]; cbn [put_nums map items flat_map]; fold (items (map (fun z => pg_send1 (num_means n z)) l)).
  set (I := items _); rewrite !app_length, be_signed_length, send1_num_length.
  assert (W : width n < 2 ^ 31) by (destruct n; reflexivity).
  rewrite put32_filled by (try lia; exact (eq_sym L)); cbn [obind].
  replace (20 + i * (4 + width n) + 4) with (N.of_nat (length (a ++ be_signed 4 (Z.of_N (width n))))) by (rewrite app_length, be_signed_length; lia).
  rewrite put_filled by (rewrite be_set_length; lia); cbn [obind]; rewrite be_set_length, be_set_send by exact Fz.
  replace (4 + N.to_nat (width n) + length I - 4 - N.to_nat (width n))%nat with (length I) by lia; unfold I; rewrite IH.
  - f_equal; f_equal; rewrite <- !app_assoc; rewrite N_nat_Z; reflexivity.
  - exact F.
  - rewrite !app_length, be_signed_length, send1_num_length; lia.
Qed.
Lemma put_texts_ok : forall l p a, Forall (fun x => N.of_nat (length x) < 2 ^ 31) l -> p = N.of_nat (length a) ->
  put_texts p l (filled a (length (items l))) = Val (map Some (a ++ items l)).
Proof.
  induction l as [|x l IH]; intros p a F E; [cbn; unfold filled; now rewrite !app_nil_r|].
  apply Forall_cons_iff in F as [Fx F]; cbn [put_texts items flat_map]; fold (items l).
  rewrite !app_length, be_signed_length, put32_filled by (try exact E; try exact Fx; lia); cbn [obind].
  replace (p + 4) with (N.of_nat (length (a ++ be_signed 4 (Z.of_N (N.of_nat (length x)))))) by (rewrite app_length, be_signed_length; lia).
  rewrite put_filled by lia; cbn [obind].
  replace (4 + length x + length (items l) - 4 - length x)%nat with (length (items l)) by lia; rewrite IH.
  - f_equal; f_equal; rewrite <- !app_assoc, nat_N_Z; reflexivity.
  - exact F.
  - rewrite !app_length, be_signed_length; lia.
Qed.

Lemma array_length_num : forall n l, array_length (map (fun _ : Z => N.to_nat (width n)) l) = 20 + N.of_nat (length l) * (4 + width n).
Proof.
  intros n l; induction l as [|z l IH]; [reflexivity|]; cbn [map array_length fold_right length]; fold (array_length (map (fun _ : Z => N.to_nat (width n)) l)); rewrite IH; lia.
Qed.
Lemma num_oid_small : forall n, num_oid n < 2 ^ 31.
Proof. now intros []. Qed.
Lemma array_num_ok : forall n l, Forall (num_fits n) l -> array_length (map (fun _ : Z => N.to_nat (width n)) l) < 2 ^ 31 ->
  array_num n l = Val (map Some (head (num_oid n) (length l) ++ items (map (fun z => pg_send1 (num_means n z)) l))).
Proof.
  intros n l F A; rewrite array_length_num in A.
  assert (W : 2 <= width n <= 8) by (destruct n; cbn; lia).
  assert (B : N.of_nat (length l) < 2 ^ 30) by nia.
  unfold array_num, resize, trunc; rewrite (N.mod_small (N.of_nat (length l))) by lia; rewrite (N.mod_small (5 + N.of_nat (length l))) by lia.
  rewrite N.mod_small by nia; rewrite header_ok; [|nia|apply num_oid_small|lia]; cbn [obind].
  assert (I : N.to_nat (4 * (5 + N.of_nat (length l)) + N.of_nat (length l) * width n) = (20 + length (items (map (fun z => pg_send1 (num_means n z)) l)))%nat).
  { assert (X := items_length (map (fun z => pg_send1 (num_means n z)) l)); rewrite map_map in X.
    rewrite (map_ext _ (fun _ => N.to_nat (width n))) in X by (intros; apply send1_num_length); rewrite array_length_num in X; lia. }
  rewrite I; replace (20 + length (items (map (fun z => pg_send1 (num_means n z)) l)) - 20)%nat with (length (items (map (fun z => pg_send1 (num_means n z)) l))) by lia.
  apply put_nums_ok; [exact F|]; rewrite head_length; lia.
Qed.
Lemma data_size_ok : forall l s, s + array_length (map (@length N) l) < 2 ^ 32 ->
  fold_left (fun s x => trunc 32 (s + N.of_nat (length x))) l s = s + (array_length (map (@length N) l) - 20 - 4 * N.of_nat (length l)) /\
  20 + 4 * N.of_nat (length l) <= array_length (map (@length N) l).
Proof.
  induction l as [|x l IH]; intros s H; [cbn in *; lia|].
  cbn [fold_left map array_length fold_right length] in *; fold (array_length (map (@length N) l)) in *.
  unfold trunc at 2; rewrite N.mod_small by lia.
  destruct (IH (s + N.of_nat (length x))) as [E L]; [lia|]; rewrite E; lia.
Qed.
Lemma array_length_each : forall l, Forall (fun x : list N => N.of_nat (length x) + 20 < array_length (map (@length N) l) + 1) l.
Proof.
  intros l; apply Forall_forall; induction l as [|y l IH]; intros x I; [destruct I|].
  cbn [map array_length fold_right]; fold (array_length (map (@length N) l)).
  assert (20 <= array_length (map (@length N) l)) by (clear; induction l as [|x l IH]; [cbn; lia|]; cbn [map array_length fold_right]; fold (array_length (map (@length N) l)); lia).
  destruct I as [<-|I]; [lia|]; specialize (IH x I); lia.
Qed.
Lemma array_text_ok : forall l, array_length (map (@length N) l) < 2 ^ 31 ->
  array_text l = Val (map Some (head text_oid (length l) ++ items l)).
Proof.
  intros l A; destruct (data_size_ok l 0) as [D L]; [lia|].
  unfold array_text, data_size; rewrite D; unfold trunc; rewrite N.mod_small by lia; rewrite header_ok; [|lia|reflexivity|lia]; cbn [obind].
  assert (X := items_length l).
  replace (N.to_nat (4 * (5 + N.of_nat (length l)) + (0 + (array_length (map (@length N) l) - 20 - 4 * N.of_nat (length l)))) - 20)%nat with (length (items l)) by lia.
  apply put_texts_ok; [|now rewrite head_length].
  eapply Forall_impl; [|apply array_length_each]; cbn beta; intros; lia.
Qed.

(** * The server receives *)
Lemma int4_ok : forall z rest, (-2 ^ 31 <= z < 2 ^ 31)%Z -> int4 (be_signed 4 z ++ rest) = Some (z, rest).
Proof.
  intros z rest R; unfold int4; rewrite app_length, be_signed_length; cbn [Nat.leb Nat.add].
  rewrite firstn_app, be_signed_length, Nat.sub_diag, firstn_O, app_nil_r, firstn_all2 by now rewrite be_signed_length.
  rewrite skipn_app, be_signed_length, Nat.sub_diag, skipn_all2 by now rewrite be_signed_length.
  cbn [app skipn]; rewrite signed_i by (cbn; lia); reflexivity.
Qed.
Lemma items_recv : forall t l b, Forall2 (fun s x => pg_recv1 t x = Some s /\ N.of_nat (length x) < 2 ^ 31) l b ->
  pg_items t (length l) (items b) = Some (map Some l).
Proof.
  intros t l b H; induction H as [|s x l b [R L] H IH]; [reflexivity|].
  cbn [length pg_items items flat_map]; fold (items b); rewrite <- app_assoc, int4_ok by lia.
  destruct (Z.eqb_spec (Z.of_nat (length x)) (-1)); [lia|].
  destruct (Z.ltb_spec (Z.of_nat (length x)) 0); [lia|]; destruct (Z.ltb_spec (Z.of_nat (length (x ++ items b))) (Z.of_nat (length x))); [rewrite app_length in *; lia|]; cbn [orb].
  rewrite Nat2Z.id, firstn_app, Nat.sub_diag, firstn_O, app_nil_r, firstn_all, skipn_app, skipn_all, Nat.sub_diag; cbn [app skipn].
  now rewrite R, IH.
Qed.
Lemma array_recv : forall t l b, Forall2 (fun s x => pg_recv1 t x = Some s /\ N.of_nat (length x) < 2 ^ 31) l b -> N.of_nat (length l) < 2 ^ 31 -> pg_oid t < 2 ^ 31 ->
  pg_recv_array t (head (pg_oid t) (length l) ++ items b) = Some (PArray 1 (map Some l)).
Proof.
  intros t l b H L O; unfold pg_recv_array, head; rewrite <- !app_assoc, int4_ok by lia; rewrite int4_ok by lia; rewrite int4_ok by lia.
  cbn [Z.eqb orb negb]; rewrite Z.eqb_refl; cbn [negb]; rewrite int4_ok by lia; rewrite int4_ok by lia.
  destruct (Z.ltb_spec (Z.of_nat (length l)) 0); [lia|]; rewrite Nat2Z.id, (items_recv _ _ _ H); destruct l; reflexivity.
Qed.

Lemma items_bytes : forall l, Forall bytes_ok l -> bytes_ok (items l).
Proof.
  induction l as [|x l IH]; intros F; [constructor|]; apply Forall_cons_iff in F as [Fx F]; cbn [items flat_map]; fold (items l).
  apply Forall_app; split; [apply Forall_app; split; [apply be_signed_bytes|exact Fx]|now apply IH].
Qed.
Lemma head_bytes : forall e d, bytes_ok (head e d).
Proof. intros; unfold head, bytes_ok; rewrite !Forall_app; repeat split; apply be_signed_bytes. Qed.

Lemma not_refused : forall strict s, Forall scalar s -> existsb (refused strict) s = false.
Proof.
  intros strict s F; induction F as [|c s S F IH]; [reflexivity|]; cbn [existsb]; rewrite IH, orb_false_r; unfold refused, scalar in *.
  destruct (N.ltb_spec 0x10ffff c), strict, (N.leb_spec 0xd800 c), (N.leb_spec c 0xdfff); cbn; try reflexivity; lia.
Qed.
Lemma flat_map_ext' : forall (A B : Type) (f g : A -> list B) l, (forall x, f x = g x) -> flat_map f l = flat_map g l.
Proof. intros A B f g l H; induction l as [|x l IH]; [reflexivity|]; cbn; now rewrite H, IH. Qed.
Lemma to_bytes_ok : forall strict s, Forall scalar s -> to_bytes strict s = Some (utf8 s).
Proof. intros strict s F; unfold to_bytes; rewrite not_refused by exact F; f_equal; apply flat_map_ext'; apply utf8_write_spec. Qed.
Lemma convert_texts_ok : forall strict l, Forall (Forall scalar) l -> convert_texts strict l = map utf8 l.
Proof. intros strict l F; induction F as [|s l S F IH]; [reflexivity|]; cbn [convert_texts map]; now rewrite to_bytes_ok, IH. Qed.
Lemma utf8_1_bytes : forall c, scalar c -> bytes_ok (utf8_1 c).
Proof.
  intros c S; assert (c <= 0x10ffff) by (unfold scalar in S; lia); unfold utf8_1, bytes_ok, is_byte.
  assert (M1 := N.mod_lt c 64 ltac:(discriminate)); assert (M2 := N.mod_lt (c / 64) 64 ltac:(discriminate)); assert (M3 := N.mod_lt (c / 4096) 64 ltac:(discriminate)).
  destruct (N.ltb_spec c 128); [repeat constructor; lia|].
  destruct (N.ltb_spec c 2048).
  { assert (c / 64 < 32) by (apply N.div_lt_upper_bound; lia); repeat constructor; lia. }
  destruct (N.ltb_spec c 65536).
  { assert (c / 4096 < 16) by (apply N.div_lt_upper_bound; lia); repeat constructor; lia. }
  assert (c / 262144 < 8) by (apply N.div_lt_upper_bound; lia); repeat constructor; lia.
Qed.
Lemma utf8_bytes : forall s, Forall scalar s -> bytes_ok (utf8 s).
Proof. intros s F; induction F as [|c s S F IH]; [constructor|]; cbn [utf8 flat_map]; apply Forall_app; split; [now apply utf8_1_bytes|exact IH]. Qed.

Lemma text_array_recv : forall l, array_length (map (@length N) l) < 2 ^ 31 ->
  pg_recv_array Text (head text_oid (length l) ++ items l) = Some (PArray 1 (map (fun s => Some (PText s)) l)).
Proof.
  intros l A; assert (E := array_length_each l); destruct (data_size_ok l 0) as [_ L]; [lia|].
  assert (X := array_recv Text (map PText l) l); rewrite map_length in X; change text_oid with (pg_oid Text); rewrite X, map_map; [reflexivity| |lia|reflexivity].
  clear X L; revert A E; generalize (array_length (map (@length N) l)); intros k A E; induction E as [|x l F E IH]; constructor; [|exact IH].
  split; [reflexivity|cbn beta in *; lia].
Qed.

Lemma sent_ok : forall strict t (v : val t), fits t v ->
  exists b, param strict t v = Val (map Some b) /\ bytes_ok b /\ pg_recv (fst (pg_of t)) (snd (pg_of t)) b = Some (means t v).
Proof.
  intros strict t; destruct t as [|n| | | | | | |n| |]; cbn [val fits param means pg_of fst snd]; intros v F; unfold pg_recv.
  - exists [if v then 1 else 0]; split; [reflexivity|]; split; [repeat constructor; destruct v; reflexivity|]; destruct v; reflexivity.
  - exists (pg_send1 (num_means n v)); rewrite be_set_send by exact F; split; [reflexivity|]; split; [apply send1_num_bytes|]; now rewrite num_recv.
  - exists v; auto.
  - exists (utf8 v); unfold convert_text; rewrite to_bytes_ok by exact F; split; [reflexivity|]; split; [now apply utf8_bytes|reflexivity].
  - exists v; auto.
  - exists (be_signed 8 (v - us_2000)); change epoch_us with us_2000; assert (us_2000 = 946684800000000)%Z by reflexivity; unfold is_i64.
    destruct (Z.leb_spec (- 2 ^ 63) (v - us_2000)), (Z.ltb_spec (v - us_2000) (2 ^ 63)); cbn [andb]; try lia.
    rewrite set_i64_be; split; [reflexivity|]; split; [apply be_signed_bytes|]; cbn [pg_recv1]; unfold exactly; rewrite be_signed_length; cbn [Nat.eqb option_map].
    rewrite signed_i by (cbn; lia); reflexivity.
  - exists (be_signed 4 (v - days_2000)); change epoch_days with days_2000; assert (days_2000 = 10957)%Z by reflexivity.
    rewrite set_i32_be; split; [reflexivity|]; split; [apply be_signed_bytes|]; cbn [pg_recv1]; unfold exactly; rewrite be_signed_length; cbn [Nat.eqb option_map].
    rewrite signed_i by (cbn; lia); reflexivity.
  - destruct F as [L B]; exists ([3; 128; 0; 16] ++ v); split; [reflexivity|]; split; [repeat constructor; exact B|].
    cbn [app pg_recv1]; unfold exactly; rewrite L; reflexivity.
  - destruct F as [F A]; exists (head (num_oid n) (length v) ++ items (map (fun z => pg_send1 (num_means n z)) v)); split; [now apply array_num_ok|].
    split; [apply Forall_app; split; [apply head_bytes|]; apply items_bytes; apply Forall_forall; intros x I; apply in_map_iff in I as (z & <- & _); apply send1_num_bytes|].
    rewrite array_length_num in A; replace (num_oid n) with (pg_oid (num_type n)) by now destruct n.
    assert (X := array_recv (num_type n) (map (num_means n) v) (map (fun z => pg_send1 (num_means n z)) v)); rewrite map_length in X; rewrite X, map_map; [reflexivity| |nia|now destruct n].
    clear X A; induction F as [|z v Fz F IH]; constructor; [|exact IH]; split; [now apply num_recv|rewrite send1_num_length; destruct n; reflexivity].
  - destruct F as [F A]; exists (head text_oid (length v) ++ items v); split; [now apply array_text_ok|].
    split; [apply Forall_app; split; [apply head_bytes|now apply items_bytes]|]; now apply text_array_recv.
  - destruct F as [F A]; exists (head text_oid (length (map utf8 v)) ++ items (map utf8 v)).
    assert (A' : array_length (map (@length N) (map utf8 v)) < 2 ^ 31) by now rewrite map_map.
    split; [rewrite convert_texts_ok by exact F; now apply array_text_ok|].
    split; [apply Forall_app; split; [apply head_bytes|]; apply items_bytes; apply Forall_forall; intros x I; apply in_map_iff in I as (z & <- & I);
      apply utf8_bytes; eapply Forall_forall in F; eauto|].
    rewrite text_array_recv by exact A'; now rewrite map_map.
Qed.

(** * Fields are read *)
Lemma read32_ok : forall a z rest p, p = length a -> (-2 ^ 31 <= z < 2 ^ 31)%Z -> read32 (a ++ be_signed 4 z ++ rest) p = Some z.
Proof.
  intros a z rest p -> R; unfold read32; rewrite skipn_app, skipn_all, Nat.sub_diag; cbn [app skipn]; rewrite <- set_i32_be; now apply rt_i32.
Qed.
Lemma skip_first : forall (a b : list N) p, p = length a -> skipn p (a ++ b) = b.
Proof. intros a b p ->; now rewrite skipn_app, skipn_all, Nat.sub_diag. Qed.
Lemma take_first : forall (a b : list N), firstn (length a) (a ++ b) = a.
Proof. intros a b; now rewrite firstn_app, Nat.sub_diag, firstn_O, app_nil_r, firstn_all. Qed.

Definition lead (e : N) (d : nat) (lower : Z) : list N :=
  be_signed 4 1 ++ be_signed 4 0 ++ be_signed 4 (Z.of_N e) ++ be_signed 4 (Z.of_nat d) ++ be_signed 4 lower.
Lemma lead_length : forall e d l, length (lead e d l) = 20%nat.
Proof. intros; unfold lead; now rewrite !app_length, !be_signed_length. Qed.
Lemma array_head_ok : forall e d lower rest, e < 2 ^ 31 -> N.of_nat d < 2 ^ 31 -> array_head e (lead e d lower ++ rest) = Some (Some (Z.of_nat d)).
Proof.
  intros e d lower rest E D; unfold array_head, lead; rewrite <- !app_assoc.
  change (be_signed 4 1 ++ be_signed 4 0 ++ be_signed 4 (Z.of_N e) ++ be_signed 4 (Z.of_nat d) ++ be_signed 4 lower ++ rest)
    with ([] ++ be_signed 4 1 ++ be_signed 4 0 ++ be_signed 4 (Z.of_N e) ++ be_signed 4 (Z.of_nat d) ++ be_signed 4 lower ++ rest) at 1.
  rewrite read32_ok by (try reflexivity; lia); cbn [Z.eqb Pos.eqb negb].
  rewrite read32_ok by (rewrite ?be_signed_length; try reflexivity; lia); cbn [Z.eqb negb].
  rewrite (app_assoc (be_signed 4 1)), read32_ok by (rewrite ?app_length, ?be_signed_length; try reflexivity; lia).
  unfold to_base; rewrite Z.mod_small by (cbn; lia); rewrite N2Z.id, N.eqb_refl; cbn [negb].
  rewrite (app_assoc (_ ++ _) (be_signed 4 (Z.of_N e))), read32_ok by (rewrite ?app_length, ?be_signed_length; try reflexivity; lia); reflexivity.
Qed.
Lemma field_nums_ok : forall n l a i tail, Forall (num_fits n) l -> length a = (20 + i * (4 + N.to_nat (width n)))%nat ->
  field_nums n (a ++ items (map (fun z => pg_send1 (num_means n z)) l) ++ tail) (length l) i = Some l.
Proof.
  intros n l; induction l as [|z l IH]; intros a i tail F L; [reflexivity|].
  apply Forall_cons_iff in F as [Fz F]; cbn [length field_nums map items flat_map]; fold (items (map (fun z => pg_send1 (num_means n z)) l)); set (I := items _).
  rewrite <- !app_assoc, send1_num_length; assert (W : (Z.of_nat (N.to_nat (width n)) = Z.of_N (width n))%Z) by lia; rewrite W.
  assert (W' : width n < 2 ^ 31) by now destruct n.
  rewrite read32_ok by (try exact (eq_sym L); lia); rewrite Z.eqb_refl.
  rewrite (app_assoc a), skip_first by (rewrite app_length, be_signed_length; lia); rewrite be_read_set by exact Fz.
  unfold I; rewrite app_assoc, IH; [reflexivity|exact F|]; rewrite !app_length, be_signed_length, send1_num_length; lia.
Qed.
Lemma field_texts_ok : forall l a p tail, Forall (fun x => N.of_nat (length x) < 2 ^ 31) l -> p = length a ->
  field_texts (a ++ items l ++ tail) (length l) p = Got l.
Proof.
  induction l as [|x l IH]; intros a p tail F E; [reflexivity|].
  apply Forall_cons_iff in F as [Fx F]; cbn [length field_texts items flat_map]; fold (items l); rewrite <- !app_assoc.
  rewrite read32_ok by (try exact E; lia); destruct (Z.ltb_spec (Z.of_nat (length x)) 0); [lia|]; rewrite Nat2Z.id.
  destruct (Nat.leb_spec (p + 4 + length x) (length (a ++ be_signed 4 (Z.of_nat (length x)) ++ x ++ items l ++ tail))) as [L|L];
    [|rewrite !app_length, be_signed_length in L; lia].
  rewrite (app_assoc a), skip_first by (rewrite app_length, be_signed_length; lia); rewrite take_first.
  rewrite app_assoc, IH; [reflexivity|exact F|]; rewrite !app_length, be_signed_length; lia.
Qed.
Lemma field_wtexts_ok : forall strict l a p tail, Forall (Forall scalar) l -> Forall (fun x => N.of_nat (length (utf8 x)) < 2 ^ 31) l -> p = length a ->
  field_wtexts strict (a ++ items (map utf8 l) ++ tail) (length l) p = Got l.
Proof.
  intros strict; induction l as [|x l IH]; intros a p tail S F E; [reflexivity|].
  apply Forall_cons_iff in F as [Fx F]; apply Forall_cons_iff in S as [Sx S]; cbn [length field_wtexts map items flat_map]; fold (items (map utf8 l)); rewrite <- !app_assoc.
  rewrite read32_ok by (try exact E; lia); destruct (Z.ltb_spec (Z.of_nat (length (utf8 x))) 0); [lia|]; rewrite Nat2Z.id.
  destruct (Nat.leb_spec (p + 4 + length (utf8 x)) (length (a ++ be_signed 4 (Z.of_nat (length (utf8 x))) ++ utf8 x ++ items (map utf8 l) ++ tail))) as [L|L];
    [|rewrite !app_length, be_signed_length in L; lia].
  rewrite (app_assoc a), skip_first by (rewrite app_length, be_signed_length; lia); rewrite take_first, from_bytes_ok by exact Sx.
  rewrite app_assoc, IH; [reflexivity|exact S|exact F|]; rewrite !app_length, be_signed_length; lia.
Qed.

Lemma no_null : forall (A : Type) (f : A -> pgscalar) l, has_null (map (fun x => Some (f x)) l) = false.
Proof. intros A f l; induction l; [reflexivity|]; cbn; auto. Qed.
Lemma flat_items : forall (A : Type) (f : A -> pgscalar) l, flat_map pg_item (map (fun x => Some (f x)) l) = items (map (fun x => pg_send1 (f x)) l).
Proof. intros A f l; induction l as [|x l IH]; [reflexivity|]; cbn [map flat_map items pg_item]; now rewrite IH. Qed.
Lemma be_oid : forall e, e < 2 ^ 31 -> be_digits 4 e = be_signed 4 (Z.of_N e).
Proof. intros e E; unfold be_signed; rewrite Z.mod_small by (cbn; lia); now rewrite N2Z.id. Qed.
Lemma send_array : forall (A : Type) t (f : A -> pgscalar) lower l, pg_oid t < 2 ^ 31 -> l <> [] ->
  pg_send t (PArray lower (map (fun x => Some (f x)) l)) = lead (pg_oid t) (length l) lower ++ items (map (fun x => pg_send1 (f x)) l).
Proof.
  intros A t f lower l O NE; unfold pg_send, lead; rewrite no_null, flat_items, map_length, be_oid by exact O; destruct l; [contradiction|]; cbn [map].
  now rewrite <- !app_assoc.
Qed.
Lemma empty_head : forall e x, array_head e ((be_signed 4 0 ++ x) ++ [0]) = Some None.
Proof.
  intros e x; unfold array_head; rewrite <- app_assoc; change (be_signed 4 0 ++ x ++ [0]) with ([] ++ be_signed 4 0 ++ x ++ [0]).
  rewrite read32_ok by (try reflexivity; lia); reflexivity.
Qed.

Lemma array_each_num : forall n l, array_length (map (fun _ : Z => N.to_nat (width n)) l) < 2 ^ 31 -> N.of_nat (length l) < 2 ^ 31.
Proof. intros n l A; rewrite array_length_num in A; nia. Qed.
Lemma array_each_text : forall l, array_length (map (@length N) l) < 2 ^ 31 -> N.of_nat (length l) < 2 ^ 31 /\ Forall (fun x => N.of_nat (length x) < 2 ^ 31) l.
Proof.
  intros l A; destruct (data_size_ok l 0) as [_ L]; [lia|]; split; [lia|]; eapply Forall_impl; [|apply array_length_each]; cbn beta; intros; lia.
Qed.

Lemma field_ok : forall strict t (v : val t) p, fetched t v p -> field strict t (Some (pg_send (fst (pg_of t)) p)) (default t) = Got v.
Proof.
  intros strict t; destruct t as [|n| | | | | | |n| |]; cbn [val fetched fits means pg_of fst field value cell_length default]; intros v p F.
  - destruct F as [_ ->]; destruct v; reflexivity.
  - destruct F as [F ->]; cbn [pg_send]; rewrite be_read_set by exact F; reflexivity.
  - destruct F as [F ->]; cbn [pg_send pg_send1]; now rewrite take_first.
  - destruct F as [F ->]; cbn [pg_send pg_send1]; rewrite take_first, from_bytes_ok by exact F; reflexivity.
  - destruct F as [F ->]; cbn [pg_send pg_send1]; now rewrite take_first.
  - destruct F as [F ->]; cbn [pg_send pg_send1]; assert (us_2000 = 946684800000000)%Z by reflexivity; rewrite <- set_i64_be, rt_i64 by lia; change epoch_us with us_2000.
    replace (us_2000 + (v - us_2000))%Z with v by lia; unfold is_i64; destruct (Z.leb_spec (- 2 ^ 63) v), (Z.ltb_spec v (2 ^ 63)); cbn [andb]; try reflexivity; lia.
  - destruct F as [F ->]; cbn [pg_send pg_send1]; assert (days_2000 = 10957)%Z by reflexivity; rewrite <- set_i32_be, rt_i32 by lia; change epoch_days with days_2000.
    replace (days_2000 + (v - days_2000))%Z with v by lia; unfold is_date; destruct (Z.leb_spec (-12687428) v), (Z.leb_spec v 11248737); cbn [andb]; try reflexivity; lia.
  - destruct F as (B & L & [[m ->]|(m & b & -> & E)]); cbn [pg_send pg_send1]; unfold field_inet; cbn [cell_length value].
    + rewrite app_length, L; cbn [length Nat.add]; f_equal; cbn [app skipn]; rewrite <- L; apply take_first.
    + assert (Lb : length b = 4%nat) by (rewrite E, !app_length, repeat_length in L; cbn in L; lia).
      rewrite app_length, Lb; cbn [length Nat.add]; f_equal; rewrite E; do 2 f_equal; cbn [app skipn]; rewrite <- Lb; apply take_first.
  - destruct F as ([F A] & lower & ->); destruct v as [|z v]; [unfold field_array; cbn [value pg_send map]; now rewrite empty_head|]; set (l := z :: v) in *.
    assert (O : pg_oid (num_type n) = num_oid n) by now destruct n.
    rewrite send_array by (try discriminate; rewrite O; apply num_oid_small); rewrite O; unfold field_array; cbn [value].
    rewrite <- app_assoc, array_head_ok by (try apply num_oid_small; eapply array_each_num; eauto).
    destruct (Z.ltb_spec (Z.of_nat (length l)) 0); [lia|]; rewrite Nat2Z.id, field_nums_ok; [reflexivity|exact F|now rewrite lead_length].
  - destruct F as ([F A] & lower & ->); destruct v as [|z v]; [unfold field_array_text; cbn [value pg_send map]; now rewrite empty_head|]; set (l := z :: v) in *.
    destruct (array_each_text _ A) as [A1 A2].
    rewrite (send_array _ Text PText) by (try discriminate; reflexivity); change (pg_oid Text) with text_oid; unfold field_array_text; cbn [value].
    rewrite <- app_assoc, array_head_ok by (try exact A1; reflexivity).
    destruct (Z.ltb_spec (Z.of_nat (length l)) 0); [lia|]; rewrite Nat2Z.id; cbn [pg_send1]; rewrite map_id, field_texts_ok; [reflexivity|exact A2|now rewrite lead_length].
  - destruct F as ([F A] & lower & ->); destruct v as [|z v]; [unfold field_array_wtext; cbn [value pg_send map]; now rewrite empty_head|]; set (l := z :: v) in *.
    rewrite <- map_map in A; destruct (array_each_text _ A) as [A1 A2]; rewrite map_length in A1; apply Forall_map in A2.
    rewrite (send_array _ Text (fun s => PText (utf8 s))) by (try discriminate; reflexivity); change (pg_oid Text) with text_oid; unfold field_array_wtext; cbn [value].
    rewrite <- app_assoc, array_head_ok by (try exact A1; reflexivity).
    destruct (Z.ltb_spec (Z.of_nat (length l)) 0); [lia|]; rewrite Nat2Z.id; cbn [pg_send1]; rewrite field_wtexts_ok; [reflexivity|exact F|exact A2|now rewrite lead_length].
Qed.
Lemma means_fetched : forall t (v : val t), fits t v -> fetched t v (means t v).
Proof.
  intros t v F; destruct t; cbn [fetched means] in *; try (split; [exact F|reflexivity]); try (split; [exact F|eexists; reflexivity]).
  destruct F as [L B]; split; [exact B|]; split; [exact L|]; left; eexists; reflexivity.
Qed.
Lemma back_ok : forall strict t (v : val t), fits t v -> field strict t (Some (pg_send (fst (pg_of t)) (means t v))) (default t) = Got v.
Proof. intros; apply field_ok; now apply means_fetched. Qed.

Lemma row_ok : forall strict ts vs ps cs, same_row ts vs ps cs -> row strict ts cs = Got vs.
Proof. intros strict ts vs ps cs H; induction H as [|t v p ts vs ps cs F H IH]; [reflexivity|]; cbn [row]; now rewrite (field_ok strict t v p F), IH. Qed.

(** * Verification *)
Lemma verify_column_ok : forall t c, verify_column t c = true <-> matches t c.
Proof.
  intros t c; unfold verify_column, matches; rewrite andb_true_iff, N.eqb_eq.
  assert (O : oid t = type_number t) by (destruct t as [|[]| | | | | | |[]| |]; reflexivity); rewrite O.
  split; intros [A B]; split; auto.
  - intros S; destruct t as [|[]| | | | | | |[]| |]; cbn in *; try (now apply Z.eqb_eq in B); contradiction S; reflexivity.
  - destruct t as [|[]| | | | | | |[]| |]; cbn in *; try reflexivity; apply Z.eqb_eq; apply B; discriminate.
Qed.
Lemma verify_from_ok : forall ts cs i, (0 <= i)%Z -> length ts = length cs -> (verify_from i ts cs = 0%Z <-> Forall2 matches ts cs).
Proof.
  induction ts as [|t ts IH]; intros [|c cs] i I L; try discriminate; cbn [verify_from]; [split; auto|].
  destruct (verify_column t c) eqn:V.
  - apply verify_column_ok in V; rewrite IH by (cbn in L; lia); split; intros H; [now constructor|]; now inversion H.
  - split; intros H; [lia|]; inversion H; subst; match goal with X : matches t c |- _ => apply verify_column_ok in X; congruence end.
Qed.
Lemma verify_from_first : forall ts cs i k, (0 <= i)%Z -> length ts = length cs ->
  (verify_from i ts cs = (i + Z.of_nat k + 1)%Z <-> Forall2 matches (firstn k ts) (firstn k cs) /\
     exists t c, nth_error ts k = Some t /\ nth_error cs k = Some c /\ ~ matches t c).
Proof.
  induction ts as [|t ts IH]; intros [|c cs] i k I L; try discriminate; cbn [verify_from].
  - split; [lia|]; intros (_ & t & c & H & _); destruct k; discriminate.
  - destruct (verify_column t c) eqn:V; destruct k as [|k].
    + split.
      * intros H; exfalso; revert H; clear - I; assert (X : forall us ds j, (i < j)%Z -> verify_from j us ds <> (i + Z.of_nat 0 + 1)%Z).
        { induction us as [|u us IH]; intros [|d ds] j J; cbn [verify_from]; try lia; destruct (verify_column u d); [apply IH; lia|lia]. }
        apply X; lia.
      * intros (_ & t' & c' & E1 & E2 & M); injection E1 as <-; injection E2 as <-; apply verify_column_ok in V; contradiction.
    + replace (i + Z.of_nat (S k) + 1)%Z with (i + 1 + Z.of_nat k + 1)%Z by lia; rewrite IH by (cbn in L; lia); cbn [firstn nth_error].
      apply verify_column_ok in V; split; intros [A B]; split; auto; now inversion A.
    + split; [|intros _; lia]; intros _; split; [constructor|]; exists t, c; repeat split; intros M; apply verify_column_ok in M; congruence.
    + split; [lia|]; intros [A _]; cbn [firstn] in A; inversion A; subst; match goal with X : matches t c |- _ => apply verify_column_ok in X; congruence end.
Qed.
Lemma verify_ok : forall ts r, ts <> [] -> (verify ts r = 0%Z <-> Forall2 matches ts (r_cols r)).
Proof.
  intros ts r NE; unfold verify; destruct ts as [|t ts]; [contradiction|]; set (l := t :: ts) in *.
  destruct (Nat.eqb_spec (length (r_cols r)) (length l)) as [E|E].
  - apply verify_from_ok; [lia|now symmetry].
  - split; [discriminate|]; intros H; exfalso; apply E; clear - H; induction H; cbn; congruence.
Qed.
Lemma verify_from_nonneg : forall ts cs i, (0 <= i)%Z -> (0 <= verify_from i ts cs)%Z.
Proof. induction ts as [|t ts IH]; intros [|c cs] i I; cbn [verify_from]; try lia; destruct (verify_column t c); [apply IH; lia|lia]. Qed.
Lemma verify_count : forall ts r, ts <> [] -> (verify ts r = (-1)%Z <-> length (r_cols r) <> length ts).
Proof.
  intros ts r NE; unfold verify; destruct ts as [|t ts]; [contradiction|]; set (l := t :: ts) in *.
  destruct (Nat.eqb_spec (length (r_cols r)) (length l)) as [E|E]; [|tauto].
  assert (X := verify_from_nonneg l (r_cols r) 0 ltac:(lia)); split; [lia|contradiction].
Qed.
Lemma verify_first : forall ts r k, ts <> [] ->
  (verify ts r = (Z.of_nat k + 1)%Z <-> length (r_cols r) = length ts /\ Forall2 matches (firstn k ts) (firstn k (r_cols r)) /\
     exists t c, nth_error ts k = Some t /\ nth_error (r_cols r) k = Some c /\ ~ matches t c).
Proof.
  intros ts r k NE; unfold verify; destruct ts as [|t ts]; [contradiction|]; set (l := t :: ts) in *.
  destruct (Nat.eqb_spec (length (r_cols r)) (length l)) as [E|E].
  - assert (X := verify_from_first l (r_cols r) 0 k ltac:(lia) (eq_sym E)); cbn [Z.add] in X; rewrite X; tauto.
  - split; [lia|tauto].
Qed.
Lemma verify_none : forall r, (verify [] r = 0%Z <-> r_cols r = [] /\ r_rows r = []) /\ (verify [] r = 0%Z \/ verify [] r = (-1)%Z).
Proof.
  intros [cs rs]; unfold verify; cbn [r_cols r_rows]; destruct cs, rs; cbn; repeat split; intros; try discriminate; try tauto; destruct H; discriminate.
Qed.

(** * Parameters of a query *)
Lemma build_ok : forall strict l, Forall (fun p => fits (projT1 (fst p)) (projT2 (fst p)) /\
    (forall m, param strict (projT1 (fst p)) (projT2 (fst p)) = Val m -> N.of_nat (length m) < 2 ^ 31) /\ (snd p = true \/ fst p <> existT val BYTEA [])) l ->
  exists r, build strict l = Val r /\ Forall2 arrives l r.
Proof.
  intros strict l F; induction F as [|p l (Fp & Lp & Np) F (r & B & A)]; [exists []; split; [reflexivity|constructor]|].
  destruct p as [[t v] nul]; cbn [fst snd projT1 projT2] in *.
  destruct (sent_ok strict t v Fp) as (b & E & Bo & R); cbn [build]; unfold build1; cbn [fst snd projT1 projT2]; rewrite E; cbn [obind]; rewrite B; cbn [obind].
  eexists; split; [reflexivity|]; constructor; [|exact A]; unfold arrives; cbn [q_oid q_format q_raw q_size fst snd projT1 projT2].
  split; [destruct t as [|[]| | | | | | |[]| |]; reflexivity|]; split; [reflexivity|]; destruct nul; [reflexivity|].
  exists b; split; [cbn [orb]; destruct Np as [Np|Np]; [discriminate|]; destruct t; try reflexivity; destruct b; [|reflexivity]; cbn in E; destruct v; [now elim Np|discriminate]|].
  split; [exact Bo|]; split; [|exact R].
  specialize (Lp _ E); rewrite map_length in *; unfold trunc; rewrite N.mod_small by lia; unfold of_base.
  destruct (N.ltb_spec (N.of_nat (length b)) (2 ^ (32 - 1))); [apply nat_N_Z|cbn in *; lia].
Qed.

Lemma empty_bytea : forall strict l r i nul, build strict l = Val r -> nth_error l i = Some (existT val BYTEA [], nul) ->
  exists q, nth_error r i = Some q /\ q_raw q = None.
Proof.
  intros strict l; induction l as [|p l IH]; intros r i nul B N; [destruct i; discriminate|].
  cbn [build] in B; destruct (build1 strict p) as [q|] eqn:Q; [|discriminate]; cbn [obind] in B.
  destruct (build strict l) as [r'|]; [|discriminate]; injection B as <-.
  destruct i as [|i]; cbn [nth_error] in *; [|now apply (IH r' i nul)].
  injection N as ->; exists q; split; [reflexivity|]; cbn in Q; injection Q as <-; cbn; now rewrite orb_true_r.
Qed.

(** * Indexing *)
Lemma get_ok : forall a b c p n, p = N.of_nat (length a) -> n = N.of_nat (length b) -> get p n (map Some (a ++ b ++ c)) = Some b.
Proof.
  intros a b c p n -> ->; unfold get; rewrite map_length, !app_length.
  destruct (N.leb_spec (N.of_nat (length a) + N.of_nat (length b)) (N.of_nat (length a + (length b + length c)))); [|lia].
  rewrite !Nat2N.id, !map_app, skipn_app, map_length, Nat.sub_diag, skipn_all2 by now rewrite map_length.
  cbn [app skipn]; rewrite firstn_app, map_length, Nat.sub_diag, firstn_O, app_nil_r, firstn_all2 by now rewrite map_length.
  induction b as [|x b IH]; [reflexivity|]; cbn [map all_some]; rewrite IH; [reflexivity|lia].
Qed.
Lemma items_app : forall a b, items (a ++ b) = items a ++ items b.
Proof. intros; unfold items; apply flat_map_app. Qed.
Lemma items_num_length : forall n l, length (items (map (fun z => pg_send1 (num_means n z)) l)) = (length l * (4 + N.to_nat (width n)))%nat.
Proof.
  intros n l; assert (X := items_length (map (fun z => pg_send1 (num_means n z)) l)); rewrite map_map in X.
  rewrite (map_ext _ (fun _ => N.to_nat (width n))) in X by (intros; apply send1_num_length); rewrite array_length_num in X; nia.
Qed.
Lemma num_at_ok : forall n l m i z, fits (ARRAY n) l -> array_num n l = Val m -> nth_error l i = Some z -> num_at n m (N.of_nat i) = Val z.
Proof.
  intros n l m i z [F A] E H; rewrite array_num_ok in E by assumption; match type of E with Val ?x = _ => assert (m = x) as -> by congruence end; clear E.
  apply nth_error_split in H as (l1 & l2 & -> & <-); apply Forall_app in F as [_ F]; apply Forall_cons_iff in F as [Fz _].
  assert (X : items (map (fun z => pg_send1 (num_means n z)) (l1 ++ z :: l2)) = items (map (fun z => pg_send1 (num_means n z)) l1) ++
    be_signed 4 (Z.of_nat (length (pg_send1 (num_means n z)))) ++ pg_send1 (num_means n z) ++ items (map (fun z => pg_send1 (num_means n z)) l2)).
  { rewrite map_app, items_app; f_equal; unfold items; cbn [map flat_map]; now rewrite <- app_assoc. }
  unfold num_at; rewrite X; set (I1 := items _); set (I2 := items _).
  rewrite (app_assoc I1), (app_assoc (head _ _)), get_ok; [|rewrite !app_length, head_length, be_signed_length; unfold I1; rewrite items_num_length; lia|rewrite send1_num_length; lia].
  rewrite <- (app_nil_r (pg_send1 _)), be_read_set by exact Fz; reflexivity.
Qed.
Lemma read_alone : forall z, (-2 ^ 31 <= z < 2 ^ 31)%Z -> read_i32 (be_signed 4 z) = Some z.
Proof. intros z R; rewrite <- set_i32_be, <- (app_nil_r (set_i32 z)); now apply rt_i32. Qed.
Lemma text_at_from : forall l a i x p, Forall (fun x => N.of_nat (length x) < 2 ^ 31) l -> p = N.of_nat (length a) -> nth_error l i = Some x ->
  text_at (map Some (a ++ items l)) p i = Val x.
Proof.
  induction l as [|y l IH]; intros a i x p F E H; [destruct i; discriminate|]; apply Forall_cons_iff in F as [Fy F].
  assert (S : items (y :: l) = be_signed 4 (Z.of_nat (length y)) ++ y ++ items l) by (cbn [items flat_map]; fold (items l); now rewrite <- app_assoc).
  rewrite S; unfold text_at; destruct i as [|i]; fold text_at.
  - injection H as ->; rewrite get_ok by (rewrite ?be_signed_length; trivial).
    rewrite read_alone by lia; destruct (Z.ltb_spec (Z.of_nat (length x)) 0); [lia|].
    rewrite (app_assoc a), get_ok; [reflexivity|rewrite app_length, be_signed_length; lia|lia].
  - rewrite get_ok by (rewrite ?be_signed_length; trivial).
    rewrite read_alone by lia; destruct (Z.ltb_spec (Z.of_nat (length y)) 0); [lia|].
    rewrite (app_assoc a), (app_assoc (a ++ _)); apply IH; [exact F| |exact H]; rewrite !app_length, be_signed_length; lia.
Qed.
Lemma text_at_ok : forall l m i x, fits ARRAY_TEXT l -> array_text l = Val m -> nth_error l i = Some x -> text_at m 20 i = Val x.
Proof.
  intros l m i x [F A] E H; rewrite array_text_ok in E by exact A; match type of E with Val ?x = _ => assert (m = x) as -> by congruence end; clear E; apply text_at_from; [apply array_each_text; exact A|now rewrite head_length|exact H].
Qed.

(** * Too large *)
Lemma put_length : forall off b m m', put off b m = Val m' -> length m' = length m /\ off + N.of_nat (length b) <= N.of_nat (length m).
Proof.
  intros off b m m' H; unfold put in H; destruct (N.leb_spec (off + N.of_nat (length b)) (N.of_nat (length m))) as [L|L]; [|discriminate].
  injection H as <-; rewrite !app_length, map_length, firstn_length, skipn_length; lia.
Qed.
Lemma put_nums_length : forall n l i m m', put_nums n i l m = Val m' -> l <> [] -> 20 + (i + N.of_nat (length l)) * (4 + width n) <= N.of_nat (length m).
Proof.
  intros n l; induction l as [|z l IH]; intros i m m' H NE; [contradiction|]; cbn [put_nums] in H.
  destruct (put32 _ _ _) as [m1|] eqn:E1; [|discriminate]; cbn [obind] in H; apply put_length in E1 as [L1 _].
  destruct (put _ _ _) as [m2|] eqn:E2; [|discriminate]; cbn [obind] in H; apply put_length in E2 as [L2 B]; rewrite be_set_length in B.
  destruct l as [|z' l]; [cbn [length]; rewrite L1 in B; lia|].
  apply IH in H; [|discriminate]; rewrite L2, L1 in H; cbn [length] in *; nia.
Qed.
Lemma header_length : forall size e d m, header size e d = Val m -> length m = N.to_nat size.
Proof.
  intros size e d m H; unfold header in H.
  repeat match type of H with obind ?x _ = _ => let m := fresh "m" in let E := fresh "E" in destruct x as [m|] eqn:E; [|discriminate]; cbn [obind] in H; apply put_length in E as [E _] end.
  apply put_length in H as [H _]; rewrite repeat_length in *; congruence.
Qed.
Lemma too_many : forall n l, 2 ^ 32 <= 20 + N.of_nat (length l) * (4 + width n) -> array_num n l = UB.
Proof.
  intros n l T; unfold array_num; destruct (resize n _) as [m|] eqn:E; [|reflexivity]; cbn [obind].
  unfold resize in E; apply header_length in E; assert (B : N.of_nat (length m) < 2 ^ 32).
  { rewrite E, N2Nat.id; unfold trunc; apply N.mod_lt; discriminate. }
  destruct (put_nums n 0 l m) as [m'|] eqn:P; [|reflexivity]; apply put_nums_length in P; [lia|]; intros ->; cbn in T; lia.
Qed.
Lemma put_texts_length : forall l p m m', put_texts p l m = Val m' -> l <> [] -> p + array_length (map (@length N) l) <= N.of_nat (length m) + 20.
Proof.
  induction l as [|x l IH]; intros p m m' H NE; [contradiction|]; cbn [put_texts] in H.
  destruct (put32 _ _ _) as [m1|] eqn:E1; [|discriminate]; cbn [obind] in H; apply put_length in E1 as [L1 _].
  destruct (put _ _ _) as [m2|] eqn:E2; [|discriminate]; cbn [obind] in H; apply put_length in E2 as [L2 B].
  cbn [map array_length fold_right]; fold (array_length (map (@length N) l)).
  destruct l as [|y l]; [change (array_length (map (@length N) [])) with 20; rewrite L1 in B; lia|].
  apply IH in H; [|discriminate]; rewrite L2, L1 in H; lia.
Qed.
Lemma too_long : forall l, 2 ^ 32 <= array_length (map (@length N) l) -> array_text l = UB.
Proof.
  intros l T; unfold array_text; destruct (header _ _ _) as [m|] eqn:E; [|reflexivity]; cbn [obind].
  apply header_length in E; assert (B : N.of_nat (length m) < 2 ^ 32).
  { rewrite E, N2Nat.id; unfold trunc; apply N.mod_lt; discriminate. }
  destruct (put_texts 20 l m) as [m'|] eqn:P; [|reflexivity]; apply put_texts_length in P; [lia|]; intros ->; cbn in T; lia.
Qed.

(** * What a parameter holds is what a field of the same bytes gives *)
Lemma direct_ok : forall strict t (v : val t), fits t v ->
  exists b, param strict t v = Val (map Some b) /\ field strict t (Some b) (default t) = Got v.
Proof.
  intros strict t v F; assert (K := back_ok strict t v F); destruct t as [|n| | | | | | |n| |]; cbn [val fits param means pg_of fst snd pg_send pg_send1] in *.
  - exists [if v then 1 else 0]; split; [reflexivity|exact K].
  - exists (pg_send1 (num_means n v)); rewrite be_set_send by exact F; split; [reflexivity|exact K].
  - exists v; auto.
  - exists (utf8 v); unfold convert_text; rewrite to_bytes_ok by exact F; split; [reflexivity|exact K].
  - exists v; auto.
  - exists (be_signed 8 (v - us_2000)); split; [|exact K]; change epoch_us with us_2000; assert (us_2000 = 946684800000000)%Z by reflexivity; unfold is_i64.
    destruct (Z.leb_spec (- 2 ^ 63) (v - us_2000)), (Z.ltb_spec (v - us_2000) (2 ^ 63)); cbn [andb]; try lia; now rewrite set_i64_be.
  - exists (be_signed 4 (v - days_2000)); split; [|exact K]; change epoch_days with days_2000; now rewrite set_i32_be.
  - exists ([3; 128; 0; 16] ++ v); split; [reflexivity|exact K].
  - clear K; destruct F as [F A]; exists (head (num_oid n) (length v) ++ items (map (fun z => pg_send1 (num_means n z)) v)); split; [now apply array_num_ok|].
    change (head (num_oid n) (length v)) with (lead (num_oid n) (length v) 1); cbn [field]; unfold field_array; cbn [value].
    rewrite <- app_assoc, array_head_ok by (try apply num_oid_small; eapply array_each_num; eauto).
    destruct (Z.ltb_spec (Z.of_nat (length v)) 0); [lia|]; rewrite Nat2Z.id, field_nums_ok; [reflexivity|exact F|now rewrite lead_length].
  - clear K; destruct F as [F A]; exists (head text_oid (length v) ++ items v); split; [now apply array_text_ok|].
    destruct (array_each_text _ A) as [A1 A2].
    change (head text_oid (length v)) with (lead text_oid (length v) 1); cbn [field]; unfold field_array_text; cbn [value].
    rewrite <- app_assoc, array_head_ok by (try exact A1; reflexivity).
    destruct (Z.ltb_spec (Z.of_nat (length v)) 0); [lia|]; rewrite Nat2Z.id, field_texts_ok; [reflexivity|exact A2|now rewrite lead_length].
  - clear K; destruct F as [F A]; exists (head text_oid (length v) ++ items (map utf8 v)).
    assert (A' : array_length (map (@length N) (map utf8 v)) < 2 ^ 31) by now rewrite map_map.
    split; [rewrite convert_texts_ok by exact F; rewrite <- (map_length utf8 v); now apply array_text_ok|].
    destruct (array_each_text _ A') as [A1 A2]; rewrite map_length in A1; apply Forall_map in A2.
    change (head text_oid (length v)) with (lead text_oid (length v) 1); cbn [field]; unfold field_array_wtext; cbn [value].
    rewrite <- app_assoc, array_head_ok by (try exact A1; reflexivity).
    destruct (Z.ltb_spec (Z.of_nat (length v)) 0); [lia|]; rewrite Nat2Z.id, field_wtexts_ok; [reflexivity|exact F|exact A2|now rewrite lead_length].
Qed.

(** * Arrays made by size *)
Lemma put_other : forall off b m m' i, put off b m = Val m' -> (N.of_nat i < off)%N -> nth_error m' i = nth_error m i.
Proof.
  intros off b m m' i H L; assert (P := put_length _ _ _ _ H); unfold put in H; destruct (_ <=? _); [|discriminate]; injection H as <-.
  rewrite nth_error_app1 by (rewrite firstn_length; lia).
  rewrite <- (firstn_skipn (N.to_nat off) m) at 2; rewrite nth_error_app1; [reflexivity|rewrite firstn_length; lia].
Qed.
Lemma put_before : forall off b m m' i, put off b m = Val m' -> (off + N.of_nat (length b) <= N.of_nat i)%N -> nth_error m' i = nth_error m i.
Proof.
  intros off b m m' i H L; assert (P := put_length _ _ _ _ H); unfold put in H; destruct (_ <=? _); [|discriminate]; injection H as <-.
  rewrite app_assoc; rewrite nth_error_app2 by (rewrite app_length, map_length, firstn_length; lia).
  rewrite app_length, map_length, firstn_length, Nat.min_l by lia.
  rewrite <- (firstn_skipn (N.to_nat off + length b) m) at 2; rewrite nth_error_app2 by (rewrite firstn_length; lia).
  rewrite firstn_length, Nat.min_l by lia; reflexivity.
Qed.
Lemma sized_open : forall n size m, sized n size m -> 0 < size -> 20 + size * (4 + width n) < 2 ^ 32 -> nth_error m 20 = Some None.
Proof.
  intros n size m H P R; induction H as [m E|m m' i z H IH E]; [|unfold set_at in E; rewrite (put_other _ _ _ _ _ E) by lia; exact IH].
  unfold resize in E; unfold trunc in E.
  assert (W : 2 <= width n <= 8) by (destruct n; cbn; lia).
  change (2 ^ 32) with 4294967296 in *.
  assert (5 + size < 4294967296) by nia; assert (4 * (5 + size) + size * width n < 4294967296) by nia.
  rewrite (N.mod_small (5 + size)) in E by assumption; rewrite N.mod_small in E by assumption; set (s := 4 * (5 + size) + size * width n) in E.
  assert (S : 20 < s) by (unfold s; nia); clearbody s; unfold header in E.
  repeat match type of E with obind ?x _ = _ => let m := fresh "m" in let X := fresh "X" in destruct x as [m|] eqn:X; [|discriminate]; cbn [obind] in E; apply put_before with (i := 20%nat) in X; [|now vm_compute] end.
  apply put_before with (i := 20%nat) in E; [|now vm_compute]; rewrite E; repeat match goal with X : nth_error _ 20 = nth_error _ 20 |- _ => rewrite X; clear X end.
  apply nth_error_repeat; lia.
Qed.

(** * What does not arrive *)
Lemma refused_one : forall strict s, Exists (fun c => 0x10ffff < c) s -> to_bytes strict s = None.
Proof.
  intros strict s H; unfold to_bytes; assert (X : existsb (refused strict) s = true); [|now rewrite X].
  apply existsb_exists; apply Exists_exists in H as (c & I & L); exists c; split; [exact I|]; unfold refused; apply N.ltb_lt in L; now rewrite L.
Qed.
Lemma wide_lost : forall strict s, Exists (fun c => 0x10ffff < c) s -> param strict WTEXT s = Val [].
Proof. intros strict s H; cbn [param]; unfold convert_text; now rewrite refused_one. Qed.
Lemma wides_lost : forall strict a s b, Forall (Forall scalar) a -> Exists (fun c => 0x10ffff < c) s ->
  param strict ARRAY_WTEXT (a ++ s :: b) = param strict ARRAY_WTEXT a.
Proof.
  intros strict a s b F H; cbn [param]; f_equal; rewrite (convert_texts_ok strict a) by exact F.
  induction F as [|x a Sx F IH]; cbn [app convert_texts map]; [now rewrite refused_one|]; now rewrite to_bytes_ok, IH.
Qed.
Lemma null_head : forall t lower l, has_null l = true -> forall e, array_head e (pg_send t (PArray lower l) ++ [0]) = Some None.
Proof.
  intros t lower l H e; unfold pg_send; rewrite H; destruct l as [|x l]; [discriminate|]; rewrite <- !app_assoc; unfold array_head.
  match goal with |- context [read32 (be_signed 4 1 ++ ?r) 0] => change (be_signed 4 1 ++ r) with ([] ++ be_signed 4 1 ++ r) at 1 end.
  rewrite read32_ok by (try reflexivity; lia); cbn [Z.eqb Pos.eqb negb].
  rewrite read32_ok by (rewrite ?be_signed_length; try reflexivity; lia); reflexivity.
Qed.
Lemma nulls_lost : forall strict lower l, has_null l = true ->
  (forall n old, field strict (ARRAY n) (Some (pg_send (num_type n) (PArray lower l))) old = Got old) /\
  (forall old, field strict ARRAY_TEXT (Some (pg_send Text (PArray lower l))) old = Got old) /\
  (forall old, field strict ARRAY_WTEXT (Some (pg_send Text (PArray lower l))) old = Got old).
Proof.
  intros strict lower l H; repeat split; intros; cbn [field]; unfold field_array, field_array_text, field_array_wtext; cbn [value]; now rewrite null_head.
Qed.
Lemma address_widened : forall strict b m, length b = 4%nat -> bytes_ok b ->
  exists a r, field strict INET (Some (pg_send Inet (PScalar (PInet4 m b)))) (default INET) = Got a /\ param strict INET a = Val (map Some r) /\
    pg_recv Inet false r = Some (PScalar (PInet6 128 (repeat 0 10 ++ [255; 255] ++ b))).
Proof.
  intros strict b m L B; exists (repeat 0 10 ++ [255; 255] ++ b), ([3; 128; 0; 16] ++ repeat 0 10 ++ [255; 255] ++ b); split.
  - apply (field_ok strict INET (repeat 0 10 ++ [255; 255] ++ b) (PScalar (PInet4 m b))); cbn [fetched]; split.
    + unfold bytes_ok; rewrite !Forall_app; split; [apply Forall_forall; intros x I; apply repeat_spec in I; subst; reflexivity|]; split; [repeat constructor|exact B].
    + split; [rewrite !app_length, L; reflexivity|]; right; eauto.
  - split; [reflexivity|]; destruct b as [|? [|? [|? [|? []]]]]; try discriminate; reflexivity.
Qed.
Lemma time_undefined : forall strict z old, (2 ^ 63 - us_2000 <= z < 2 ^ 63)%Z -> field strict TIMESTAMPTZ (Some (pg_send Timestamptz (PScalar (PTimestamp z)))) old = Undefined.
Proof.
  intros strict z old R; cbn [field value pg_send pg_send1]; assert (us_2000 = 946684800000000)%Z by reflexivity; rewrite <- set_i64_be, rt_i64 by lia; change epoch_us with us_2000.
  unfold is_i64; destruct (Z.leb_spec (- 2 ^ 63) (us_2000 + z)), (Z.ltb_spec (us_2000 + z) (2 ^ 63)); cbn [andb]; try reflexivity; lia.
Qed.
Lemma date_undefined : forall strict z old, (-2 ^ 31 <= z < 2 ^ 31)%Z -> ~ (-12687428 <= days_2000 + z <= 11248737)%Z ->
  field strict DATE (Some (pg_send Date (PScalar (PDate z)))) old = Undefined.
Proof.
  intros strict z old R D; cbn [field value pg_send pg_send1]; rewrite <- set_i32_be, rt_i32 by lia; change epoch_days with days_2000; unfold is_date.
  destruct (Z.leb_spec (-12687428) (days_2000 + z)), (Z.leb_spec (days_2000 + z) 11248737); cbn [andb]; try reflexivity; lia.
Qed.
Lemma null_undefined : forall strict t old, match t with NUM _ | TIMESTAMPTZ | DATE | ARRAY _ | ARRAY_TEXT | ARRAY_WTEXT => True | _ => False end ->
  field strict t None old = Undefined.
Proof. intros strict [|[]| | | | | | |[]| |] old H; try contradiction; reflexivity. Qed.
Lemma null_row : forall strict ts cs k t, nth_error ts k = Some t -> nth_error cs k = Some None -> length cs = length ts ->
  match t with NUM _ | TIMESTAMPTZ | DATE | ARRAY _ | ARRAY_TEXT | ARRAY_WTEXT => True | _ => False end -> forall vs, row strict ts cs <> Got vs.
Proof.
  intros strict ts; induction ts as [|u ts IH]; intros cs k t T C L N vs; [destruct k; discriminate|].
  destruct cs as [|c cs]; [discriminate|]; cbn [row]; destruct k as [|k]; cbn [nth_error] in T, C.
  - injection T as ->; injection C as ->; rewrite null_undefined by exact N; discriminate.
  - destruct (field strict u c (default u)); try discriminate; specialize (IH cs k t T C ltac:(cbn in L; lia) N).
    destruct (row strict ts cs); try discriminate; exfalso; eapply IH; reflexivity.
Qed.
Lemma overflow_num : forall n l, 2 ^ 32 <= array_length (map (fun _ => N.to_nat (width n)) l) -> forall strict, param strict (ARRAY n) l = UB.
Proof. intros n l T strict; rewrite array_length_num in T; now apply too_many. Qed.
