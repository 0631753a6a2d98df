(** Proofs about management records. *)
From Coq Require Import String List NArith ZArith Bool Lia.
From Verif Require Import Model.Base Model.Endian Model.Protocol Model.Streams Model.Management Model.Request
  Spec.EndianSpec Spec.WireSpec Proofs.EndianProofs Proofs.ProtocolProofs.
Import ListNotations.
Local Open Scope N_scope.
Local Ltac Zify.zify_post_hook ::= Z.div_mod_to_equations.

Lemma may_be_app : forall a b bytes, may_be (a ++ b) bytes ->
  exists x y, bytes = x ++ y /\ may_be a x /\ may_be b y.
Proof. intros a b bytes H. apply Forall2_app_inv_l in H as (x & y & A & B & ->). eauto. Qed.

Lemma may_be_known : forall l x, may_be (known l) x -> x = l.
Proof.
  induction l as [|c l IH]; intros x H; inversion H; subst; auto.
  f_equal; [tauto|]. now apply IH.
Qed.

Lemma may_be_length : forall a x, may_be a x -> length x = length a.
Proof. intros a x H. induction H; cbn; auto. Qed.

Lemma may_be_bytes : forall a x, may_be a x -> bytes_ok x.
Proof. intros a x H. induction H; constructor; auto. apply H. Qed.

Lemma may_be_one : forall x, may_be [None] x -> exists r, x = [r].
Proof. intros x H. apply may_be_length in H. destruct x as [|r [|]]; try discriminate. eauto. Qed.

Lemma app_eq_len : forall (A : Type) (a b c d : list A), length a = length c ->
  a ++ b = c ++ d -> a = c /\ b = d.
Proof.
  induction a as [|x a IH]; intros b [|y c] d L E; cbn in *; try discriminate; auto.
  injection E as -> E. destruct (IH b c d ltac:(lia) E). now subst.
Qed.

(** Any type but GET_VALUES is answered with one UNKNOWN_TYPE record naming
    the type. *)
Lemma unknown_answered : forall fuel data type,
  bytes_ok data -> (8 <= length data)%nat -> nth_error data 1 = Some type -> type <> 9 ->
  exists r, localHandler fuel data = Done [r] /\ (exists bytes, may_be r bytes) /\
    forall bytes, may_be r bytes ->
      exists reserved, length reserved = 7%nat /\ is_record 11 0 (type :: reserved) bytes.
Proof.
  intros fuel data type B L T N9. exists (unknown_reply type).
  assert (TB : type < 256).
  { apply nth_error_In in T. unfold bytes_ok in B. rewrite Forall_forall in B. now apply B. }
  split; [|split].
  - unfold localHandler. replace (N.of_nat (length data) <? headerSize) with false
      by (symmetry; apply N.ltb_ge; unfold headerSize; lia).
    unfold rd. rewrite T. unfold T_GET_VALUES. apply N.eqb_neq in N9. now rewrite N9.
  - exists ([1; 11; 0; 0; 0; 8; 0; 0] ++ [type] ++ repeat 0 7).
    repeat constructor; try lia; exact TB.
  - intros bytes M. unfold unknown_reply in M.
    apply may_be_app in M as (h & b & -> & MH & M).
    apply may_be_app in M as (t & res & -> & MT & MR).
    apply may_be_app in MH as (h1 & r0 & -> & MH & M0).
    apply may_be_known in MH, MT. subst h1 t.
    apply may_be_one in M0 as (r & ->). apply may_be_length in MR. rewrite repeat_length in MR.
    exists res. split; auto. split; [cbn [len length]; unfold len; cbn [length]; lia|].
    exists [], r. split; [cbn; lia|]. unfold record_bytes, len. cbn [length]. rewrite MR, app_nil_r. reflexivity.
Qed.

Lemma gv_spins : forall a b c data, processParamHeader data headerSize (N.of_nat (length data)) = Val (Some (a, b, c)) ->
  forall fuel sent, get_values_loop fuel data sent = Spin.
Proof. intros a b c data H. induction fuel as [|f IH]; intro sent; cbn; unfold get_values_turn; rewrite H; auto. Qed.

(** A GET_VALUES record whose content (with the padding) starts with a
    complete pair is never finished; any other is finished and unanswered. *)
Lemma get_values_dichotomy : forall data,
  bytes_ok data -> (8 <= length data)%nat -> nth_error data 1 = Some 9 ->
  ((exists name value enc rest, pair_encoding name value enc /\ skipn 8 data = enc ++ rest) /\
   forall fuel, localHandler fuel data = Spin) \/
  ((forall name value enc rest, pair_encoding name value enc -> skipn 8 data <> enc ++ rest) /\
   forall fuel, localHandler fuel data = Done []).
Proof.
  intros data B L T.
  assert (U : forall fuel, localHandler fuel data = get_values_loop fuel data []).
  { intro fuel. unfold localHandler. replace (N.of_nat (length data) <? headerSize) with false
      by (symmetry; apply N.ltb_ge; unfold headerSize; lia).
    unfold rd. rewrite T. reflexivity. }
  assert (SL : slice data (N.to_nat headerSize) (N.to_nat (N.of_nat (length data))) = skipn 8 data).
  { unfold slice, headerSize. change (N.to_nat 8) with 8%nat. rewrite Nnat.Nat2N.id.
    rewrite firstn_all2; auto. rewrite skipn_length. auto. }
  assert (HL : headerSize <= N.of_nat (length data)) by (unfold headerSize; lia).
  assert (LL : N.of_nat (length data) <= len data) by (unfold len; lia).
  destruct (processParamHeader data headerSize (N.of_nat (length data))) as [[[[a b] c]|]|] eqn:P.
  - left. split; [|intro fuel; rewrite U; eapply gv_spins; eauto].
    destruct (param_sound _ _ _ _ _ _ B LL P) as (X1 & X2 & X3 & X4 & X5).
    exists (slice data (N.to_nat a) (N.to_nat b)), (slice data (N.to_nat b) (N.to_nat c)),
      (slice data (N.to_nat headerSize) (N.to_nat c)), (skipn (N.to_nat c) data).
    split; auto. unfold slice, headerSize. change (N.to_nat 8) with 8%nat.
    replace (skipn (N.to_nat c) data) with (skipn (N.to_nat c - 8) (skipn 8 data)).
    + symmetry. apply firstn_skipn.
    + rewrite <- skipn_add. f_equal. unfold headerSize in *. lia.
  - right. split.
    + rewrite <- SL. apply (param_none_iff data headerSize (N.of_nat (length data)) B HL LL). exact P.
    + intro fuel. rewrite U. destruct fuel; cbn; unfold get_values_turn; rewrite P; reflexivity.
  - exfalso. exact (param_noUB _ _ _ B LL P).
Qed.

(** The number of answers to one GET_VALUES record is unbounded. *)
Lemma get_values_flood : forall data name value enc rest,
  bytes_ok data -> skipn 8 data = enc ++ rest -> (8 <= length data)%nat ->
  pair_encoding name value enc -> forall n, get_values_sent n data [] = concat (repeat (value_reply name) n).
Proof.
  intros data name value enc rest B S L P.
  destruct (param_complete (firstn 8 data) name value enc rest (N.of_nat (length data)) P) as (a & b & c & E & EN & _).
  { unfold len. rewrite firstn_length. rewrite <- (firstn_skipn 8 data) at 2. rewrite S, !app_length, firstn_length. lia. }
  rewrite <- S, firstn_skipn in E, EN.
  assert (H8 : len (firstn 8 data) = headerSize).
  { unfold len. rewrite firstn_length, Nat.min_l by lia. reflexivity. }
  rewrite H8 in E.
  assert (G : forall n sent, get_values_sent n data sent = sent ++ concat (repeat (value_reply name) n)).
  { induction n as [|n IH]; intro sent; [now rewrite app_nil_r|]. cbn. unfold get_values_turn. rewrite E, EN.
    rewrite IH. now rewrite <- app_assoc. }
  intro n. apply (G n []).
Qed.

Lemma mgmt_length : forall name value,
  length (managementReply name value)
  = (10 + length name + length value + N.to_nat (mgmtPadding (N.of_nat (length name)) (N.of_nat (length value))))%nat.
Proof.
  intros. unfold managementReply, header_bytes, known. cbv zeta.
  rewrite !app_length, !map_length, repeat_length. cbn. lia.
Qed.

(** No value reply is a well-formed record: it is two bytes longer than its
    header says. *)
Lemma reply_never_a_record : forall name value bytes type id content,
  (length name <= 127)%nat -> (length value <= 127)%nat ->
  may_be (managementReply name value) bytes -> ~ is_record type id content bytes.
Proof.
  intros name value bytes type id content LN LV M (C & padding & reserved & P & E).
  pose proof (may_be_length _ _ M) as ML. rewrite mgmt_length in ML.
  set (nl := N.of_nat (length name)) in *. set (vl := N.of_nat (length value)) in *.
  assert (PB : mgmtPadding nl vl < 8).
  { unfold mgmtPadding, chunkSize. lia. }
  unfold managementReply in M. fold nl vl in M. cbv zeta in M.
  apply may_be_app in M as (h & b & EB & MH & _). unfold header_bytes in MH.
  apply may_be_app in MH as (h1 & r0 & -> & MH & M0). apply may_be_known in MH.
  apply may_be_one in M0 as (r & ->). subst h1.
  pose proof (f_equal (@length N) E) as EL.
  rewrite EB in E. unfold record_bytes in E, EL.
  assert (T16 : trunc 16 (nl + vl) = nl + vl).
  { unfold trunc. change (2 ^ 16) with 65536. apply N.mod_small. lia. }
  assert (T8 : trunc 8 (mgmtPadding nl vl) = mgmtPadding nl vl).
  { unfold trunc. change (2 ^ 8) with 256. apply N.mod_small. lia. }
  rewrite T16, T8, (to16_digits (nl + vl)) in E by (change (2 ^ 16) with 65536; lia).
  rewrite <- !app_assoc in E. apply (f_equal (skipn 2)) in E. cbn [skipn app] in E.
  apply app_eq_len in E as [_ E]; [|now rewrite be_digits_length].
  apply app_eq_len in E as [E1 E]; [|now rewrite !be_digits_length].
  apply (f_equal be_value) in E1.
  unfold len in *. change (256 ^ N.of_nat 2) with 65536 in *.
  rewrite !be_value_digits in E1 by (change (256 ^ N.of_nat 2) with 65536; lia).
  cbn [app] in E. injection E as E2 _ _.
  rewrite !app_length, !be_digits_length in EL. cbn [length] in EL. lia.
Qed.

Lemma undetermined_byte :
  (forall type id size content, nth_error (stream_record type id size content) 7 = Some None) /\
  (forall name value, nth_error (managementReply name value) 7 = Some None) /\
  (forall type, nth_error (unknown_reply type) 7 = Some None) /\
  (forall id status, nth_error (end_record id status) 7 = Some None).
Proof. repeat split. Qed.

Lemma undetermined_iff : forall type id cl pl content n i,
  nth_error (header_bytes type id cl pl ++ known content ++ repeat None n) i = Some None <->
  i = 7%nat \/ (8 + length content <= i < 8 + length content + n)%nat.
Proof.
  intros type id cl pl content n i.
  set (h := header_bytes type id cl pl).
  assert (HL : length h = 8%nat) by reflexivity.
  assert (H7 : forall j, nth_error h j = Some None -> j = 7%nat).
  { intros j. unfold h, header_bytes. cbn [app known map to16].
    do 8 (destruct j as [|j]; [cbn; congruence|]). cbn. now destruct j. }
  destruct (Nat.lt_ge_cases i 8) as [L|L].
  - rewrite nth_error_app1 by lia. split.
    + intro E. left. now apply H7.
    + intros [->|?]; [reflexivity|lia].
  - rewrite nth_error_app2, HL by lia.
    destruct (Nat.lt_ge_cases (i - 8) (length content)) as [M|M].
    + rewrite nth_error_app1 by (unfold known; rewrite map_length; lia).
      split; [|lia]. unfold known. intro E. exfalso.
      apply nth_error_In in E. apply in_map_iff in E as (x & E & _). discriminate.
    + unfold known. rewrite nth_error_app2, map_length by (rewrite map_length; lia).
      split.
      * intro E. right. assert (i - 8 - length content < n)%nat; [|lia].
        rewrite <- (repeat_length (@None N) n). apply nth_error_Some. intro X; pose proof (eq_trans (eq_sym E) X); discriminate.
      * intros [?|?]; [lia|]. rewrite nth_error_repeat; [reflexivity|lia].
Qed.

Lemma stream_record_undetermined_iff : forall type id size content i,
  nth_error (stream_record type id size content) i = Some None <->
  i = 7%nat \/ (8 + length content <= i < 8 + length content
                  + (N.to_nat size - length content - 8))%nat.
Proof.
  intros type id size content i. unfold stream_record, headerSize. cbv zeta.
  rewrite undetermined_iff.
  replace (N.to_nat (size - N.of_nat (length content) - 8)) with (N.to_nat size - length content - 8)%nat by lia. reflexivity.
Qed.

Lemma reply_undetermined_iff : forall name value i,
  nth_error (managementReply name value) i = Some None <->
  i = 7%nat \/ (10 + length name + length value <= i < length (managementReply name value))%nat.
Proof.
  intros name value i. unfold managementReply. cbv zeta.
  set (n := N.to_nat (mgmtPadding _ _)). set (h := header_bytes _ _ _ _).
  assert (E : forall a, h ++ known a ++ known name ++ known value ++ repeat None n
    = h ++ known (a ++ name ++ value) ++ repeat None n).
  { intros a. unfold known. rewrite !map_app, <- !app_assoc. reflexivity. }
  rewrite E. unfold h. rewrite undetermined_iff. unfold known. rewrite !app_length, map_length, !app_length, repeat_length.
  change (length (header_bytes T_GET_VALUES_RESULT 0 (N.of_nat (length name) + N.of_nat (length value))
    (mgmtPadding (N.of_nat (length name)) (N.of_nat (length value))))) with 8%nat.
  cbn [length]. split; (intros [?|?]; [left; assumption|right; lia]).
Qed.

Lemma unknown_undetermined_iff : forall type i,
  nth_error (unknown_reply type) i = Some None <-> i = 7%nat \/ (9 <= i < 16)%nat.
Proof. intros type i. unfold unknown_reply. rewrite undetermined_iff. reflexivity. Qed.

Lemma end_undetermined_iff : forall id status i,
  nth_error (end_record id status) i = Some None <-> i = 7%nat \/ (13 <= i < 16)%nat.
Proof.
  intros id status i. unfold end_record.
  change (known (to32 0) ++ known [status] ++ repeat None 3) with (known (to32 0 ++ [status]) ++ repeat (@None N) 3).
  rewrite undetermined_iff. reflexivity.
Qed.

(** The answers to single names. *)
Lemma reply_bytes : forall name value bytes, len name < 256 -> len value < 256 ->
  may_be (managementReply name value) bytes ->
  exists l1 l2 pl reserved pad, bytes = [1; 10; 0; 0; l1; l2; pl; reserved; len name; len value] ++ name ++ value ++ pad.
Proof.
  intros name value bytes LN LV M. unfold managementReply in M.
  apply may_be_app in M as (h & b & -> & MH & M). apply may_be_app in M as (ls & b2 & -> & ML & M).
  apply may_be_app in M as (n & b3 & -> & MN & M). apply may_be_app in M as (v & pad & -> & MV & _).
  apply may_be_known in ML, MN, MV. subst ls n v.
  unfold header_bytes in MH. apply may_be_app in MH as (h1 & r0 & -> & MH & M0).
  apply may_be_known in MH. subst h1. apply may_be_one in M0 as (r & ->).
  do 4 eexists. exists pad. fold (len name) (len value).
  replace (trunc 8 (len name)) with (len name) by (unfold trunc; symmetry; apply N.mod_small; exact LN).
  replace (trunc 8 (len value)) with (len value) by (unfold trunc; symmetry; apply N.mod_small; exact LV).
  cbn. reflexivity.
Qed.

Lemma list_eqb_true : forall a b, list_eqb a b = true -> a = b.
Proof.
  induction a as [|x a IH]; intros [|y b] E; cbn in E; try discriminate; auto.
  apply andb_true_iff in E as [E1 E2]. apply N.eqb_eq in E1. f_equal; auto.
Qed.

Lemma value_replies : forall name,
  (forall value, known_value name value -> exists r, value_reply name = [r] /\
    forall bytes, may_be r bytes -> exists l1 l2 pl reserved pad,
      bytes = [1; 10; 0; 0; l1; l2; pl; reserved; len name; len value] ++ name ++ value ++ pad) /\
  ((forall value, ~ known_value name value) -> value_reply name = []).
Proof.
  intro name. split.
  - intros value K. destruct K; (eexists; split; [reflexivity|]; intros bytes M;
      apply reply_bytes in M; [exact M|reflexivity|reflexivity]).
  - intro N. unfold value_reply.
    assert (P : forall v c (r : list (list obyte)), known_value c v -> (if list_eqb name c then r else []) = []).
    { intros v c r K. destruct (list_eqb name c) eqn:E; [|reflexivity]. apply list_eqb_true in E. subst c. destruct (N v K). }
    generalize (length name). intro n.
    do 16 (destruct n as [|n]; [first [reflexivity|eapply P; constructor]|]). reflexivity.
Qed.

(** A value reply is a whole number of eight byte chunks and is padded by no
    more than it takes. *)
Lemma reply_aligned : forall name value,
  (length (managementReply name value) mod 8 = 0)%nat /\
  (10 + length name + length value <= length (managementReply name value)
     < 18 + length name + length value)%nat.
Proof.
  intros name value. rewrite mgmt_length.
  unfold mgmtPadding, chunkSize, headerSize.
  set (a := length name). set (b := length value). clearbody a b.
  assert (Q : exists q r, (9 + a + b = 8 * q + r)%nat /\ (r < 8)%nat /\
    ((8 + 2 + N.of_nat a + N.of_nat b - 1) mod 8 = N.of_nat r)%N).
  { exists ((9 + a + b) / 8)%nat, ((9 + a + b) mod 8)%nat.
    split; [apply Nat.div_mod; discriminate|].
    split; [apply Nat.mod_upper_bound; discriminate|].
    rewrite Nat2N.inj_mod. f_equal. lia. }
  destruct Q as (q & r & E & L & M). rewrite M.
  replace (N.to_nat (8 - 1 - N.of_nat r)) with (7 - r)%nat by lia.
  split; [|lia].
  replace (10 + a + b + (7 - r))%nat with ((q + 1) * 8)%nat by lia.
  apply Nat.mod_mul. discriminate.
Qed.
