(** Proofs about filling the environment. *)
From Coq Require Import String List NArith ZArith Bool Lia ZifyBool ZifyNat ZifyN.
From Verif Require Import Model.Base Model.Protocol Model.HttpCodec Model.Address Model.Environment
  Spec.WireSpec Spec.EscapeSpec Spec.AddressSpec Spec.EnvironmentSpec
  Proofs.ProtocolProofs Proofs.PercentProofs Proofs.UrlProofs Proofs.AddressProofs.
Import ListNotations.
Local Open Scope N_scope.

(* ------------------------------------------------------------------ *)
(** * Addresses: only a trailing ':' makes the following byte matter *)

Lemma rd_follow : forall t c c' rest i, i <> length t -> rd (t ++ c :: rest) i = rd (t ++ c' :: rest) i.
Proof.
  intros t c c' rest i H. unfold rd. destruct (Nat.lt_ge_cases i (length t)).
  - now rewrite !nth_error_app1 by lia.
  - rewrite !nth_error_app2 by lia. destruct (i - length t)%nat eqn:E; [lia|reflexivity].
Qed.

Lemma rd_follow_some : forall t c rest, rd (t ++ c :: rest) (length t) = Some c.
Proof. intros. apply ProtocolProofs.rd_at. reflexivity. Qed.

Lemma atoi_loop_follow : forall f t c c' rest start r, (start <= length t)%nat ->
  atoi_loop f 32 (t ++ c :: rest) start (length t) r = atoi_loop f 32 (t ++ c' :: rest) start (length t) r.
Proof.
  induction f as [|f IH]; intros t c c' rest start r L; cbn [atoi_loop].
  - destruct (Nat.eq_dec start (length t)) as [->|NE].
    + rewrite !rd_follow_some, Nat.ltb_irrefl, !andb_false_r. reflexivity.
    + now rewrite (rd_follow t c c').
  - destruct (Nat.eq_dec start (length t)) as [->|NE].
    + rewrite !rd_follow_some, Nat.ltb_irrefl, !andb_false_r. reflexivity.
    + rewrite (rd_follow t c c') by auto. destruct (rd _ _); auto.
      rewrite (IH t c c') by lia. reflexivity.
Qed.

Lemma atoi_follow : forall f t c c' rest start, (start < length t)%nat ->
  atoi f 32 (t ++ c :: rest) start (length t) = atoi f 32 (t ++ c' :: rest) start (length t).
Proof.
  intros. unfold atoi. rewrite (rd_follow t c c') by lia. destruct (rd _ _); auto.
  rewrite (atoi_loop_follow f t c c') by (destruct (_ =? _); lia). reflexivity.
Qed.

Lemma find_dot_follow : forall f t c c' rest r,
  find_dot f (t ++ c :: rest) r (length t) = find_dot f (t ++ c' :: rest) r (length t).
Proof.
  induction f as [|f IH]; intros; cbn [find_dot]; destruct (Nat.leb_spec (length t) r); auto;
    rewrite (rd_follow t c c') by lia; destruct (rd _ _); auto.
  now rewrite (IH t c c').
Qed.

Lemma quad_rest_follow : forall n t c c' rest r w p d,
  quad_rest n (t ++ c :: rest) r (length t) w p d = quad_rest n (t ++ c' :: rest) r (length t) w p d.
Proof.
  induction n as [|n IH]; intros; cbn [quad_rest]; auto.
  destruct (Nat.leb_spec (length t) r); auto.
  replace (length (t ++ c :: rest)) with (length (t ++ c' :: rest)) by now rewrite !app_length.
  rewrite (find_dot_follow _ t c c'). destruct (find_dot _ _ _ _); auto.
  destruct (Nat.ltb_spec a (length t - 1)); auto.
  rewrite (atoi_follow _ t c c') by lia. destruct (atoi _ _ _ _ _); auto.
  destruct (wr _ _ _); auto.
Qed.

Lemma a_loop_follow : forall f t c c' rest r w p ch d, t <> [] -> last t 0 <> 58 -> (r <= length t)%nat ->
  a_loop f (t ++ c :: rest) (length t) r w p ch d = a_loop f (t ++ c' :: rest) (length t) r w p ch d.
Proof.
  induction f as [|f IH]; intros t c c' rest r w p ch d NE LT L; cbn [a_loop]; [reflexivity|].
  destruct (Nat.leb_spec (length t) r) as [G|G].
  - assert (r = length t) by lia. subst r.
    assert (E0 : (length t =? 0)%nat = false) by (destruct t; [congruence|reflexivity]).
    rewrite E0.
    assert (X : forall x, rd (t ++ x :: rest) (length t - 1) = Some (last t 0)).
    { intro x. destruct (exists_last NE) as (t' & y & ->). rewrite last_last, app_length. cbn [length].
      replace (length t' + 1 - 1)%nat with (length t') by lia. rewrite <- app_assoc. apply ProtocolProofs.rd_at. reflexivity. }
    rewrite !X. cbv beta iota. destruct (N.eqb_spec (last t 0) 0x3a); [congruence|].
    destruct (wr _ _ _); auto. destruct (wr _ _ _); auto.
    rewrite !orb_true_r. reflexivity.
  - rewrite (rd_follow t c c') by lia.
    destruct (rd (t ++ c' :: rest) r) as [x|]; cbn [option_map]; [|reflexivity].
    rewrite (rd_follow t c c' rest (r - 1)) by lia.
    destruct (x =? 0x3a).
    + destruct (if (r =? 0)%nat then _ else _) as [prev|]; [|reflexivity].
      destruct (prev =? 0x3a).
      * destruct (_ && _); [reflexivity|]. apply IH; assumption.
      * destruct (wr _ _ _); [|reflexivity]. destruct (wr _ _ _); [|reflexivity].
        destruct (_ || _); [reflexivity|]. apply IH; assumption.
    + destruct (hex_offset x); [apply IH; assumption|].
      destruct (x =? 0x2e); [|reflexivity]. unfold quad.
      destruct (w =? 0)%nat; [destruct (wr d 0 255); [|reflexivity]; destruct (wr _ 1 _); [|reflexivity]|destruct (12 <? w)%nat; [reflexivity|]];
        (destruct (wr _ _ _); [|reflexivity]); apply quad_rest_follow.
Qed.

Lemma address_text_nonempty : forall t a, address_text t a -> t <> [].
Proof.
  intros t a H E. destruct H as [t bs P L|t1 b1 t2 b2 n _ _ _ _|t bs P].
  - destruct (pieces_len _ _ P). congruence.
  - destruct t1; discriminate.
  - destruct P as (t1 & t2 & t3 & t4 & ? & ? & ? & ? & _ & _ & _ & _ & E' & _). subst.
    destruct t1; discriminate.
Qed.

Lemma assign_any : forall t a c rest data,
  address_text t a -> ~ compat_text t -> (last t 0 = 58 -> c <> 58) -> length data = 16%nat ->
  forall fuel, (length t + 4 <= fuel)%nat ->
  assign fuel (t ++ c :: rest) (length t) data = Done a.
Proof.
  intros t a c rest data A NC HC D fuel HF.
  destruct (N.eq_dec (last t 0) 58) as [E|E].
  - apply assign_text; auto.
  - rewrite <- (assign_text t a 0 rest data A NC ltac:(discriminate) D fuel HF).
    unfold assign. rewrite (a_loop_follow fuel t c 0 rest); auto; [|lia].
    eapply address_text_nonempty; eauto.
Qed.

Lemma address_text_length : forall t a, address_text t a -> length a = 16%nat.
Proof.
  intros t a H. destruct H as [t bs P L|t1 b1 t2 b2 n _ _ L _|t bs P]; auto.
  - rewrite !app_length, repeat_length. lia.
  - destruct P as (? & ? & ? & ? & ? & ? & ? & ? & _ & _ & _ & _ & _ & ->). reflexivity.
Qed.

(* ------------------------------------------------------------------ *)
(** * Numbers *)

Lemma land_digit : forall c, (48 <=? c) && (c <=? 57) = true -> N.land c 0x0f = c - 48.
Proof.
  intros c H.
  assert (X : forallb (fun c => N.land c 0x0f =? c - 48) (map N.of_nat (seq 48 10)) = true) by reflexivity.
  rewrite forallb_forall in X. specialize (X c). apply N.eqb_eq, X.
  apply in_map_iff. exists (N.to_nat c). split; [lia|]. apply in_seq. lia.
Qed.

Lemma fold_ge : forall l a, a <= fold_left (fun a d => 10 * a + (d - 48)) l a.
Proof. induction l as [|d l IH]; intro a; cbn [fold_left]; [lia|]. specialize (IH (10 * a + (d - 48))). lia. Qed.

Lemma atoi_loop_env : forall v p after f acc, after <> [] -> (length v <= f)%nat ->
  fold_left (fun a d => 10 * a + (d - 48)) (digits_prefix v) acc < 2 ^ 31 ->
  atoi_loop f 32 (p ++ v ++ after) (length p) (length p + length v) (Z.of_N acc)
  = Done (Z.of_N (fold_left (fun a d => 10 * a + (d - 48)) (digits_prefix v) acc)).
Proof.
  induction v as [|x v IH]; intros p after f acc NE LF LT.
  - cbn [digits_prefix fold_left]. destruct after as [|c after]; [congruence|].
    cbn [app length]. rewrite Nat.add_0_r.
    destruct f; cbn [atoi_loop]; rewrite ProtocolProofs.rd_at by auto; rewrite Nat.ltb_irrefl, andb_false_r; reflexivity.
  - cbn [length app digits_prefix] in *. destruct f as [|f]; [lia|]. cbn [atoi_loop].
    rewrite ProtocolProofs.rd_at by auto.
    replace (length p <? length p + S (length v))%nat with true by (symmetry; apply Nat.ltb_lt; lia).
    rewrite andb_true_r. destruct ((48 <=? x) && (x <=? 57)) eqn:D; [|reflexivity].
    cbn [fold_left] in *. rewrite land_digit by auto.
    pose proof (fold_ge (digits_prefix v) (10 * acc + (x - 48))).
    replace (2 ^ (32 - 1) <=? Z.of_N acc * 10 + Z.of_N (x - 48))%Z with false by lia.
    replace (Z.of_N acc * 10 + Z.of_N (x - 48))%Z with (Z.of_N (10 * acc + (x - 48))) by lia.
    specialize (IH (p ++ [x]) after f (10 * acc + (x - 48)) NE ltac:(lia) LT).
    rewrite <- app_assoc, app_length in IH. cbn [app length] in IH.
    replace (length p + 1)%nat with (S (length p)) in IH by lia.
    replace (S (length p) + length v)%nat with (length p + S (length v))%nat in IH by lia. exact IH.
Qed.

Lemma case45 : forall (A : Type) x (a b : A), match x with 45 => a | _ => b end = if x =? 45 then a else b.
Proof.
  intros A x a b. destruct (N.eqb_spec x 45) as [->|H]; auto.
  destruct x as [|p]; auto.
  do 6 (destruct p as [p|p|]; auto). congruence.
Qed.

Lemma magnitude_cons : forall x v, magnitude (x :: v) =
  if x =? 45 then digits_value (digits_prefix v) else digits_value (digits_prefix (x :: v)).
Proof.
  intros x v. unfold magnitude. exact (case45 _ x _ _).
Qed.

Lemma leading_cons : forall x v, leading_int (x :: v) =
  if x =? 45 then (- Z.of_N (magnitude (x :: v)))%Z else Z.of_N (magnitude (x :: v)).
Proof.
  intros x v. unfold leading_int. exact (case45 _ x _ _).
Qed.

Lemma atoi_env : forall v p after f, readable after -> (length v <= f)%nat -> magnitude v < 2 ^ 31 ->
  atoi f 32 (p ++ v ++ after) (length p) (length p + length v) = Done (leading_int v).
Proof.
  intros v p after f R LF M. unfold atoi.
  assert (NE : after <> []) by (destruct after; [destruct R|discriminate]).
  destruct v as [|x v].
  - cbn [app length]. rewrite Nat.add_0_r. destruct after as [|c after]; [congruence|].
    rewrite ProtocolProofs.rd_at by auto. destruct (N.eqb_spec c 45) as [->|NC].
    + destruct after as [|d after]; [cbn in R; congruence|].
      assert (X : rd (p ++ 45 :: d :: after) (S (length p)) = Some d).
      { replace (p ++ 45 :: d :: after) with ((p ++ [45]) ++ d :: after) by now rewrite <- app_assoc.
        apply ProtocolProofs.rd_at. rewrite app_length. cbn. lia. }
      destruct f; cbn [atoi_loop]; rewrite X;
        replace (S (length p) <? length p)%nat with false by (symmetry; apply Nat.ltb_ge; lia);
        rewrite andb_false_r; reflexivity.
    + destruct f; cbn [atoi_loop]; rewrite ProtocolProofs.rd_at by auto; rewrite Nat.ltb_irrefl, andb_false_r; reflexivity.
  - cbn [app]. rewrite ProtocolProofs.rd_at by auto. rewrite leading_cons. rewrite magnitude_cons in *.
    destruct (N.eqb_spec x 45) as [->|NX].
    + change 0%Z with (Z.of_N 0). pose proof (atoi_loop_env v (p ++ [45]) after f 0 NE) as Q.
      rewrite <- app_assoc, app_length in Q. cbn [app length] in *.
      replace (length p + 1)%nat with (S (length p)) in Q by lia.
      replace (S (length p) + length v)%nat with (length p + S (length v))%nat in Q by lia.
      rewrite (Q ltac:(lia) M). reflexivity.
    + change 0%Z with (Z.of_N 0). apply N.eqb_neq in NX.
      pose proof (atoi_loop_env (x :: v) p after f 0 NE LF) as Q. cbn [app] in Q.
      rewrite Q; [reflexivity|exact M].
Qed.

(** Above the range the behaviour is undefined. *)
Lemma atoi_loop_overflow : forall v p after f acc, after <> [] -> (length v <= f)%nat -> acc < 2 ^ 31 ->
  2 ^ 31 <= fold_left (fun a d => 10 * a + (d - 48)) (digits_prefix v) acc ->
  atoi_loop f 32 (p ++ v ++ after) (length p) (length p + length v) (Z.of_N acc) = Undef.
Proof.
  induction v as [|x v IH]; intros p after f acc NE LF LA LT.
  - cbn in LT. lia.
  - cbn [length app digits_prefix] in *. destruct f as [|f]; [lia|]. cbn [atoi_loop].
    rewrite ProtocolProofs.rd_at by auto.
    replace (length p <? length p + S (length v))%nat with true by (symmetry; apply Nat.ltb_lt; lia).
    rewrite andb_true_r. destruct ((48 <=? x) && (x <=? 57)) eqn:D; [|cbn in LT; lia].
    cbn [fold_left] in *. rewrite land_digit by auto.
    destruct (Z.leb_spec (2 ^ (32 - 1)) (Z.of_N acc * 10 + Z.of_N (x - 48))); auto.
    replace (Z.of_N acc * 10 + Z.of_N (x - 48))%Z with (Z.of_N (10 * acc + (x - 48))) by lia.
    specialize (IH (p ++ [x]) after f (10 * acc + (x - 48)) NE ltac:(lia) ltac:(lia) LT).
    rewrite <- app_assoc, app_length in IH. cbn [app length] in IH.
    replace (length p + 1)%nat with (S (length p)) in IH by lia.
    replace (S (length p) + length v)%nat with (length p + S (length v))%nat in IH by lia. exact IH.
Qed.

Lemma atoi_overflow : forall v p after f, after <> [] -> (length v <= f)%nat -> 2 ^ 31 <= magnitude v ->
  atoi f 32 (p ++ v ++ after) (length p) (length p + length v) = Undef.
Proof.
  intros v p after f NE LF M. unfold atoi.
  destruct v as [|x v]; [cbn in M; lia|].
  cbn [app]. rewrite ProtocolProofs.rd_at by auto. rewrite magnitude_cons in *.
  destruct (N.eqb_spec x 45) as [->|NX].
  - change 0%Z with (Z.of_N 0). pose proof (atoi_loop_overflow v (p ++ [45]) after f 0 NE) as Q.
    rewrite <- app_assoc, app_length in Q. cbn [app length] in *.
    replace (length p + 1)%nat with (S (length p)) in Q by lia.
    replace (S (length p) + length v)%nat with (length p + S (length v))%nat in Q by lia.
    now rewrite (Q ltac:(lia) ltac:(lia) M).
  - change 0%Z with (Z.of_N 0).
    pose proof (atoi_loop_overflow (x :: v) p after f 0 NE LF ltac:(lia)) as Q. cbn [app] in Q.
    now rewrite Q.
Qed.

(* ------------------------------------------------------------------ *)
(** * Splitting *)

Lemma split_nonempty : forall c l, split_on c l <> [].
Proof.
  induction l as [|x l IH]; cbn; [discriminate|]. destruct (x =? c); [discriminate|].
  destruct (split_on c l); discriminate.
Qed.

Lemma split_app : forall c a b, ~ In c a -> split_on c (a ++ c :: b) = a :: split_on c b.
Proof.
  induction a as [|x a IH]; intros b NI; cbn.
  - now rewrite N.eqb_refl.
  - destruct (N.eqb_spec x c) as [->|]; [exfalso; apply NI; now left|].
    rewrite IH; auto. intro H. apply NI. now right.
Qed.

Lemma split_none : forall c a, ~ In c a -> split_on c a = [a].
Proof.
  induction a as [|x a IH]; intro NI; cbn; auto.
  destruct (N.eqb_spec x c) as [->|]; [exfalso; apply NI; now left|].
  rewrite IH; auto. intro H. apply NI. now right.
Qed.

Lemma find_char_cut : forall c l,
  find_char c l = match cut_char c l with Some (a, b) => (a, c :: b) | None => (l, []) end.
Proof.
  induction l as [|x l IH]; cbn; auto. destruct (N.eqb_spec x c) as [->|]; auto.
  rewrite IH. destruct (cut_char c l) as [[a b]|]; auto.
Qed.

Lemma cut_char_some : forall c l a b, cut_char c l = Some (a, b) -> l = a ++ c :: b /\ ~ In c a.
Proof.
  induction l as [|x l IH]; cbn; [discriminate|]. intros a b.
  destruct (N.eqb_spec x c) as [->|NE].
  - intros [= <- <-]. auto.
  - destruct (cut_char c l) as [[a' b']|] eqn:E; [|discriminate]. intros [= <- <-].
    destruct (IH _ _ eq_refl) as [-> NI]. split; auto. intros [H|H]; auto.
Qed.

Lemma cut_char_none : forall c l, cut_char c l = None -> ~ In c l.
Proof.
  induction l as [|x l IH]; cbn; auto. destruct (N.eqb_spec x c) as [->|NE]; [discriminate|].
  destruct (cut_char c l) as [[a' b']|] eqn:E; [discriminate|]. intros _ [H|H]; auto. now apply IH.
Qed.

(* ------------------------------------------------------------------ *)
(** * Languages *)

Lemma strip_eq : forall l, strip l = drop_spaces l.
Proof.
  induction l as [|x l IH]; auto.
  change (strip (x :: l)) with (match x with 32 => strip l | _ => x :: l end).
  cbn [drop_spaces]. rewrite <- IH. clear IH. destruct (N.eqb_spec x 32) as [->|H]; auto.
  destruct x as [|p]; auto.
  do 6 (destruct p as [p|p|]; auto). congruence.
Qed.

Lemma trim_eq : forall l, trim l = trim_spaces l.
Proof. intro. unfold trim, trim_spaces. now rewrite !strip_eq. Qed.

Lemma first_dash_eq : forall l,
  first_dash l = match cut_char 45 l with Some (a, b) => a ++ 95 :: b | None => l end.
Proof.
  induction l as [|x l IH]; auto. cbn. destruct (N.eqb_spec x 45); auto.
  rewrite IH. destruct (cut_char 45 l) as [[a b]|]; auto.
Qed.

Definition chop (l : list (list N)) : list (list N) :=
  match rev l with [] :: r => rev r | _ => l end.

Lemma chop_cons : forall x l, l <> [] -> chop (x :: l) = x :: chop l.
Proof.
  intros x l NE. destruct (exists_last NE) as (l' & y & ->). unfold chop. cbn [rev].
  rewrite !rev_app_distr. cbn [rev app]. destruct y; auto.
  rewrite rev_app_distr. reflexivity.
Qed.

Lemma languages_chop : forall v, languages v = map language (chop (split_on 44 v)).
Proof. reflexivity. Qed.

Lemma lang_loop_ok : forall fuel l acc, (length l <= fuel)%nat ->
  lang_loop fuel l acc = Done (acc ++ languages l).
Proof.
  induction fuel as [|f IH]; intros l acc L.
  - destruct l; [|cbn in L; lia]. cbn. now rewrite app_nil_r.
  - destruct l as [|x l].
    { cbn. now rewrite app_nil_r. }
    cbn [lang_loop]. set (w := x :: l) in *. assert (WL : (1 <= length w)%nat) by (cbn; lia).
    assert (WN : w <> []) by discriminate. clearbody w.
    rewrite !languages_chop, !find_char_cut. 
    assert (LG : forall g, first_dash (trim_spaces (fst match cut_char 59 g with Some (a, b) => (a, 59 :: b) | None => (g, []) end)) = language g).
    { intro g. unfold language, before. rewrite first_dash_eq, <- trim_eq. now destruct (cut_char 59 g) as [[]|]. }
    rewrite LG.
    destruct (cut_char 44 w) as [[a b]|] eqn:E.
    + apply cut_char_some in E as [-> NI]. cbn [fst].
      replace (skipn (length a + 1) (a ++ 44 :: b)) with b.
      * rewrite IH by (rewrite app_length in L; cbn in L; lia). rewrite languages_chop.
        rewrite split_app, chop_cons, <- app_assoc by (auto; apply split_nonempty). reflexivity.
      * replace (a ++ 44 :: b) with ((a ++ [44]) ++ b) by now rewrite <- app_assoc.
        symmetry. apply skipn_at. rewrite app_length. reflexivity.
    + apply cut_char_none in E. cbn [fst]. rewrite skipn_all2 by lia.
      rewrite IH by (cbn; lia). rewrite split_none by auto. unfold chop. cbn [rev app].
      destruct w; [congruence|]. rewrite languages_chop. cbn. now rewrite app_nil_r.
Qed.

(* ------------------------------------------------------------------ *)
(** * Methods *)

Lemma method_ok : forall v, method_of v = method_number v.
Proof.
  intro v. unfold method_number, method_names, method_of. cbn [place].
  Ltac label v s := let E := fresh "E" in
    destruct (list_eqb v (lit s)) eqn:E; [apply list_eqb_eq in E; subst v; reflexivity|].
  label v "HEAD"%string. label v "GET"%string. label v "POST"%string. label v "PUT"%string.
  label v "DELETE"%string. label v "TRACE"%string. label v "OPTIONS"%string. label v "CONNECT"%string.
  label v "PATCH"%string.
  do 8 (destruct (length v) as [|n]; [reflexivity|generalize n; clear n; intro n]) || idtac.
  repeat (destruct n as [|n]; [reflexivity|]). reflexivity.
Qed.
