(** The example applications. *)
From Coq Require Import String List NArith ZArith Bool Lia ZifyBool ZifyNat ZifyN.
From Verif Require Import Model.Base Model.Endian Model.Protocol Model.WebMaps Model.Streams
  Model.Environment Model.Multipart Model.Request Model.Examples
  Spec.EndianSpec Spec.WireSpec Spec.EscapeSpec Spec.StreamSpec Spec.AddressSpec Spec.EnvironmentSpec
  Spec.RequestSpec Spec.PageSpec Spec.ExampleSpec
  Proofs.EscapeProofs Proofs.RequestProofs Proofs.RequestLifeProofs Proofs.AgreeProofs.
Import ListNotations.
Local Open Scope N_scope.

(** ** Text in pieces *)
Fixpoint ends (e : encoding) (os : list sop) : encoding :=
  match os with
  | [] => e
  | OpEnc e' :: os' => ends e' os'
  | _ :: os' => ends e os'
  end.

Lemma text_app : forall conv a e b, text_of conv e (a ++ b) = text_of conv e a ++ text_of conv (ends e a) b.
Proof.
  intros conv. induction a as [|o a IH]; intros e b; auto.
  destruct o; cbn [app text_of ends]; rewrite ?IH, ?app_assoc; auto.
Qed.

Lemma ends_app : forall a e b, ends e (a ++ b) = ends (ends e a) b.
Proof. induction a as [|o a IH]; intros e b; auto. destruct o; cbn; auto. Qed.

Notation T := (text_of utf8 E_NONE).
Definition closed (a : list sop) : Prop := ends E_NONE a = E_NONE.

Lemma T_app : forall a b, closed a -> T (a ++ b) = T a ++ T b.
Proof. intros a b C. rewrite text_app. now rewrite C. Qed.

Lemma closed_app : forall a b, closed a -> closed b -> closed (a ++ b).
Proof. unfold closed. intros a b A B. now rewrite ends_app, A. Qed.

Lemma utf8_app : forall a b, utf8 (a ++ b) = utf8 a ++ utf8 b.
Proof. intros. unfold utf8. now rewrite flat_map_app. Qed.

(** ** Markup *)
Fixpoint after (inside : bool) (s : list N) : bool :=
  match s with
  | [] => inside
  | c :: r => if inside then after (negb (c =? 62)) r else if c =? 60 then after true r else after false r
  end.

Lemma markup_app : forall a b i, markup i (a ++ b) = markup i a ++ markup (after i a) b.
Proof.
  induction a as [|c a IH]; intros b i; auto. cbn [app markup after].
  destruct i; [cbn; now rewrite IH|]. destruct (c =? 60); [cbn; now rewrite IH|apply IH].
Qed.

Lemma after_app : forall a b i, after i (a ++ b) = after (after i a) b.
Proof.
  induction a as [|c a IH]; intros b i; auto. cbn [app after].
  destruct i; [auto|]. destruct (c =? 60); auto.
Qed.

Lemma tagless_markup : forall s, tagless s -> markup false s = [] /\ after false s = false.
Proof.
  induction s as [|c s IH]; intros (A & B); auto. cbn [markup after].
  destruct (N.eqb_spec c 60) as [->|]; [exfalso; apply A; now left|].
  apply IH. split; intros X; [apply A|apply B]; now right.
Qed.

Lemma utf8_tagless : forall s, tagless s -> tagless (utf8 s).
Proof.
  intros s (A & B). unfold tagless, utf8. rewrite !in_flat_map.
  assert (H : forall c x, In x (utf8_1 c) -> x < 128 -> x = c).
  { intros c x. unfold utf8_1.
    destruct (N.ltb_spec c 128); [cbn; intuition|].
    destruct (c <? 2048); [cbn [In]; intros [<-|[<-|[]]]; lia|].
    destruct (c <? 65536); [cbn [In]; intros [<-|[<-|[<-|[]]]]; lia|].
    cbn [In]; intros [<-|[<-|[<-|[<-|[]]]]]; lia. }
  split; intros (c & IC & IX); apply H in IX; try lia; subst; contradiction.
Qed.

Lemma html_tagless : forall s, tagless (html_escape s).
Proof. intros s. split; intros H; apply html_clean in H; apply H; cbn; auto. Qed.

Definition sim (s1 s2 : list N) : Prop :=
  markup false s1 = markup false s2 /\ after false s1 = false /\ after false s2 = false.
Definition simT (a b : list sop) : Prop := closed a /\ closed b /\ sim (T a) (T b).

Lemma simT_app : forall a b a' b', simT a a' -> simT b b' -> simT (a ++ b) (a' ++ b').
Proof.
  intros a b a' b' (C1 & C2 & M1 & A1 & A2) (C3 & C4 & M2 & A3 & A4).
  split; [now apply closed_app|]. split; [now apply closed_app|].
  rewrite !T_app by auto. unfold sim. rewrite !markup_app, !after_app, A1, A2, M1, M2. auto.
Qed.

Lemma simT_cons : forall x y a b, simT [x] [y] -> simT a b -> simT (x :: a) (y :: b).
Proof. intros. now apply (simT_app [x] a [y] b). Qed.

Lemma simT_nil : simT [] [].
Proof. repeat split. Qed.

Lemma simT_lit : forall s, after false (utf8 s) = false -> simT [OpWrite s] [OpWrite s].
Proof. intros s H. repeat split; cbn; now rewrite app_nil_r. Qed.

Lemma sim_tagless : forall a b, tagless a -> tagless b -> sim a b.
Proof.
  intros a b A B. apply tagless_markup in A as (A1 & A2). apply tagless_markup in B as (B1 & B2).
  unfold sim. now rewrite A1, B1.
Qed.

Lemma simT_free : forall s t, tagless s -> tagless t -> simT [OpWrite s] [OpWrite t].
Proof.
  intros s t A B. split; [reflexivity|]. split; [reflexivity|].
  cbn. rewrite !app_nil_r. apply sim_tagless; now apply utf8_tagless.
Qed.

Lemma simT_shown : forall s t, simT (shown s) (shown t).
Proof.
  intros s t. split; [reflexivity|]. split; [reflexivity|].
  cbn. rewrite !app_nil_r. apply sim_tagless; apply utf8_tagless, html_tagless.
Qed.

Lemma simT_dump : forall s t, tagless s -> tagless t -> simT [OpDump s] [OpDump t].
Proof.
  intros s t A B. split; [reflexivity|]. split; [reflexivity|].
  cbn. rewrite !app_nil_r. now apply sim_tagless.
Qed.

Lemma tagless_app : forall a b, tagless a -> tagless b -> tagless (a ++ b).
Proof. unfold tagless. intros a b (A & B) (C & D). rewrite !in_app_iff. tauto. Qed.

Lemma simT_flat : forall A (f : A -> list sop) (P : A -> Prop),
  (forall x y, P x -> P y -> simT (f x) (f y)) ->
  forall l1 l2, length l1 = length l2 -> Forall P l1 -> Forall P l2 -> simT (flat_map f l1) (flat_map f l2).
Proof.
  intros A f P H. induction l1 as [|x l1 IH]; intros [|y l2] E F1 F2; try discriminate; [apply simT_nil|].
  cbn [flat_map]. inversion F1; inversion F2; subst. apply simT_app; auto.
Qed.

Definition scalarb (c : N) : bool := (c <? 0xd800) || ((0xdfff <? c) && (c <=? 0x10ffff)).

Lemma scalars : forall s, forallb scalarb s = true -> Forall scalar s.
Proof.
  intros s H. rewrite forallb_forall in H. apply Forall_forall. intros c C. apply H in C.
  unfold scalarb in C. unfold scalar. lia.
Qed.

Section Echo.
Variable dec : N -> list N.
Variable time_text : Z -> list N.
Variable widen : list N -> list N.
Variable address_out : list N -> list N.
Variable version : list N.
Hypothesis D : forall n, tagless (dec n).
Hypothesis AO : forall a, tagless (address_out a).
Hypothesis V : tagless (widen version).
Hypothesis WI : forall s, Forall (fun c => c < 128) s -> widen s = s.

Notation ops := (echo_ops dec time_text widen address_out version).

Lemma label_ascii : forall m, Forall (fun c => c < 128) (method_label m) /\ tagless (method_label m).
Proof.
  intros m. unfold method_label.
  set (L := ["ERROR"; "HEAD"; "GET"; "POST"; "PUT"; "DELETE"; "TRACE"; "OPTIONS"; "CONNECT"; "PATCH"]%string).
  assert (H : forallb (fun s => forallb (fun c => (c <? 128) && negb (c =? 60) && negb (c =? 62)) (lit s))
    (""%string :: L) = true) by reflexivity.
  rewrite forallb_forall in H.
  assert (G : In (nth (N.to_nat m) L ""%string) (""%string :: L)).
  { destruct (nth_in_or_default (N.to_nat m) L ""%string) as [I|I]; [now right|rewrite I; now left]. }
  apply H in G. rewrite forallb_forall in G. split.
  - apply Forall_forall. intros c C. apply G in C. lia.
  - split; intros C; apply G in C; discriminate.
Qed.

Lemma label_tagless : forall m, tagless (widen (method_label m)).
Proof. intros m. destruct (label_ascii m) as (A & B). now rewrite WI. Qed.

Lemma languages_text : forall l, tagless (text_of utf8 E_HTML (echo_languages widen l)) /\
  ends E_HTML (echo_languages widen l) = E_HTML.
Proof.
  induction l as [|x l (IH & IE)]; [split; [split; intros []|reflexivity]|].
  assert (X : tagless (utf8 (escape E_HTML (widen x)))) by apply utf8_tagless, html_tagless.
  destruct l as [|y l]; cbn [echo_languages text_of app ends] in *.
  - split; [|auto]. now rewrite app_nil_r.
  - split; [|exact IE]. apply tagless_app; [auto|]. apply tagless_app; [|exact IH].
    apply utf8_tagless, html_tagless.
Qed.

Lemma simT_langs : forall l l', 
  simT ([OpEnc E_HTML] ++ echo_languages widen l ++ [OpEnc E_NONE])
       ([OpEnc E_HTML] ++ echo_languages widen l' ++ [OpEnc E_NONE]).
Proof.
  intros l l'. destruct (languages_text l) as (A & B). destruct (languages_text l') as (A' & B').
  split; [unfold closed; cbn [app ends]; now rewrite ends_app, B|].
  split; [unfold closed; cbn [app ends]; now rewrite ends_app, B'|].
  cbn [app text_of]. rewrite !text_app, B, B'. cbn [text_of]. rewrite !app_nil_r. now apply sim_tagless.
Qed.

Ltac part := first
  [ apply simT_nil | apply simT_shown | apply simT_langs
  | (apply simT_app; [part|part])
  | (apply simT_cons; [first [apply simT_lit; vm_compute; reflexivity | apply simT_free; auto]|part]) ].

Lemma environment_sim : forall e1 e2,
  simT (echo_environment dec time_text widen address_out version e1)
       (echo_environment dec time_text widen address_out version e2).
Proof. intros e1 e2. unfold echo_environment. pose proof label_tagless as LT. part. Qed.

Lemma nbsp_tagless : forall n, tagless (concat (repeat (lit "&nbsp;&nbsp;&nbsp;&nbsp;") n)).
Proof.
  induction n as [|n IH]; [split; intros []|]. cbn [repeat concat]. apply tagless_app; auto.
  split; intros H; cbn in H; intuition discriminate.
Qed.

Lemma elements_sim : forall l1 l2 n, length l1 = length l2 -> simT (echo_elements n l1) (echo_elements n l2).
Proof.
  pose proof nbsp_tagless as NT.
  induction l1 as [|x l1 IH]; intros [|y l2] n E; try discriminate; [apply simT_nil|].
  cbn [echo_elements]. apply simT_app; [part|]. apply simT_app; [part|]. apply simT_app; [part|].
  apply IH. now injection E.
Qed.

Lemma path_sim : forall l1 l2, length l1 = length l2 -> simT (echo_path l1) (echo_path l2).
Proof.
  intros l1 l2 E. unfold echo_path. apply simT_app; [part|].
  destruct l1 as [|x l1], l2 as [|y l2]; try discriminate; [part|].
  apply simT_app; [part|]. apply simT_app; [now apply elements_sim|part].
Qed.

Lemma pair_sim : forall p q, simT (echo_pair p) (echo_pair q).
Proof. intros p q. unfold echo_pair. part. Qed.

Lemma table_sim : forall t n l1 l2, simT [w t] [w t] -> simT [w n] [w n] -> length l1 = length l2 ->
  simT (echo_table t n l1) (echo_table t n l2).
Proof.
  intros t n l1 l2 Ht Hn E. unfold echo_table. apply simT_app; [auto|].
  destruct l1 as [|x l1], l2 as [|y l2]; try discriminate; [auto|].
  apply (simT_flat _ echo_pair (fun _ => True)); auto using pair_sim; apply Forall_forall; auto.
Qed.

Lemma file_sim : forall f g, tagless (file_data f) -> tagless (file_data g) ->
  simT (echo_file dec f) (echo_file dec g).
Proof.
  intros (n & (fn & ct) & d) (n' & (fn' & ct') & d') F G. cbn [file_data snd] in F, G. unfold echo_file.
  do 6 (apply simT_app; [part|]).
  apply simT_cons; [part|]. apply simT_cons; [part|]. apply simT_cons; [part|].
  apply simT_cons; [now apply simT_dump|part].
Qed.

Lemma files_sim : forall e1 e2, plain_files e1 -> plain_files e2 -> length (e_files e1) = length (e_files e2) ->
  simT (echo_files dec (e_files e1)) (echo_files dec (e_files e2)).
Proof.
  intros e1 e2 P1 P2 E. unfold echo_files. apply simT_app; [part|].
  destruct (e_files e1) as [|x l1] eqn:E1, (e_files e2) as [|y l2] eqn:E2; try discriminate; [part|].
  apply (simT_flat _ (echo_file dec) (fun f => tagless (file_data f))); auto using file_sim.
  - rewrite <- E1. apply Forall_forall. intros f F. now apply P1.
  - rewrite <- E2. apply Forall_forall. intros f F. now apply P2.
Qed.

Lemma echo_sim : forall e1 e2, same_shape e1 e2 -> plain_files e1 -> plain_files e2 -> simT (ops e1) (ops e2).
Proof.
  intros e1 e2 (S1 & S2 & S3 & S4 & S5 & S6) P1 P2. unfold echo_ops.
  apply simT_app; [split; [reflexivity|]; split; [reflexivity|]; repeat split; vm_compute; reflexivity|].
  apply simT_app; [apply environment_sim|].
  apply simT_app; [now apply path_sim|].
  do 4 (apply simT_app; [apply table_sim; [part|part|auto]|]).
  apply simT_app; [now apply files_sim|]. unfold echo_forms. part.
Qed.

Lemma echo_writes : forall e m, ops_on false (writes (echo dec time_text widen address_out version) (CResponse e m) tt)
  = ops e.
Proof. intros. apply ops_on_false. Qed.

Lemma echo_markup : forall e1 e2 m1 m2, same_shape e1 e2 -> plain_files e1 -> plain_files e2 ->
  let page e m := text_of utf8 E_NONE
    (ops_on false (writes (echo dec time_text widen address_out version) (CResponse e m) tt)) in
  markup false (page e1 m1) = markup false (page e2 m2).
Proof.
  intros e1 e2 m1 m2 SS P1 P2 page. unfold page. rewrite !echo_writes. apply echo_sim; auto.
Qed.

(** ** Header and tables *)
Lemma sim_closed : forall a b, simT a b -> closed a.
Proof. now intros a b (C & _). Qed.

Lemma T_pair : forall p, T (echo_pair p) = pair_shown p.
Proof.
  intros (n & v). unfold pair_shown. rewrite !utf8_app. cbn [fst snd]. unfold echo_pair, shown.
  cbn [app text_of fst snd]. reflexivity.
Qed.

Lemma table_shows : forall t n l p, In p l -> exists pre post, T (echo_table t n l) = pre ++ pair_shown p ++ post.
Proof.
  intros t n l p H. unfold echo_table.
  assert (G : exists pre post, T (flat_map echo_pair l) = pre ++ pair_shown p ++ post).
  { apply in_split in H as (l1 & l2 & ->). rewrite flat_map_app. cbn [flat_map].
    assert (C : forall l, closed (flat_map echo_pair l)).
    { clear. induction l as [|x l IH]; [reflexivity|]. cbn [flat_map]. apply closed_app; auto. reflexivity. }
    rewrite T_app by auto. rewrite T_app by reflexivity. rewrite T_pair. eauto. }
  destruct G as (pre & post & G). destruct l as [|x l]; [destruct H|].
  rewrite T_app by reflexivity. rewrite G, app_assoc. eauto.
Qed.

Definition pairs (e : env) := e_others e ++ e_gets e ++ e_posts e ++ e_cookies e.

Lemma table_closed : forall t n l, closed (echo_table t n l).
Proof.
  intros t n l. unfold echo_table. apply closed_app; [reflexivity|].
  destruct l as [|x l]; [reflexivity|]. generalize (x :: l). clear.
  induction l as [|x l IH]; [reflexivity|]. cbn [flat_map]. apply closed_app; auto. reflexivity.
Qed.

Lemma echo_shows : forall e p, In p (pairs e) -> exists pre post, T (ops e) = pre ++ pair_shown p ++ post.
Proof.
  intros e p H. unfold echo_ops.
  pose proof (sim_closed _ _ (environment_sim e e)) as CE.
  pose proof (sim_closed _ _ (path_sim (e_pathInfo e) (e_pathInfo e) eq_refl)) as CP.
  rewrite T_app by reflexivity. rewrite T_app by exact CE. rewrite T_app by exact CP.
  do 4 rewrite T_app by apply table_closed.
  unfold pairs in H. rewrite !in_app_iff in H.
  assert (X : forall (A B S : list N), (exists pre post, S = pre ++ pair_shown p ++ post) ->
    exists pre post, A ++ S ++ B = pre ++ pair_shown p ++ post).
  { intros A B S (pre & post & ->). exists (A ++ pre), (post ++ B). now rewrite <- !app_assoc. }
  assert (Y : forall (A S : list N), (exists pre post, S = pre ++ pair_shown p ++ post) ->
    exists pre post, A ++ S = pre ++ pair_shown p ++ post).
  { intros A S (pre & post & ->). exists (A ++ pre), post. now rewrite <- !app_assoc. }
  apply Y, Y. destruct H as [H|[H|[H|H]]].
  - apply X. now apply table_shows.
  - apply Y, X. now apply table_shows.
  - apply Y, Y, X. now apply table_shows.
  - apply Y, Y, Y, X. now apply table_shows.
Qed.

Lemma echo_heads : forall e, exists body, T (ops e) = echo_head ++ lit "<!DOCTYPE html>" ++ body.
Proof.
  intros e. unfold echo_ops. rewrite T_app by reflexivity.
  replace (T echo_header) with echo_head by (vm_compute; reflexivity).
  unfold echo_environment.
  cbn [app]. set (r := OpWrite [10] :: _).
  exists (T r). cbn [text_of]. rewrite <- app_assoc || idtac. reflexivity.
Qed.

(** ** Every character is one *)
Variable strict : bool.
Notation okc := (op_chars (real_char (Wide strict))).

Hypothesis Dr : forall n, Forall scalar (dec n).
Hypothesis Tr : forall t, Forall scalar (time_text t).
Hypothesis Ar : forall a, Forall scalar (address_out a).
Hypothesis Vr : Forall scalar (widen version).

Lemma ok_lit : forall s, forallb scalarb (wide_lit (lit s)) = true -> okc (w s).
Proof. intros s H. now apply scalars. Qed.

Lemma ok_shown : forall s, Forall scalar s -> Forall okc (shown s).
Proof. intros s H. unfold shown. repeat constructor. exact H. Qed.

Lemma ok_label : forall m, Forall scalar (widen (method_label m)).
Proof.
  intros m. destruct (label_ascii m) as (A & _). rewrite WI by auto.
  eapply Forall_impl; [|exact A]. intros c C. cbv beta in C. unfold scalar. lia.
Qed.

Lemma ok_langs : forall l, Forall (Forall scalar) (map widen l) -> Forall okc (echo_languages widen l).
Proof.
  induction l as [|x l IH]; intros F; [constructor|]. inversion F; subst.
  destruct l as [|y l]; [repeat constructor; auto|].
  cbn [echo_languages app]. constructor; [auto|]. constructor; [repeat constructor|]. now apply IH.
Qed.

Ltac ok1 :=
  match goal with
  | |- op_chars _ (w _) => apply ok_lit; vm_compute; reflexivity
  | |- op_chars _ (OpEnc _) => exact Logic.I
  | |- op_chars _ (OpWrite ?s) => change (Forall scalar s); first [assumption | solve [auto 3] | apply scalars; vm_compute; reflexivity]
  | |- op_chars _ crlf2 => apply scalars; vm_compute; reflexivity
  | |- op_chars _ (OpDump _) => assumption
  end.
Ltac ok :=
  match goal with
  | |- Forall _ [] => apply Forall_nil
  | |- Forall _ (_ ++ _) => apply Forall_app; split; ok
  | |- Forall _ (shown _) => apply ok_shown; auto
  | |- Forall _ (echo_languages _ _) => apply ok_langs; auto
  | |- Forall _ (_ :: _) => apply Forall_cons; [ok1|ok]
  end.

Lemma ok_elements : forall l n, Forall (Forall scalar) l -> Forall okc (echo_elements n l).
Proof.
  induction l as [|x l IH]; intros n F; [constructor|]. inversion F; subst. cbn [echo_elements].
  assert (NB : Forall scalar (concat (repeat (lit "&nbsp;&nbsp;&nbsp;&nbsp;") n))).
  { clear IH H1 H2. induction n as [|n IH]; [constructor|]. cbn [repeat concat]. apply Forall_app. split; auto.
    apply scalars. reflexivity. }
  apply Forall_app. split; [ok|]. apply Forall_app. split; [ok|]. apply Forall_app. split; [ok|]. auto.
Qed.

Lemma ok_table : forall t n l, okc (w t) -> okc (w n) ->
  Forall (Forall scalar) (map fst l) -> Forall (Forall scalar) (map snd l) ->
  Forall okc (echo_table t n l).
Proof.
  intros t n l Ht Hn F1 F2. unfold echo_table. constructor; [auto|].
  destruct l as [|x l]; [repeat constructor; auto|]. revert F1 F2. generalize (x :: l). clear x l Ht Hn.
  induction l as [|x l IH]; intros F1 F2; [constructor|]. inversion F1; inversion F2; subst.
  cbn [flat_map]. apply Forall_app. split; [unfold echo_pair; ok|auto].
Qed.

Lemma ok_files : forall l, Forall (Forall scalar) (map fst l) ->
  Forall (Forall scalar) (map (fun f => fst (fst (snd f))) l) ->
  Forall (Forall scalar) (map (fun f => snd (fst (snd f))) l) ->
  Forall (fun f => Forall (fun b => b < 256) (file_data f)) l ->
  Forall okc (echo_files dec l).
Proof.
  intros l F1 F2 F3 F4. unfold echo_files. apply Forall_app. split; [ok|].
  destruct l as [|x l]; [ok|]. revert F1 F2 F3 F4. generalize (x :: l). clear x l.
  induction l as [|x l IH]; intros F1 F2 F3 F4; [constructor|].
  inversion F1; inversion F2; inversion F3; inversion F4; subst. cbn [flat_map]. apply Forall_app. split; [|auto].
  destruct x as (n & (fn & ct) & d). cbn [fst snd file_data] in *. unfold echo_file. ok.
Qed.

Lemma echo_real : forall e, real_env widen e -> Forall okc (ops e).
Proof.
  intros e (F & G). pose proof ok_label as OL.
  apply Forall_app in F as (F0 & F). apply Forall_app in F as (F1 & F). apply Forall_app in F as (F2 & F).
  apply Forall_app in F as (F3 & F). apply Forall_app in F as (F4 & F). apply Forall_app in F as (F5 & F).
  apply Forall_app in F as (F6 & F7).
  rewrite !map_app, !Forall_app in F3, F4. destruct F3 as (A1 & A2 & A3 & A4), F4 as (B1 & B2 & B3 & B4).
  repeat match goal with H : Forall _ (_ :: _) |- _ => inversion H; clear H; subst end.
  unfold echo_ops. apply Forall_app. split; [unfold echo_header; ok|].
  apply Forall_app. split; [unfold echo_environment; ok|].
  apply Forall_app. split.
  { unfold echo_path. apply Forall_app. split; [ok|]. destruct (e_pathInfo e) as [|x l] eqn:E; [ok|].
    apply Forall_app. split; [ok|]. apply Forall_app. split; [now apply ok_elements|ok]. }
  do 4 (apply Forall_app; split; [apply ok_table; auto; apply ok_lit; vm_compute; reflexivity|]).
  apply Forall_app. split; [now apply ok_files|]. unfold echo_forms. ok.
Qed.
End Echo.

(** ** Hello world *)
Lemma hello_real : forall strict, Forall (op_chars (real_char (Wide strict))) hello_ops.
Proof.
  intros strict. unfold hello_ops.
  repeat first [apply Forall_nil | apply Forall_cons; [apply scalars; vm_compute; reflexivity|]].
Qed.

Lemma hello_text : text_of utf8 E_NONE hello_ops = hello_page.
Proof. vm_compute. reflexivity. Qed.
