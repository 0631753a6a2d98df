(** Proofs about how the log comes up. *)
From Coq Require Import String List NArith Bool Arith Lia.
From Verif Require Import Model.Base Model.Log Model.Curl Model.LogStart Spec.StreamSpec Spec.LogSpec Spec.LogStartSpec
  Proofs.CurlProofs.
Import ListNotations.
Local Open Scope N_scope.

Section P.
Variable can : N -> bool.
Variable built : N.
Variable suppress : bool.
Notation put := (put can).
Notation okay l := (Forall (fun c => can c = true) l).

Lemma put_put : forall s t g, put t (put s g) = put (s ++ t) g.
Proof.
  intros s t g. unfold LogStart.put. destruct (g_bad g) eqn:B; [now rewrite B|].
  assert (T : taken can (s ++ t) = let '(x, bad) := taken can s in
    if bad then (x, true) else let '(y, bad') := taken can t in (x ++ y, bad')).
  { clear. induction s as [|c s IH]; cbn; [now destruct (taken can t)|].
    destruct (can c); [|reflexivity]. rewrite IH. destruct (taken can s) as [x []]; [reflexivity|].
    now destruct (taken can t). }
  rewrite T. destruct (taken can s) as [x []]; cbn; [reflexivity|].
  destruct (taken can t) as [y b]; cbn. now rewrite app_assoc.
Qed.

Lemma put_nil : forall g, put [] g = g.
Proof. intros [l h p o []]; unfold LogStart.put; cbn; [reflexivity|]. now rewrite app_nil_r. Qed.

Lemma put_fields : forall s g, g_levels (put s g) = g_levels g /\ g_host (put s g) = g_host g /\ g_program (put s g) = g_program g.
Proof. intros s g. unfold LogStart.put. destruct (g_bad g); [auto|]. destruct (taken can s); cbn; auto. Qed.

Lemma taken_okay : forall s, okay s -> taken can s = (s, false).
Proof. induction 1 as [|c s C _ IH]; cbn; [reflexivity|]. now rewrite C, IH. Qed.

Lemma taken_stuck : forall a c b, okay a -> can c = false -> taken can (a ++ c :: b) = (a, true).
Proof. intros a c b A C. induction A as [|x a X _ IH]; cbn; [now rewrite C|]. now rewrite X, IH. Qed.

(** What a use writes. *)
Definition written (h p : list N) (u : use) : list N :=
  let '(date, l, text) := u in date ++ h ++ lit " " ++ p ++ lit " " ++ level_text l ++ text ++ [10].

Lemma appears_test : forall date l text,
  appears built suppress (date, l, text) = negb (negb (compiled built l) || (heeds l && suppress)).
Proof.
  intros date l text. unfold appears, enabled, is_error, entry_level, compiled, heeds.
  destruct l; cbn [andb orb negb]; rewrite ?orb_false_r, ?andb_true_r, ?negb_involutive, ?orb_false_l, ?negb_orb, ?negb_involutive; try reflexivity.
  - destruct (N.eqb_spec built 0), (N.ltb_spec 0 built); try reflexivity; lia.
  - destruct (N.leb_spec 2 built), (N.ltb_spec 1 built); try reflexivity; lia.
  - destruct (N.leb_spec 3 built), (N.ltb_spec 2 built); try reflexivity; lia.
  - destruct (N.leb_spec 4 built), (N.ltb_spec 3 built); try reflexivity; lia.
Qed.

Lemma use_silent : forall u g, appears built suppress u = false -> use_macro can built suppress u g = Val g.
Proof.
  intros [[date l] text] g A. rewrite appears_test in A. unfold use_macro.
  apply negb_false_iff in A. now rewrite A.
Qed.

Lemma use_writes : forall u g h p, appears built suppress u = true ->
  g_levels g = true -> g_host g = Some h -> g_program g = Some p ->
  use_macro can built suppress u g = Val (put (written h p u) g).
Proof.
  intros [[date l] text] g h p A L H P. rewrite appears_test in A. unfold use_macro.
  apply negb_true_iff in A. rewrite A. unfold header. rewrite L, H, P. cbn [obind]. rewrite !put_put.
  unfold written. now rewrite <- ?app_assoc.
Qed.

Lemma use_early : forall u g, appears built suppress u = true ->
  g_levels g = false \/ g_host g = None \/ g_program g = None -> use_macro can built suppress u g = UB.
Proof.
  intros [[date l] text] g A E. rewrite appears_test in A. unfold use_macro.
  apply negb_true_iff in A. rewrite A. unfold header.
  destruct E as [-> |[-> | ->]]; destruct (g_levels g), (g_host g), (g_program g); reflexivity.
Qed.

Lemma uses_write : forall l g h p, g_levels g = true -> g_host g = Some h -> g_program g = Some p ->
  uses can built suppress l g = Val (put (flat_map (written h p) (filter (appears built suppress) l)) g).
Proof.
  induction l as [|u l IH]; intros g h p L H P; cbn [uses filter flat_map]; [now rewrite put_nil|].
  destruct (appears built suppress u) eqn:A.
  - rewrite (use_writes u g h p A L H P). cbn [obind flat_map]. destruct (put_fields (written h p u) g) as (F1 & F2 & F3).
    rewrite (IH _ h p) by congruence. now rewrite put_put.
  - rewrite (use_silent u g A). apply IH; assumption.
Qed.

Lemma uses_silent : forall l g, Forall (fun u => appears built suppress u = false) l -> uses can built suppress l g = Val g.
Proof. intros l g F. induction F as [|u l A _ IH]; cbn [uses]; [reflexivity|]. now rewrite (use_silent u g A). Qed.

Lemma c_string_whole : forall s r, ~ In 0 s -> c_string (s ++ 0 :: r) = Val s.
Proof.
  induction s as [|c s IH]; intros r N0; cbn; [reflexivity|].
  destruct (N.eqb_spec c 0) as [-> |D]; [exfalso; apply N0; now left|].
  rewrite IH by (intro I; apply N0; now right). reflexivity.
Qed.

Lemma host_read : forall name junk, (length name <= 65)%nat -> ~ In 0 name -> c_string (host_buffer name junk) = Val name.
Proof.
  intros name junk L N0. unfold host_buffer. change (64 + 2)%nat with 66%nat.
  rewrite firstn_app. rewrite firstn_all2 by lia.
  destruct (66 - length name)%nat as [|n] eqn:E; [lia|]. cbn [app firstn]. now apply c_string_whole.
Qed.

Lemma malformed_none : forall strict b, malformed b -> from_bytes strict b = None.
Proof.
  intros strict b (u & c & r & SU & -> & C). unfold from_bytes. assert (L := length_utf8 u).
  rewrite ucs4_in_text by (auto; rewrite app_length; lia). rewrite app_length. cbn [length].
  destruct (length (utf8 u) + S (length r) - length u)%nat as [|f] eqn:F; [lia|]. cbn [ucs4_in read_code_point].
  destruct (N.ltb_spec c 128); [lia|].
  destruct (N.ltb_spec c 194); [reflexivity|]. destruct (N.ltb_spec c 224); [lia|].
  destruct (N.ltb_spec c 240); [lia|]. destruct (N.ltb_spec c 245); [lia|]. reflexivity.
Qed.

Definition warned (b : list N) : Prop := malformed b -> built <= 1 \/ suppress = true.

Lemma warning_silent : forall date text, built <= 1 \/ suppress = true -> appears built suppress (date, LWarning, text) = false.
Proof.
  intros date text [B | ->]; cbn; [|apply andb_false_r]. destruct (N.leb_spec 2 built); [lia|reflexivity].
Qed.

Lemma warning_loud : forall date text, 2 <= built -> suppress = false -> appears built suppress (date, LWarning, text) = true.
Proof. intros date text B ->. cbn. destruct (N.leb_spec 2 built); [reflexivity|lia]. Qed.

Lemma host_called : forall strict date name junk u g, (length name <= 65)%nat -> ~ In 0 name ->
  called "localhost" name u -> warned name ->
  getHostname can built suppress strict date name junk g = Val (u, g).
Proof.
  intros strict date name junk u g L N0 C W. unfold getHostname. rewrite host_read by assumption. cbn [obind].
  destruct C as [[S ->]|[M ->]]; [now rewrite from_bytes_ok|].
  rewrite malformed_none by exact M. rewrite use_silent by (apply warning_silent, W, M). reflexivity.
Qed.

Lemma program_called : forall strict date name pid u g, called "unknown" name u -> warned name ->
  getProgram can built suppress strict date name pid g = Val (u ++ lit "[" ++ pid ++ lit "]", g).
Proof.
  intros strict date name pid u g C W. unfold getProgram.
  destruct C as [[S ->]|[M ->]]; [now rewrite from_bytes_ok|].
  rewrite malformed_none by exact M. rewrite use_silent by (apply warning_silent, W, M). reflexivity.
Qed.

Lemma program_writes : forall strict date before host junk prog pid after u v,
  (length host <= 65)%nat -> ~ In 0 host -> called "localhost" host u -> called "unknown" prog v ->
  warned host -> warned prog -> Forall (fun x => appears built suppress x = false) before ->
  log_program can built suppress strict date before host junk prog pid after =
  Val (put (flat_map (written u (v ++ lit "[" ++ pid ++ lit "]")) (filter (appears built suppress) after))
    (mkLogging true (Some u) (Some (v ++ lit "[" ++ pid ++ lit "]")) [] false)).
Proof.
  intros strict date before host junk prog pid after u v L N0 CU CV WH WP B. unfold log_program.
  rewrite uses_silent by exact B. cbn [obind]. unfold start. cbn [unstarted g_host g_program g_out g_bad].
  rewrite (host_called strict date host junk u) by assumption. cbn [obind g_levels g_program g_out g_bad].
  rewrite (program_called strict date prog pid v) by assumption. cbn [obind g_levels g_host g_out g_bad].
  apply uses_write; reflexivity.
Qed.

Lemma written_line : forall u v pid x, written u (v ++ lit "[" ++ pid ++ lit "]") x = log_line u v pid x.
Proof.
  intros u v pid [[d l] t]. unfold written, log_line. rewrite <- !app_assoc. do 6 f_equal.
  destruct l; reflexivity.
Qed.

Lemma okay_lit : (forall c, c < 128 -> can c = true) -> forall l, forallb (fun c => c <? 128) l = true -> okay l.
Proof.
  intros A l F. apply Forall_forall. intros c I. apply A. rewrite forallb_forall in F. apply N.ltb_lt. now apply F.
Qed.

Lemma lines_all : forall strict date before host junk prog pid after u v,
  (forall c, c < 128 -> can c = true) ->
  (length host <= 65)%nat -> ~ In 0 host -> called "localhost" host u -> called "unknown" prog v ->
  (malformed host \/ malformed prog -> built <= 1 \/ suppress = true) ->
  Forall (fun x => appears built suppress x = false) before ->
  okay (u ++ v ++ pid) -> Forall (fun '(d, _, t) => okay (d ++ t)) after ->
  exists g, log_program can built suppress strict date before host junk prog pid after = Val g /\
    g_bad g = false /\ g_out g = flat_map (log_line u v pid) (filter (appears built suppress) after).
Proof.
  intros strict date before host junk prog pid after u v A L N0 CU CV W B O F.
  rewrite (program_writes strict date before host junk prog pid after u v); try assumption;
    try (intro M; apply W; auto; fail).
  eexists; split; [reflexivity|].
  rewrite !Forall_app in O. destruct O as (OU & OV & OP).
  rewrite (flat_map_ext _ _ (written_line u v pid)).
  assert (K : okay (flat_map (log_line u v pid) (filter (appears built suppress) after))).
  { induction F as [|[[d l] t] r X _ IH]; cbn [filter flat_map]; [constructor|].
    destruct (appears built suppress (d, l, t)); [|exact IH]. cbn [flat_map]. apply Forall_app. split; [|exact IH].
    apply Forall_app in X as [XD XT]. unfold log_line.
    repeat (apply Forall_app; split); try assumption; apply (okay_lit A); destruct l; reflexivity. }
  unfold LogStart.put. cbn [g_bad]. rewrite taken_okay by exact K. cbn. auto.
Qed.

Lemma lines_stuck : forall strict date before host junk prog pid after u v a c b,
  (length host <= 65)%nat -> ~ In 0 host -> called "localhost" host u -> called "unknown" prog v ->
  (malformed host \/ malformed prog -> built <= 1 \/ suppress = true) ->
  Forall (fun x => appears built suppress x = false) before ->
  u ++ lit " " ++ v = a ++ c :: b -> okay a -> can c = false -> Forall (fun '(d, _, _) => okay d) after ->
  exists g, log_program can built suppress strict date before host junk prog pid after = Val g /\
    g_out g = match filter (appears built suppress) after with [] => [] | (d, _, _) :: _ => d ++ a end.
Proof.
  intros strict date before host junk prog pid after u v a c b L N0 CU CV W B E OA OC F.
  rewrite (program_writes strict date before host junk prog pid after u v); try assumption;
    try (intro M; apply W; auto; fail).
  eexists; split; [reflexivity|].
  rewrite (flat_map_ext _ _ (written_line u v pid)).
  assert (FF : Forall (fun '(d, _, _) => okay d) (filter (appears built suppress) after)).
  { apply Forall_forall. intros x I. apply filter_In in I as [I _]. rewrite Forall_forall in F. now apply F. }
  destruct (filter (appears built suppress) after) as [|[[d l] t] r]; [reflexivity|].
  inversion FF as [|? ? OD _]; subst.
  assert (EQ : flat_map (log_line u v pid) ((d, l, t) :: r) =
    (d ++ a) ++ c :: (b ++ lit "[" ++ pid ++ lit "] [" ++ lit (level_name l) ++ lit "]: " ++ t ++ [10]
           ++ flat_map (log_line u v pid) r)).
  { cbn [flat_map log_line]. rewrite <- !app_assoc. f_equal.
    rewrite (app_assoc u), (app_assoc (u ++ lit " ")), <- (app_assoc u), E, <- app_assoc. reflexivity. }
  match goal with |- context [LogStart.put can ?X _] => change X with (flat_map (log_line u v pid) ((d, l, t) :: r)) end.
  rewrite EQ. unfold LogStart.put. cbn [g_bad]. rewrite taken_stuck; [reflexivity| |exact OC].
  apply Forall_app; auto.
Qed.

Lemma okay_lines : forall u v pid l, (forall c, c < 128 -> can c = true) -> okay (u ++ v ++ pid) ->
  Forall (fun '(d, _, t) => okay (d ++ t)) l -> okay (flat_map (log_line u v pid) (filter (appears built suppress) l)).
Proof.
  intros u v pid l A O F. rewrite !Forall_app in O. destruct O as (OU & OV & OP).
  induction F as [|[[d k] t] r X _ IH]; cbn [filter flat_map]; [constructor|].
  destruct (appears built suppress (d, k, t)); [|exact IH]. cbn [flat_map]. apply Forall_app. split; [|exact IH].
  apply Forall_app in X as [XD XT]. unfold log_line.
  repeat (apply Forall_app; split); try assumption; apply (okay_lit A); destruct k; reflexivity.
Qed.

Lemma text_stuck : forall strict date before host junk prog pid l1 d l a c b l2 u v,
  (forall c, c < 128 -> can c = true) ->
  (length host <= 65)%nat -> ~ In 0 host -> called "localhost" host u -> called "unknown" prog v ->
  (malformed host \/ malformed prog -> built <= 1 \/ suppress = true) ->
  Forall (fun x => appears built suppress x = false) before ->
  okay (u ++ v ++ pid) -> Forall (fun '(d, _, t) => okay (d ++ t)) l1 -> okay (d ++ a) -> can c = false ->
  appears built suppress (d, l, a ++ c :: b) = true ->
  exists g rest, log_program can built suppress strict date before host junk prog pid (l1 ++ (d, l, a ++ c :: b) :: l2) = Val g /\
    flat_map (log_line u v pid) (filter (appears built suppress) l1) ++ log_line u v pid (d, l, a ++ c :: b) = g_out g ++ c :: rest.
Proof.
  intros strict date before host junk prog pid l1 d l a c b l2 u v A L N0 CU CV W B O F OA OC AP.
  rewrite (program_writes strict date before host junk prog pid _ u v); try assumption;
    try (intro M; apply W; auto; fail).
  set (ls := flat_map (log_line u v pid) (filter (appears built suppress) l1)).
  set (pre := ls ++ d ++ u ++ lit " " ++ v ++ lit "[" ++ pid ++ lit "] [" ++ lit (level_name l) ++ lit "]: " ++ a).
  assert (E1 : ls ++ log_line u v pid (d, l, a ++ c :: b) = pre ++ c :: b ++ [10]).
  { unfold pre, log_line. rewrite <- !app_assoc. reflexivity. }
  assert (E2 : flat_map (written u (v ++ lit "[" ++ pid ++ lit "]")) (filter (appears built suppress) (l1 ++ (d, l, a ++ c :: b) :: l2))
    = pre ++ c :: (b ++ [10]) ++ flat_map (log_line u v pid) (filter (appears built suppress) l2)).
  { rewrite (flat_map_ext _ _ (written_line u v pid)), filter_app, flat_map_app. cbn [filter]. rewrite AP. cbn [flat_map].
    rewrite (app_assoc (flat_map _ _)). fold ls.
    transitivity ((ls ++ log_line u v pid (d, l, a ++ c :: b)) ++ flat_map (log_line u v pid) (filter (appears built suppress) l2)); [reflexivity|].
    rewrite E1, <- app_assoc. reflexivity. }
  rewrite E2. eexists; exists (b ++ [10]). split; [reflexivity|]. rewrite E1. f_equal.
  unfold LogStart.put. cbn [g_bad]. rewrite taken_stuck; [reflexivity| |exact OC].
  apply Forall_app in OA as [OD OA]. assert (OL := okay_lines u v pid l1 A O F).
  rewrite !Forall_app in O. destruct O as (OU & OV & OP). unfold pre.
  repeat (apply Forall_app; split); try assumption; apply (okay_lit A); destruct l; reflexivity.
Qed.

Lemma names_undefined : forall strict date host junk prog pid after,
  2 <= built -> suppress = false -> (length host <= 65)%nat -> ~ In 0 host ->
  malformed host \/ (exists u, Forall scalar u /\ host = utf8 u) /\ malformed prog ->
  log_program can built suppress strict date [] host junk prog pid after = UB.
Proof.
  intros strict date host junk prog pid after B S L N0 M. unfold log_program. cbn [uses obind]. unfold start.
  cbn [unstarted g_host g_program g_out g_bad].
  destruct M as [M|[(u & SU & E) M]].
  - unfold getHostname. rewrite host_read by assumption. cbn [obind]. rewrite malformed_none by exact M.
    rewrite use_early; [reflexivity|now apply warning_loud|cbn; auto].
  - assert (WH : warned host).
    { subst host. intro X. assert (Y := malformed_none strict _ X). rewrite from_bytes_ok in Y by exact SU. discriminate. }
    rewrite (host_called strict date host junk u); [|assumption|assumption|left; auto|exact WH].
    cbn [obind g_levels g_program g_out g_bad]. unfold getProgram. rewrite malformed_none by exact M.
    rewrite use_early; [reflexivity|now apply warning_loud|cbn; auto].
Qed.

Lemma before_undefined : forall strict date before host junk prog pid after,
  Exists (fun x => appears built suppress x = true) before ->
  log_program can built suppress strict date before host junk prog pid after = UB.
Proof.
  intros strict date before host junk prog pid after E. unfold log_program.
  assert (U : uses can built suppress before unstarted = UB).
  { induction before as [|x l IH]; [inversion E|]. cbn [uses]. destruct (appears built suppress x) eqn:A.
    - rewrite use_early by (cbn; auto). reflexivity.
    - rewrite use_silent by exact A. cbn [obind]. apply IH. inversion E; subst; [congruence|assumption]. }
  now rewrite U.
Qed.
End P.
