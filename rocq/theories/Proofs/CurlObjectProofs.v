(** Lemmas for C78. *)
From Coq Require Import String List NArith ZArith Bool Arith Lia.
From Verif Require Import Model.Base Model.WebMaps Model.Streams Model.Chunks Model.Curl Model.Sql Model.CurlObject
  Spec.StreamSpec Spec.ChunkSpec Spec.CurlSpec Spec.CurlObjectSpec Proofs.ChunkProofs Proofs.CurlProofs.
Import ListNotations.

Lemma cstr_spec : forall s, cstr s = before_zero s.
Proof. induction s as [|c s IH]; cbn; auto. Qed.

Lemma latest_cons : forall {A} (x : A) l, latest (x :: l) = match latest l with Some y => Some y | None => Some x end.
Proof.
  intros A x l. unfold latest. cbn. destruct (rev l); reflexivity.
Qed.
Definition or_else {A} (a b : option A) : option A := match a with Some _ => a | None => b end.

(** How the level develops from [old]. *)
Definition host_from (v : curlver) (old : N) (asked : list bool) : N :=
  fold_left (fun old (b : bool) => set_host v (if b then 1 else 0) old) asked old.
Lemma host_from_level : forall v asked, host_from v 2 asked = host_level v asked.
Proof.
  intros v asked. unfold host_from. destruct v.
  - unfold host_level. assert (G : forall l n, fold_left (fun old (b : bool) => set_host CurlOld (if b then 1 else 0) old) l n =
      match latest l with None => n | Some true => 1 | Some false => 0 end%N).
    { induction l as [|b l IH]; intro n; cbn [fold_left]; [reflexivity|]. rewrite IH, latest_cons. destruct (latest l); [reflexivity|]. now destruct b. }
    apply G.
  - assert (G : forall l n, fold_left (fun old (b : bool) => set_host CurlRefuses (if b then 1 else 0) old) l n =
      if forallb (fun b => b) l then n else 0%N).
    { induction l as [|b l IH]; intro n; cbn [fold_left]; [reflexivity|]. rewrite IH. destruct b; cbn; [reflexivity|]. now destruct (forallb _ l). }
    apply G.
  - unfold host_level. assert (G : forall l n, fold_left (fun old (b : bool) => set_host CurlNew (if b then 1 else 0) old) l n =
      match latest l with None => n | Some true => 2 | Some false => 0 end%N).
    { induction l as [|b l IH]; intro n; cbn [fold_left]; [reflexivity|]. rewrite IH, latest_cons. destruct (latest l); [reflexivity|]. now destruct b. }
    rewrite G. destruct (latest asked) as [[]|]; reflexivity.
Qed.

Section Generic.
Context {Dev : Type}.
Variables (fuel : nat) (ver : curlver) (strict eager : bool).
Variable empty : wsb Dev -> outcome (bool * wsb Dev).
Variable is_eof : N -> bool.
Variable body : wsb Dev -> list (list N).
Variable drain : list (list N) -> wsb Dev -> wsb Dev.
Variable alive : wsb Dev -> bool.
Variable clear : wsb Dev -> wsb Dev.
Variable ev : rev_ -> resp -> rres.
Let run1 := ustep fuel ver strict eager empty is_eof body drain alive clear ev.
Let runs := urun fuel ver strict eager empty is_eof body drain alive clear ev.

Lemma runs_app : forall a b o, runs (a ++ b) o = match runs a o with Done o' => runs b o' | Spin => Spin | Undef => Undef end.
Proof.
  induction a as [|u a IH]; intros b o; cbn; [reflexivity|].
  destruct (ustep _ _ _ _ _ _ _ _ _ _ _ u o); auto.
Qed.

(** Size and encoding stay. *)
Hypothesis empty_same : forall w b w', empty w = Val (b, w') -> w_cap w' = w_cap w /\ w_enc w' = w_enc w.
Hypothesis drain_same : forall l w, w_cap (drain l w) = w_cap w /\ w_enc (drain l w) = w_enc w.
Hypothesis clear_same : forall w, w_cap (clear w) = w_cap w /\ w_enc (clear w) = w_enc w.

Lemma pass_same : forall s (w : wsb Dev) s' w', put_pass s w = (s', w') -> w_cap w' = w_cap w /\ w_enc w' = w_enc w /\ w_dev w' = w_dev w.
Proof.
  intros s w s' w' H. unfold put_pass in H. destruct (w_enc w) eqn:E.
  - injection H as <- <-. auto.
  - destruct (put_mapped _ s (w_pend w) (w_cap w)). injection H as <- <-. auto.
  - destruct (put_mapped _ s (w_pend w) (w_cap w)). injection H as <- <-. auto.
Qed.
Lemma xsputn_same : forall f s w w', xsputn empty f s w = Done w' -> w_cap w' = w_cap w /\ w_enc w' = w_enc w.
Proof.
  induction f as [|f IH]; intros s w w' H; [discriminate|]. cbn in H. destruct (put_pass s w) as [s1 w1] eqn:E.
  apply pass_same in E as (A & B & _). destruct s1 as [|x s1]; [injection H as <-; auto|].
  destruct (empty w1) as [[b w2]|] eqn:E2; [|discriminate]. apply empty_same in E2 as [C D]. apply IH in H as [F G].
  split; congruence.
Qed.
Lemma sputc_same : forall f c w b w', sputc empty is_eof f c w = Done (b, w') -> w_cap w' = w_cap w /\ w_enc w' = w_enc w.
Proof.
  induction f as [|f IH]; intros c w b w' H; cbn -[Nat.ltb] in H; destruct (length (w_pend w) <? w_cap w)%nat; try discriminate; try (injection H as <- <-; auto; fail).
  destruct (empty w) as [[r w2]|] eqn:E2; [|discriminate]. apply empty_same in E2 as [C D].
  destruct r; [|injection H as <- <-; auto]. destruct (is_eof c); [injection H as <- <-; auto|]. apply IH in H as [F G]. split; congruence.
Qed.
Lemma op_same : forall t w w', chunk_op empty is_eof fuel t w = Done w' ->
  w_cap w' = w_cap w /\ w_enc w' = enc_after (w_enc w) [t].
Proof.
  intros [s|c|e|] w w' H; cbn in H |- *.
  - now apply xsputn_same in H.
  - destruct (sputc _ _ _ c w) as [[b w1]| |] eqn:E; try discriminate. injection H as <-. now apply sputc_same in E.
  - injection H as <-. auto.
  - destruct (empty w) as [[b w1]|] eqn:E; [|discriminate]. injection H as <-. now apply empty_same in E.
Qed.

Lemma text_same : forall b t o o', text fuel eager empty is_eof alive b t o = Done o' ->
  w_cap (o_w o') = w_cap (o_w o) /\ w_enc (o_w o') = enc_after (w_enc (o_w o)) (if b then [t] else []) /\ o_headers o' = o_headers o.
Proof.
  intros b t o o' H. unfold text in H. destruct b.
  - assert (G : forall t, (if o_good o then if alive (o_w o) then match chunk_op empty is_eof fuel t (o_w o) with Done w => Done (with_w w o) | Spin => Spin | Undef => Undef end else Undef else Done o) = Done o' ->
       (match t with CEnc _ | CFlush => False | _ => True end) ->
       w_cap (o_w o') = w_cap (o_w o) /\ w_enc (o_w o') = enc_after (w_enc (o_w o)) [t] /\ o_headers o' = o_headers o).
    { clear t H. intros t H K. destruct (o_good o).
      - destruct (alive (o_w o)); [|discriminate]. destruct (chunk_op empty is_eof fuel t (o_w o)) as [w| |] eqn:E; try discriminate.
        injection H as <-. apply op_same in E as [A B]. auto.
      - injection H as <-. destruct t; try contradiction; auto. }
    destruct t as [s|c|e|]; [now apply G|now apply G| |].
    + injection H as <-. auto.
    + destruct (o_good o || eager); [|injection H as <-; auto].
      destruct (empty (o_w o)) as [[r w]|] eqn:E; [|discriminate]. injection H as <-. apply empty_same in E as [A B]. auto.
  - destruct t; try discriminate; injection H as <-; auto.
Qed.

Lemma enc_after_app : forall a b e, enc_after e (a ++ b) = enc_after (enc_after e a) b.
Proof. induction a as [|x a IH]; intros b e; [reflexivity|]. destruct x; cbn; auto. Qed.

Lemma runs_same : forall us o o', runs us o = Done o' ->
  w_cap (o_w o') = w_cap (o_w o) /\ w_enc (o_w o') = enc_after (w_enc (o_w o)) (texts us)
  /\ o_headers o' = o_headers o ++ given (header_of_op strict) us.
Proof.
  induction us as [|u us IH]; intros o o' H; cbn in H.
  { injection H as <-. cbn. rewrite app_nil_r. auto. }
  assert (G : forall o1, run1 u o = Done o1 -> w_cap (o_w o1) = w_cap (o_w o)
    /\ w_enc (o_w o1) = enc_after (w_enc (o_w o)) (texts [u]) /\ o_headers o1 = o_headers o ++ given (header_of_op strict) [u]).
  { clear H IH. intros o1 H. unfold run1 in H. destruct u as [s|s|s|s|b|b t|b offers es|b]; cbn [ustep given header_of_op texts] in *.
    - injection H as <-. cbn. rewrite app_nil_r. auto.
    - injection H as <-. destruct (to_bytes strict s); cbn; rewrite app_nil_r; auto.
    - injection H as <-. cbn. rewrite cstr_spec. auto.
    - injection H as <-. destruct (to_bytes strict s); cbn; [rewrite cstr_spec|rewrite app_nil_r]; auto.
    - injection H as <-. cbn. rewrite app_nil_r. auto.
    - apply text_same in H as (A & B & C). rewrite app_nil_r. destruct b; auto.
    - unfold perform in H. destruct (empty (o_w o)) as [[r w]|] eqn:E; [|discriminate]. apply empty_same in E as [A B].
      destruct (match prepare (body w) with Some _ => _ | None => _ end) as [[outs rest]| |]; try discriminate.
      destruct (respond ev es (o_resp o)); try discriminate; injection H as <-; cbn; destruct (drain_same (fst rest) w) as [C D];
        rewrite app_nil_r; repeat split; congruence.
    - injection H as <-. cbn. destruct (clear_same (o_w o)) as [C D]. rewrite app_nil_r. auto. }
  fold run1 in H. destruct (run1 u o) as [o1| |] eqn:E; try discriminate. destruct (G o1 eq_refl) as (A & B & C).
  destruct (IH o1 o' H) as (A1 & B1 & C1). split; [congruence|]. split.
  - rewrite B1, B. destruct u as [ | | | | |[] t| |]; cbn [texts app]; try reflexivity. now rewrite <- enc_after_app.
  - rewrite C1, C, <- app_assoc. f_equal. cbn [given]. now destruct (header_of_op strict u).
Qed.

(** Composing is the writing, and the rest as asked for. *)
Hypothesis alive_kept : forall t w w', alive w = true -> chunk_op empty is_eof fuel t w = Done w' -> alive w' = true.

Lemma composed : forall us o, Forall compose us -> o_good o = true -> alive (o_w o) = true ->
  runs us o = match chunk_ops empty is_eof fuel (texts us) (o_w o) with
              | Done w => Done (mkO (or_else (latest (given (url_of strict) us)) (o_url o)) (o_headers o ++ given (header_of_op strict) us)
                                    (match latest (given verify_of us) with Some b => b | None => o_peer o end)
                                    (host_from ver (o_host o) (given verify_of us)) w true (o_resp o) (o_log o))
              | Spin => Spin
              | Undef => Undef
              end.
Proof.
  induction us as [|u us IH]; intros o F G A.
  { cbn. destruct o; cbn in *. rewrite app_nil_r. now subst. }
  inversion F as [|? ? C F']; subst. clear F. cbn [urun runs].
  unfold runs. cbn [urun]. fold runs. destruct u as [s|s|s|s|b|[] t|b offers es|b]; cbn [compose] in C; try contradiction; clear C;
    cbn [ustep texts given url_of header_of_op verify_of option_map].
  - rewrite (IH _ F'); [|exact G|exact A]. cbn [o_w with_url o_url o_headers o_peer o_host o_resp o_log].
    rewrite latest_cons, cstr_spec. destruct (chunk_ops _ _ _ _ _); auto. destruct (latest (given (url_of strict) us)); reflexivity.
  - destruct (to_bytes strict s) as [b|]; cbn [option_map].
    + rewrite (IH _ F'); [|exact G|exact A]. cbn [o_w with_url o_url o_headers o_peer o_host o_resp o_log].
      rewrite latest_cons, cstr_spec. destruct (chunk_ops _ _ _ _ _); auto. destruct (latest (given (url_of strict) us)); reflexivity.
    + apply IH; auto.
  - rewrite (IH _ F'); [|exact G|exact A]. cbn [o_w with_header o_url o_headers o_peer o_host o_resp o_log].
    rewrite cstr_spec, <- app_assoc. reflexivity.
  - destruct (to_bytes strict s) as [b|]; cbn [option_map].
    + rewrite (IH _ F'); [|exact G|exact A]. cbn [o_w with_header o_url o_headers o_peer o_host o_resp o_log].
      rewrite cstr_spec, <- app_assoc. reflexivity.
    + apply IH; auto.
  - rewrite (IH _ F'); [|exact G|exact A]. cbn [o_w o_url o_headers o_peer o_host o_resp o_log].
    rewrite latest_cons. cbn [host_from fold_left]. unfold host_from. cbn [fold_left]. destruct (chunk_ops _ _ _ _ _); auto.
    destruct (latest (given verify_of us)); reflexivity.
  - cbn [chunk_ops].
    assert (E : text fuel eager empty is_eof alive true t o =
      match chunk_op empty is_eof fuel t (o_w o) with Done w => Done (with_w w o) | Spin => Spin | Undef => Undef end).
    { unfold text. rewrite G, A. cbn [orb]. destruct t; try reflexivity. cbn. now destruct (empty (o_w o)) as [[]|]. }
    rewrite E. destruct (chunk_op empty is_eof fuel t (o_w o)) as [w| |] eqn:O; auto.
    rewrite (IH _ F'); [|exact G|eapply alive_kept; eauto]. reflexivity.
Qed.
End Generic.

(** ** char *)
Lemma narrow_empty_same : forall w b w', emptyBuffer_chunk w = Val (b, w') -> w_cap w' = w_cap w /\ w_enc w' = w_enc w.
Proof.
  intros w b w' H. unfold emptyBuffer_chunk in H. destruct (c_cur (w_dev w)); [|discriminate].
  destruct (length (w_pend w) =? w_cap w)%nat; injection H as <- <-; auto.
Qed.
Lemma narrow_empty_alive : forall w b w', emptyBuffer_chunk w = Val (b, w') -> alive_chunk w' = true.
Proof.
  intros w b w' H. unfold emptyBuffer_chunk in H. destruct (c_cur (w_dev w)); [|discriminate].
  destruct (length (w_pend w) =? w_cap w)%nat; injection H as <- <-; auto.
Qed.
Lemma narrow_alive_kept : forall fuel t w w', alive_chunk w = true -> chunk_op emptyBuffer_chunk (fun _ => false) fuel t w = Done w' -> alive_chunk w' = true.
Proof.
  intros fuel t w w' A H. destruct t as [s|c|e|]; cbn in H.
  - revert s w w' A H. induction fuel as [|f IH]; intros s w w' A H; [discriminate|]. cbn in H.
    destruct (put_pass s w) as [s1 w1] eqn:E. apply pass_same in E as (_ & _ & D).
    assert (A1 : alive_chunk w1 = true) by (unfold alive_chunk in *; now rewrite D).
    destruct s1 as [|x s1]; [now injection H as <-|].
    destruct (emptyBuffer_chunk w1) as [[b w2]|] eqn:E2; [|discriminate]. apply narrow_empty_alive in E2. apply (IH (x :: s1) w2); auto.
  - destruct (sputc _ _ fuel c w) as [[b w1]| |] eqn:E; try discriminate. injection H as <-. revert w b w1 A E.
    induction fuel as [|f IH]; intros w b w1 A E; cbn -[Nat.ltb] in E; destruct (length (w_pend w) <? w_cap w)%nat; try discriminate; try (injection E as <- <-; exact A).
    destruct (emptyBuffer_chunk w) as [[r w2]|] eqn:E2; [|discriminate]. apply narrow_empty_alive in E2.
    destruct r; [|injection E as <- <-; exact E2]. eapply IH; eauto.
  - injection H as <-. exact A.
  - destruct (emptyBuffer_chunk w) as [[b w2]|] eqn:E2; [|discriminate]. injection H as <-. now apply narrow_empty_alive in E2.
Qed.

Lemma narrow_perform : forall fuel0 os w, char_chunks fuel0 os = Done w ->
  forall fuel ver strict eager who offers es r (o : cobj cdev), o_w o = w ->
  Forall (fun n => n < 2 ^ 32)%N offers -> respond narrow_event es (o_resp o) = RGood r \/ respond narrow_event es (o_resp o) = RShort r ->
  exists s2, nrun fuel ver strict eager [UPerform who offers es] o = Done s2 /\
    o_log s2 = o_log o ++ [(mkQ (o_url o) (announced (ctext E_NONE os)) (o_headers o) (o_peer o) (o_host o) (handed (ctext E_NONE os) offers), r)].
Proof.
  intros fuel0 os w H fuel ver strict eager who offers es r o W O R.
  destruct (upload_narrow _ _ _ H) as (body & w' & T & P & D). destruct (D offers O) as (rest & D').
  unfold chunk_take in T. unfold nrun. cbn [urun ustep]. unfold perform. rewrite W.
  destruct (emptyBuffer_chunk w) as [[b w1]|] eqn:E; [|discriminate]. injection T as <- <-. rewrite P.
  unfold handed, announced in *. destruct (ctext E_NONE os) as [|x l] eqn:X.
  - destruct R as [-> | ->]; eexists; split; reflexivity.
  - rewrite D'. destruct R as [-> | ->]; eexists; split; reflexivity.
Qed.

Lemma narrow_request : forall fuel ver strict eager pre s us s1, nrun fuel ver strict eager pre nnew = Done s -> Forall compose us ->
  nrun fuel ver strict eager (UReset true :: us) s = Done s1 ->
  forall who offers es r, Forall (fun n => n < 2 ^ 32)%N offers ->
  respond narrow_event es resp_init = RGood r \/ respond narrow_event es resp_init = RShort r ->
  exists s2, nrun fuel ver strict eager [UPerform who offers es] s1 = Done s2 /\
    o_log s2 = o_log s ++ [(asked_for ver strict (given (header_of_op strict) (pre ++ us)) us
                              (ctext (enc_after E_NONE (texts pre)) (texts us)) offers, r)].
Proof.
  intros fuel ver strict eager pre s us s1 H F H1 who offers es r O R.
  assert (S : w_cap (o_w s) = chunkCap /\ w_enc (o_w s) = enc_after E_NONE (texts pre) /\ o_headers s = given (header_of_op strict) pre).
  { unfold nrun in H. apply runs_same in H; [exact H|exact narrow_empty_same|now split|now split]. }
  destruct S as (S1 & S2 & S3). unfold nrun in H1. cbn [urun ustep] in H1. rewrite (composed) in H1;
    [|apply narrow_alive_kept|exact F|reflexivity|reflexivity].
  cbn [o_w o_url o_headers o_peer o_host o_resp o_log] in H1.
  replace (clear_chunk (o_w s)) with (mkW [] chunkCap (enc_after E_NONE (texts pre)) (mkC [] (Some 0))) in H1 by (unfold clear_chunk; congruence).
  set (e := enc_after E_NONE (texts pre)) in *.
  assert (X : char_chunks fuel (CEnc e :: texts us) =
     chunk_ops emptyBuffer_chunk (fun _ => false) fuel (texts us) (mkW [] chunkCap e (mkC [] (Some 0)))) by reflexivity.
  rewrite <- X in H1. destruct (char_chunks fuel (CEnc e :: texts us)) as [w| |] eqn:E; try discriminate. injection H1 as <-.
  destruct (narrow_perform _ _ _ E fuel ver strict eager who offers es r
    (mkO (or_else (latest (given (url_of strict) us)) None) (o_headers s ++ given (header_of_op strict) us)
         (match latest (given verify_of us) with Some b => b | None => true end) (host_from ver 2 (given verify_of us)) w true resp_init (o_log s))
    eq_refl O R) as (s2 & P1 & P2).
  exists s2. split; [exact P1|]. rewrite P2. cbn [o_w o_url o_headers o_peer o_host o_resp o_log ctext]. unfold asked_for.
  rewrite host_from_level, S3.
  assert (G : forall a b, given (header_of_op strict) (a ++ b) = given (header_of_op strict) a ++ given (header_of_op strict) b).
  { induction a as [|u a IH]; intro b; cbn; [reflexivity|]. rewrite IH. now destruct (header_of_op strict u). }
  rewrite G. now destruct (latest (given (url_of strict) us)).
Qed.

(** ** wchar_t *)
Lemma wide_empty_same : forall strict fuel w b w', emptyBuffer_wchunk strict fuel w = Val (b, w') -> w_cap w' = w_cap w /\ w_enc w' = w_enc w.
Proof.
  intros strict fuel w b w' H. unfold emptyBuffer_wchunk in H. destruct (w_pend w) eqn:P; [injection H as <- <-; auto|].
  rewrite <- P in H. destruct (match rev (w_dev w) with [] => ([], []) | l0 :: r => _ end) as [bd lt].
  destruct (chunk_convert strict (w_cap w) fuel (w_pend w) bd lt) as [[[[] rest] bd']| |]; try discriminate; injection H as <- <-; auto.
Qed.

Lemma wide_request : forall fuel ver strict eager pre s us, wrun fuel ver strict eager pre wnew = Done s -> Forall compose us ->
  Forall cop_scalar (texts us) -> size_of (texts us) + chunkCap + 2 <= fuel ->
  forall who offers es r, Forall (fun n => n < 2 ^ 32)%N offers ->
  respond (wide_event strict) es resp_init = RGood r \/ respond (wide_event strict) es resp_init = RShort r ->
  exists s2, wrun fuel ver strict eager (UReset true :: us ++ [UPerform who offers es]) s = Done s2 /\
    o_log s2 = o_log s ++ [(asked_for ver strict (given (header_of_op strict) (pre ++ us)) us
                              (utf8 (ctext (enc_after E_NONE (texts pre)) (texts us))) offers, r)].
Proof.
  intros fuel ver strict eager pre s us H F SC FU who offers es r O R.
  assert (S : w_cap (o_w s) = chunkCap /\ w_enc (o_w s) = enc_after E_NONE (texts pre) /\ o_headers s = given (header_of_op strict) pre).
  { unfold wrun in H. apply runs_same in H; [exact H|apply wide_empty_same|now split|now split]. }
  destruct S as (S1 & S2 & S3). unfold wrun. rewrite app_comm_cons, runs_app. cbn [urun ustep].
  rewrite (composed); [|auto|exact F|reflexivity|reflexivity].
  cbn [o_w o_url o_headers o_peer o_host o_resp o_log].
  replace (clear_wide (o_w s)) with (mkW [] chunkCap (enc_after E_NONE (texts pre)) ([] : list (list N))) by (unfold clear_wide; congruence).
  set (e := enc_after E_NONE (texts pre)) in *.
  assert (X : wide_chunks strict fuel (CEnc e :: texts us) =
     chunk_ops (emptyBuffer_wchunk strict fuel) (fun c => N.eqb c 0xffffffff) fuel (texts us) (mkW [] chunkCap e [])) by reflexivity.
  rewrite <- X. destruct (upload_wide strict fuel (CEnc e :: texts us)) as (w & w1 & W1 & W2 & W3 & W4).
  { now constructor. }
  { exact FU. }
  rewrite W1. destruct (W4 offers O) as (rest & D). cbn [ctext] in *. unfold perform. cbn [o_w o_url o_headers o_peer o_host o_resp o_log].
  rewrite W2, W3. unfold asked_for.
  rewrite host_from_level, S3.
  assert (G : forall a b, given (header_of_op strict) (a ++ b) = given (header_of_op strict) a ++ given (header_of_op strict) b).
  { induction a as [|u a IH]; intro b; cbn; [reflexivity|]. rewrite IH. now destruct (header_of_op strict u). }
  rewrite G. unfold handed, announced in *. destruct (utf8 (ctext e (texts us))) as [|x l] eqn:Q.
  - destruct R as [-> | ->]; eexists; (split; [reflexivity|]); cbn [o_log]; now destruct (latest (given (url_of strict) us)).
  - rewrite D. destruct R as [-> | ->]; eexists; (split; [reflexivity|]); cbn [o_log]; now destruct (latest (given (url_of strict) us)).
Qed.

(** ** Without a reset *)
Lemma narrow_first : forall fuel ver strict eager us s1, Forall compose us -> nrun fuel ver strict eager us nnew = Done s1 ->
  char_chunks fuel (texts us) = Done (o_w s1) /\ o_resp s1 = resp_init /\ o_good s1 = true.
Proof.
  intros fuel ver strict eager us s1 F H. unfold nrun in H.
  rewrite (composed) in H; [|apply narrow_alive_kept|exact F|reflexivity|reflexivity]. cbn [o_w nnew o_new] in H.
  unfold char_chunks. destruct (chunk_ops _ _ fuel (texts us) (chunk_fresh chunkCap)) as [w| |]; try discriminate.
  injection H as <-. auto.
Qed.

Lemma concat_handed : forall text offers, length text <= N.to_nat (fold_right N.add 0%N offers) -> concat (hand_out text offers) = text.
Proof. intros text offers H. rewrite hand_out_all. now apply firstn_all2. Qed.

Lemma again_undefined : forall fuel ver strict eager us s1 who offers es s2, Forall compose us -> nrun fuel ver strict eager us nnew = Done s1 ->
  length (ctext E_NONE (texts us)) mod chunkCap <> 0 -> Forall (fun n => n < 2 ^ 32)%N offers ->
  length (ctext E_NONE (texts us)) <= N.to_nat (fold_right N.add 0%N offers) ->
  nrun fuel ver strict eager [UPerform who offers es] s1 = Done s2 ->
  forall who' offers' es', nrun fuel ver strict eager [UPerform who' offers' es'] s2 = Undef.
Proof.
  intros fuel ver strict eager us s1 who offers es s2 F H M O L P who' offers' es'.
  apply narrow_first in H as (C & _ & _); [|exact F].
  destruct (upload_narrow _ _ _ C) as (body & w' & T & PR & D). destruct (D offers O) as (rest & D').
  assert (Z : narrow_destroy (fst rest) = UB).
  { eapply destroyed; [exact C|exact T|exact M|exact O|exact D'|now apply concat_handed]. }
  unfold nrun in *. cbn [urun ustep] in *. unfold perform in P. unfold chunk_take in T.
  destruct (emptyBuffer_chunk (o_w s1)) as [[b w1]|] eqn:E; [|discriminate]. injection T as <- <-.
  rewrite PR in P. unfold announced in P. destruct (ctext E_NONE (texts us)) as [|x l] eqn:Q; [rewrite Nat.mod_0_l in M; [congruence|]; pose proof chunkCap_val; lia|].
  rewrite D' in P. destruct rest as [rest rc]. cbn [fst] in *. unfold narrow_destroy in Z. destruct rest; [|discriminate].
  assert (W : c_cur (w_dev (o_w s2)) = None).
  { destruct (respond narrow_event es (o_resp s1)); try discriminate; injection P as <-; reflexivity. }
  unfold perform, emptyBuffer_chunk. now rewrite W.
Qed.

Lemma respond_app : forall ev a b r, respond ev (a ++ b) r = match respond ev a r with RGood r' => respond ev b r' | x => x end.
Proof. induction a as [|e a IH]; intros b r; cbn; [reflexivity|]. destruct (ev e r); auto. Qed.

Lemma lines_app : forall a b, lines_of (a ++ b) = lines_of a ++ lines_of b.
Proof. induction a as [|[] a IH]; intros b; cbn; auto. now rewrite IH. Qed.
Lemma body_app : forall a b, body_of (a ++ b) = body_of a ++ body_of b.
Proof. induction a as [|[] a IH]; intros b; cbn; auto. now rewrite IH, app_assoc. Qed.
Lemma no_length_ok : forall es, no_length es -> Forall length_ok (lines_of es) /\ forall b, length_first b es = true.
Proof.
  unfold no_length. induction es as [|[l|d] es IH]; cbn; intro H.
  - auto.
  - inversion H; subst. destruct (IH H3) as [A B]. split.
    + constructor; [|exact A]. intro X. congruence.
    + intro b. rewrite H2, andb_false_r. cbn. apply B.
  - destruct (IH H) as [A B]. auto.
Qed.

(** The second response is added to the first. *)
Lemma added : forall fuel ver strict eager o who1 off1 es1 who2 off2 es2 s2, o_resp o = resp_init -> no_length es1 -> no_length es2 ->
  nrun fuel ver strict eager [UPerform who1 off1 es1; UPerform who2 off2 es2] o = Done s2 ->
  r_data (o_resp s2) = Val (map Some (body_of es1 ++ body_of es2))
  /\ forall k, lookup k (r_headers (o_resp s2)) = lookup k (headers_of (lines_of es1 ++ lines_of es2)).
Proof.
  intros fuel ver strict eager o who1 off1 es1 who2 off2 es2 s2 RI N1 N2 H.
  destruct (no_length_ok (es1 ++ es2)) as [A B].
  { unfold no_length in *. rewrite lines_app. now apply Forall_app. }
  destruct (narrow_response (es1 ++ es2) A (B false)) as (r & E & D & _ & L).
  rewrite body_app in D. rewrite lines_app in L.
  destruct (no_length_ok es1 N1) as [A1 B1]. destruct (narrow_response es1 A1 (B1 false)) as (r1 & E1 & _).
  rewrite respond_app, E1 in E. unfold nrun in H. cbn [urun ustep] in H.
  match type of H with match ?x with _ => _ end = _ => destruct x as [o1| |] eqn:P1; try discriminate end.
  assert (R1 : o_resp o1 = r1).
  { unfold perform in P1. destruct (emptyBuffer_chunk (o_w o)) as [[? w]|]; [|discriminate].
    destruct (match prepare (chunk_body w) with Some _ => _ | None => _ end) as [[? ?]| |]; try discriminate.
    rewrite RI, E1 in P1. injection P1 as <-. reflexivity. }
  match type of H with match ?x with _ => _ end = _ => destruct x as [o2| |] eqn:P2; try discriminate end.
  injection H as <-.
  assert (R2 : o_resp o2 = r).
  { unfold perform in P2. destruct (emptyBuffer_chunk (o_w o1)) as [[? w]|]; [|discriminate].
    destruct (match prepare (chunk_body w) with Some _ => _ | None => _ end) as [[? ?]| |]; try discriminate.
    rewrite R1, E in P2. injection P2 as <-. reflexivity. }
  now rewrite R2.
Qed.

(** Once queued, what is written is ignored. *)
Lemma ignored : forall fuel ver strict eager o offers es s2 ts, nrun fuel ver strict eager [UPerform true offers es] o = Done s2 ->
  Forall writes ts -> nrun fuel ver strict eager (map (UText true) ts) s2 = Done s2.
Proof.
  intros fuel ver strict eager o offers es s2 ts H F.
  assert (G : o_good s2 = false).
  { unfold nrun in H. cbn [urun ustep] in H. unfold perform in H. destruct (emptyBuffer_chunk (o_w o)) as [[? w]|]; [|discriminate].
    destruct (match prepare (chunk_body w) with Some _ => _ | None => _ end) as [[? ?]| |]; try discriminate.
    destruct (respond narrow_event es (o_resp o)); try discriminate; injection H as <-; reflexivity. }
  clear H. induction F as [|t ts W F IH]; [reflexivity|]. unfold nrun in *. cbn [map urun ustep]. unfold text. rewrite G.
  destruct t; try contradiction; exact IH.
Qed.
