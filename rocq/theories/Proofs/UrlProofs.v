From Coq Require Import String List NArith ZArith Lia ZifyBool ZifyNat ZifyN Bool.
From Verif Require Import Model.Base Model.WebMaps Model.HttpCodec Spec.EscapeSpec
  Proofs.Arith Proofs.ProtocolProofs Proofs.PercentProofs.
Import ListNotations.
Local Open Scope N_scope.

Lemma list_eqb_eq : forall a b, list_eqb a b = true <-> a = b.
Proof.
  induction a; destruct b; cbn; split; intros; try discriminate; auto.
  - apply andb_prop in H as [H1 H2]. apply N.eqb_eq in H1. apply IHa in H2. congruence.
  - injection H as -> ->. rewrite N.eqb_refl. cbn. now apply IHa.
Qed.

Lemma is_prefix_app : forall p s, is_prefix p s = true <-> exists r, s = p ++ r.
Proof.
  induction p; intros s; cbn.
  - split; eauto.
  - destruct s; split; intros; try discriminate.
    + destruct H; discriminate.
    + apply andb_prop in H as [H1 H2]. apply N.eqb_eq in H1. apply IHp in H2 as [r ->].
      subst. eauto.
    + destruct H as [r H]. injection H as -> ->. rewrite N.eqb_refl. cbn. apply IHp. eauto.
Qed.

Lemma is_prefix_firstn : forall p s, is_prefix p s = list_eqb p (firstn (length p) s).
Proof.
  induction p; intros [|y s]; cbn; auto. now rewrite IHp.
Qed.

Lemma is_prefix_length : forall p s, is_prefix p s = true -> (length p <= length s)%nat.
Proof. intros p s H. apply is_prefix_app in H as [r ->]. rewrite app_length. lia. Qed.

Lemma sep_at_prefix : forall sep p rest,
  sep_at sep (p ++ rest) (length p) = is_prefix sep rest.
Proof.
  intros. unfold sep_at, slice. rewrite app_length, skipn_at by reflexivity.
  replace (length p + length sep - length p)%nat with (length sep) by lia.
  rewrite <- is_prefix_firstn.
  destruct (is_prefix sep rest) eqn:E; [|apply andb_false_r].
  apply is_prefix_length in E. rewrite andb_true_r. apply Nat.leb_le. lia.
Qed.

Lemma cut_char_app : forall c nm rest, ~ In c nm ->
  cut_char c (nm ++ rest)
  = match cut_char c rest with None => None | Some (a, b) => Some (nm ++ a, b) end.
Proof.
  induction nm as [|x nm IH]; intros rest H; cbn [app cut_char].
  - destruct (cut_char c rest) as [[a b]|]; reflexivity.
  - destruct (N.eqb_spec x c); [subst; exfalso; apply H; now left|].
    rewrite IH by (intro; apply H; now right).
    destruct (cut_char c rest) as [[a b]|]; reflexivity.
Qed.

(** No occurrence of [sep] starts inside [vl] when followed by [rest]. *)
Fixpoint clear_of (sep vl rest : list N) : Prop :=
  match vl with
  | [] => True
  | x :: vl' => is_prefix sep (vl ++ rest) = false /\ clear_of sep vl' rest
  end.

Lemma cut_sep_clear : forall sep vl rest, clear_of sep vl rest ->
  cut_sep sep (vl ++ rest) = (vl ++ fst (cut_sep sep rest), snd (cut_sep sep rest)).
Proof.
  induction vl as [|x vl IH]; intros rest H.
  - cbn [app]. destruct (cut_sep sep rest); reflexivity.
  - destruct H as [H1 H2]. cbn [app] in *. cbn [cut_sep]. rewrite H1.
    rewrite (IH _ H2). reflexivity.
Qed.

Lemma clear_of_snoc : forall sep vl c rest,
  clear_of sep vl (c :: rest) -> is_prefix sep (c :: rest) = false ->
  clear_of sep (vl ++ [c]) rest.
Proof.
  induction vl as [|x vl IH]; intros c rest H1 H2; cbn [app clear_of] in *.
  - auto.
  - destruct H1 as [H1 H1']. split.
    + rewrite <- app_assoc. exact H1.
    + apply IH; auto.
Qed.

Section Decode.
Variable vts : list N -> list N -> list N.

Definition cv (f : list N * list N) : list N * list N := (vts (fst f) [], vts (snd f) []).

Lemma percent_slice : forall src buf a b,
  bytes_ok src -> (length src <= length buf)%nat ->
  exists buf', percentEscapedToRealBytes (slice src a b) buf
      = Val (buf', length (percent_decode (slice src a b)))
    /\ firstn (length (percent_decode (slice src a b))) buf' = percent_decode (slice src a b)
    /\ length buf' = length buf.
Proof.
  intros src buf a b HB HL.
  destruct (percent_total (slice src a b) buf) as (rest & E & L1 & L2).
  - unfold slice. now apply bytes_firstn, bytes_skipn.
  - unfold slice. rewrite firstn_length, skipn_length. lia.
  - eexists. split; [exact E|]. split; [now apply firstn_at | exact L1].
Qed.

Lemma slice_mid : forall a b c, slice (a ++ b ++ c) (length a) (length (a ++ b)) = b.
Proof. intros. apply slice_at; rewrite ?app_length; auto. Qed.

Definition tail_fields (k : nat) (sep : list N) (o : option (list N)) :=
  match o with None => [] | Some r => form_fields k sep r end.

Lemma cut_sep_length : forall sep s v r, sep <> [] -> cut_sep sep s = (v, Some r) ->
  (length r < length s)%nat.
Proof.
  intros sep s v r HS. revert v r. induction s as [|x s IH]; intros v r; cbn [cut_sep].
  - destruct (is_prefix sep []) eqn:E; [|discriminate].
    apply is_prefix_length in E. destruct sep; [congruence|cbn in E; lia].
  - destruct (is_prefix sep (x :: s)) eqn:E.
    + intros H. injection H as <- <-. rewrite skipn_length.
      apply is_prefix_length in E. destruct sep; [congruence|]. cbn [length] in *. lia.
    + destruct (cut_sep sep s) as [v' o'] eqn:E'. intros H. injection H as <- ->.
      specialize (IH _ _ eq_refl). cbn [length]. lia.
Qed.

Lemma loop_phases : forall sep src, sep <> [] -> bytes_ok src -> forall n,
  (forall pre nm rest out buf vs fuel k,
     (length rest <= n)%nat -> src = pre ++ nm ++ rest -> ~ In 61 nm ->
     (length src <= length buf)%nat ->
     (length rest + 1 <= fuel)%nat -> (length rest < k)%nat ->
     exists s, url_loop vts fuel sep src
        (mkU (length (pre ++ nm)) false (length pre) vs [] [] buf out) = Done s /\
        u_out s = out ++ map cv (form_fields k sep (nm ++ rest))) /\
  (forall pre vl rest name out buf ns fuel k,
     (length rest <= n)%nat -> src = pre ++ vl ++ rest -> clear_of sep vl rest ->
     (length src <= length buf)%nat ->
     (length rest + 1 <= fuel)%nat -> (length rest < k)%nat ->
     exists s, url_loop vts fuel sep src
        (mkU (length (pre ++ vl)) true ns (length pre) name [] buf out) = Done s /\
        u_out s = out ++ (name, vts (percent_decode (vl ++ fst (cut_sep sep rest))) [])
                   :: map cv (tail_fields k sep (snd (cut_sep sep rest)))).
Proof.
  intros sep src HS HB. induction n as [n IHn] using lt_wf_ind.
  assert (LS : (1 <= length sep)%nat) by (destruct sep; [congruence|cbn; lia]).
  split.
  - (* name phase *)
    intros pre nm rest out buf vs fuel k HL Hsrc Hnm Hbuf Hf Hk.
    destruct fuel as [|fuel]; [lia|].
    assert (Lsrc : length src = (length (pre ++ nm) + length rest)%nat)
      by (rewrite Hsrc, !app_length; lia).
    cbn [url_loop u_data].
    destruct (Nat.leb_spec (length (pre ++ nm)) (length src)); [|lia].
    unfold url_step. cbn [u_inValue u_data u_nameStart u_name u_value u_buffer u_out u_valueStart].
    destruct rest as [|c rest].
    + destruct (Nat.eqb_spec (length (pre ++ nm)) (length src)); [|cbn in Lsrc; lia].
      cbn [negb].
      destruct fuel as [|fuel]; cbn [url_loop u_data];
        (destruct (Nat.leb_spec (S (length (pre ++ nm))) (length src)); [lia|]);
        (eexists; split; [reflexivity|]; cbn [u_out];
         destruct k; [lia|]; cbn [form_fields];
         rewrite cut_char_app by assumption; cbn [cut_char map]; now rewrite app_nil_r).
    + destruct (Nat.eqb_spec (length (pre ++ nm)) (length src)); [cbn in Lsrc; lia|].
      cbn [negb].
      replace (rd src (length (pre ++ nm))) with (Some c)
        by (rewrite Hsrc, app_assoc; symmetry; apply rd_at; reflexivity).
      cbn [length] in *.
      destruct (N.eqb_spec c 61) as [->|Hc].
      * destruct (percent_slice src buf (length pre) (length (pre ++ nm)) HB Hbuf)
          as (buf' & E & F & Lb).
        rewrite E, F.
        replace (slice src (length pre) (length (pre ++ nm))) with nm
          by (rewrite Hsrc; symmetry; apply slice_mid).
        destruct (IHn (length rest)) as [_ IHv]; [lia|].
        replace (S (length (pre ++ nm))) with (length ((pre ++ nm ++ [61]) ++ []))
          by (rewrite !app_length; cbn; lia).
        replace (url_loop vts fuel sep src _) with
          (url_loop vts fuel sep src (mkU (length ((pre ++ nm ++ [61]) ++ [])) true (length pre)
             (length (pre ++ nm ++ [61])) (vts (percent_decode nm) []) [] buf' out)).
        2:{ f_equal. f_equal. rewrite !app_length. cbn. lia. }
        destruct (IHv (pre ++ nm ++ [61]) [] rest (vts (percent_decode nm) []) out buf'
                    (length pre) fuel (k-1)%nat) as (s & E1 & E2); try lia.
        { rewrite Hsrc, <- !app_assoc. reflexivity. }
        { exact I. }
        exists s. split; [exact E1|]. rewrite E2. f_equal.
        destruct k as [|k]; [lia|]. cbn [form_fields].
        rewrite cut_char_app by assumption. cbn [cut_char]. rewrite N.eqb_refl.
        rewrite app_nil_r. replace (S k - 1)%nat with k by lia.
        cbn [app].
        destruct (cut_sep sep rest) as [v [r|]]; cbn [fst snd tail_fields map cv]; reflexivity.
      * destruct (IHn (length rest)) as [IHm _]; [lia|].
        replace (S (length (pre ++ nm))) with (length (pre ++ (nm ++ [c])))
          by (rewrite !app_length; cbn; lia).
        destruct (IHm pre (nm ++ [c]) rest out buf vs fuel k) as (s & E1 & E2); try lia.
        { rewrite Hsrc, <- !app_assoc. reflexivity. }
        { intros HI. apply in_app_or in HI as [HI|[HI|[]]]; [auto|congruence]. }
        exists s. split; [exact E1|]. rewrite E2. rewrite <- app_assoc. reflexivity.
  - (* value phase *)
    intros pre vl rest name out buf ns fuel k HL Hsrc Hcl Hbuf Hf Hk.
    destruct fuel as [|fuel]; [lia|].
    assert (Lsrc : length src = (length (pre ++ vl) + length rest)%nat)
      by (rewrite Hsrc, !app_length; lia).
    cbn [url_loop u_data].
    destruct (Nat.leb_spec (length (pre ++ vl)) (length src)); [|lia].
    unfold url_step. cbn [u_inValue u_data u_nameStart u_name u_value u_buffer u_out u_valueStart].
    replace (sep_at sep src (length (pre ++ vl))) with (is_prefix sep rest)
      by (rewrite Hsrc, app_assoc; symmetry; apply sep_at_prefix).
    destruct (percent_slice src buf (length pre) (length (pre ++ vl)) HB Hbuf)
      as (buf' & E & F & Lb).
    destruct rest as [|c rest].
    + destruct (Nat.eqb_spec (length (pre ++ vl)) (length src)); [|cbn in Lsrc; lia].
      cbn [orb]. rewrite E, F.
      replace (slice src (length pre) (length (pre ++ vl))) with vl
        by (rewrite Hsrc; symmetry; apply slice_mid).
      destruct fuel as [|fuel]; cbn [url_loop u_data];
        (destruct (Nat.leb_spec (length (pre ++ vl) + length sep) (length src)); [lia|]);
        (eexists; split; [reflexivity|]; cbn [u_out];
         destruct sep as [|y sep]; [congruence|];
         cbn [cut_sep is_prefix fst snd tail_fields map]; now rewrite app_nil_r).
    + destruct (Nat.eqb_spec (length (pre ++ vl)) (length src)); [cbn in Lsrc; lia|].
      cbn [orb].
      destruct (is_prefix sep (c :: rest)) eqn:EP.
      * rewrite E, F.
        replace (slice src (length pre) (length (pre ++ vl))) with vl
          by (rewrite Hsrc; symmetry; apply slice_mid).
        pose proof EP as EP'. apply is_prefix_app in EP' as [r Hr].
        assert (Lr : length (c :: rest) = (length sep + length r)%nat)
          by (rewrite Hr, app_length; reflexivity).
        cbn [length] in *.
        destruct (IHn (length r)) as [IHm _]; [lia|].
        replace (length (pre ++ vl) + length sep)%nat with (length ((pre ++ vl ++ sep) ++ []))
          by (rewrite !app_length; cbn; lia).
        replace (url_loop vts fuel sep src _) with
          (url_loop vts fuel sep src (mkU (length ((pre ++ vl ++ sep) ++ [])) false
             (length (pre ++ vl ++ sep)) (length pre) [] [] buf'
             (out ++ [(name, vts (percent_decode vl) [])]))).
        2:{ f_equal. f_equal. rewrite !app_length. cbn. lia. }
        destruct (IHm (pre ++ vl ++ sep) [] r (out ++ [(name, vts (percent_decode vl) [])])
                    buf' (length pre) fuel k) as (s & E1 & E2); try lia.
        { rewrite Hsrc, Hr, <- !app_assoc. reflexivity. }
        { intros []. }
        exists s. split; [exact E1|]. rewrite E2. cbn [app cut_sep]. rewrite EP.
        cbn [fst snd]. rewrite app_nil_r, <- app_assoc. cbn [app tail_fields].
        rewrite Hr, skipn_at by reflexivity. reflexivity.
      * destruct (IHn (length rest)) as [_ IHv]; [cbn [length] in *; lia|].
        cbn [length] in *.
        replace (S (length (pre ++ vl))) with (length (pre ++ (vl ++ [c])))
          by (rewrite !app_length; cbn; lia).
        destruct (IHv pre (vl ++ [c]) rest name out buf ns fuel k) as (s & E1 & E2); try lia.
        { rewrite Hsrc, <- !app_assoc. reflexivity. }
        { apply clear_of_snoc; auto. }
        exists s. split; [exact E1|]. rewrite E2. cbn [cut_sep]. rewrite EP.
        destruct (cut_sep sep rest) as [v o]. cbn [fst snd]. rewrite <- app_assoc. reflexivity.
Qed.

Lemma decode_url_fields : forall fuel junk sep src k,
  sep <> [] -> bytes_ok src -> (length src <= length junk)%nat ->
  (length src + 1 <= fuel)%nat -> (length src < k)%nat ->
  decodeUrlEncoded vts fuel junk sep src = Done (map cv (form_fields k sep src)).
Proof.
  intros fuel junk sep src k HS HB HJ HF HK. unfold decodeUrlEncoded.
  destruct (loop_phases sep src HS HB (length src)) as [H _].
  destruct (H [] [] src [] junk O fuel k) as (s & E1 & E2); auto.
  cbn [app length] in E1. rewrite E1, E2. reflexivity.
Qed.
End Decode.

(** Fields of an encoded form. *)
Lemma cut_char_none : forall c s, ~ In c s -> cut_char c s = None.
Proof.
  induction s as [|x s IH]; intros H; cbn; auto.
  destruct (N.eqb_spec x c); [subst; exfalso; apply H; now left|].
  rewrite IH; auto. intro; apply H; now right.
Qed.

Lemma cut_char_hit : forall c a b, ~ In c a -> cut_char c (a ++ c :: b) = Some (a, b).
Proof.
  intros. rewrite cut_char_app by assumption. cbn [cut_char]. rewrite N.eqb_refl.
  now rewrite app_nil_r.
Qed.

Lemma escape1_avoids : forall c x, c < 256 -> In x (url_escape1 c) -> ~ In x [61;38;59;32].
Proof.
  intros c x Hc.
  assert (K : forallb (fun x => negb (existsb (N.eqb x) [61;38;59;32])) (url_escape1 c) = true)
    by (apply (byte_sweep (fun c => forallb (fun x => negb (existsb (N.eqb x) [61;38;59;32])) (url_escape1 c))); auto).
  intros Hx. rewrite forallb_forall in K. apply K in Hx.
  intros H. apply negb_true_iff in Hx.
  assert (existsb (N.eqb x) [61;38;59;32] = true).
  { apply existsb_exists. exists x. split; auto. apply N.eqb_refl. }
  congruence.
Qed.

Lemma escape_avoids : forall s x, bytes_ok s -> In x (url_escape s) -> ~ In x [61;38;59;32].
Proof.
  intros s x HB H. unfold url_escape in H. apply in_flat_map in H as (c & H1 & H2).
  unfold bytes_ok in HB. rewrite Forall_forall in HB. apply escape1_avoids with c; auto.
  apply HB; auto.
Qed.

(** A separator all of whose occurrences start with a character the escaped
    text does not contain. *)
Lemma clear_escaped : forall h sep s rest,
  ~ In h s -> clear_of (h :: sep) s rest.
Proof.
  induction s as [|x s IH]; intros rest H; cbn [clear_of]; auto.
  split.
  - cbn [app is_prefix]. destruct (N.eqb_spec h x); auto.
    subst. exfalso. apply H. now left.
  - apply IH. intro; apply H; now right.
Qed.

Lemma cut_sep_hit : forall h sep s rest, ~ In h s ->
  cut_sep (h :: sep) (s ++ (h :: sep) ++ rest) = (s, Some rest).
Proof.
  intros. rewrite cut_sep_clear by (now apply clear_escaped).
  assert (E : cut_sep (h :: sep) ((h :: sep) ++ rest) = ([], Some rest)).
  { pose proof (proj2 (is_prefix_app (h :: sep) ((h::sep) ++ rest)) (ex_intro _ rest eq_refl)) as P.
    cbn [app] in *. cbn [cut_sep]. rewrite P.
    change (h :: sep ++ rest) with ((h :: sep) ++ rest).
    rewrite skipn_at by reflexivity. reflexivity. }
  rewrite E. cbn [fst snd]. now rewrite app_nil_r.
Qed.

Lemma cut_sep_end : forall h sep s, ~ In h s -> cut_sep (h :: sep) s = (s, None).
Proof.
  intros. rewrite <- (app_nil_r s) at 1. rewrite cut_sep_clear by (now apply clear_escaped).
  cbn. now rewrite app_nil_r.
Qed.

Lemma form_fields_encode : forall h sep fs k,
  In h [38; 59] ->
  Forall (fun f => bytes_ok (fst f) /\ bytes_ok (snd f)) fs ->
  (length fs <= k)%nat ->
  form_fields k (h :: sep) (form_encode (h :: sep) fs) = fs.
Proof.
  intros h sep fs k Hh. revert k. induction fs as [|[n v] fs IH]; intros k HF HK.
  - destruct k; reflexivity.
  - inversion HF as [|? ? [Hn Hv] HF']; subst. cbn [fst snd] in *.
    destruct k as [|k]; [cbn in HK; lia|].
    assert (An : ~ In 61 (url_escape n)).
    { intro A. apply (escape_avoids n 61) in A; auto. apply A. now left. }
    assert (Av : ~ In h (url_escape v)).
    { intro A. apply (escape_avoids v h) in A; auto. apply A. destruct Hh as [<-|[<-|[]]]; cbn; auto. }
    destruct fs as [|g fs].
    + cbn [form_encode form_fields]. unfold form_field. cbn [fst snd app].
      rewrite cut_char_hit by assumption. rewrite cut_sep_end by assumption.
      now rewrite !decode_escape by assumption.
    + cbn [form_encode form_fields]. unfold form_field at 1. cbn [fst snd].
      rewrite <- !app_assoc. cbn [app].
      rewrite cut_char_hit by assumption.
      change (url_escape v ++ h :: sep ++ ?x) with (url_escape v ++ (h :: sep) ++ x).
      rewrite cut_sep_hit by assumption.
      rewrite !decode_escape by assumption. f_equal.
      apply IH; auto. cbn [length] in *. lia.
Qed.

Lemma bytes_form_encode : forall sep fs, bytes_ok sep ->
  Forall (fun f => bytes_ok (fst f) /\ bytes_ok (snd f)) fs ->
  bytes_ok (form_encode sep fs).
Proof.
  intros sep fs HS. induction fs as [|f fs IH]; intros H; [constructor|].
  inversion H as [|? ? [H1 H2] H3]; subst.
  assert (HF : bytes_ok (form_field f)).
  { unfold form_field, bytes_ok. apply Forall_app. split; [now apply bytes_url_escape|].
    constructor; [unfold is_byte; lia|now apply bytes_url_escape]. }
  destruct fs as [|g fs]; [exact HF|].
  cbn [form_encode]. apply Forall_app. split; [exact HF|].
  apply Forall_app. split; [exact HS|]. apply IH. exact H3.
Qed.

Lemma form_encode_length : forall h sep fs,
  (length fs <= length (form_encode (h :: sep) fs))%nat.
Proof.
  induction fs as [|f fs IH]; cbn [length form_encode]; [lia|].
  assert (1 <= length (form_field f))%nat
    by (unfold form_field; rewrite app_length; cbn; lia).
  destruct fs; [cbn [length]; lia|]. rewrite !app_length. cbn [length] in *. lia.
Qed.

Lemma url_round_trip : forall vts fuel junk h sep fs,
  In h [38; 59] -> bytes_ok (h :: sep) ->
  Forall (fun f => bytes_ok (fst f) /\ bytes_ok (snd f)) fs ->
  (length (form_encode (h :: sep) fs) <= length junk)%nat ->
  (length (form_encode (h :: sep) fs) + 1 <= fuel)%nat ->
  decodeUrlEncoded vts fuel junk (h :: sep) (form_encode (h :: sep) fs)
    = Done (map (fun f => (vts (fst f) [], vts (snd f) [])) fs).
Proof.
  intros vts fuel junk h sep fs Hh HS HF HJ HL.
  rewrite decode_url_fields with (k := S (length (form_encode (h :: sep) fs))); auto.
  - rewrite form_fields_encode; auto. pose proof (form_encode_length h sep fs). lia.
  - discriminate.
  - now apply bytes_form_encode.
Qed.

Lemma bare_field_merges : forall vts fuel junk bare h sep name value,
  In h [38; 59] -> bytes_ok (h :: sep) -> ~ In 61 (h :: sep) ->
  bytes_ok bare -> bytes_ok name -> bytes_ok value ->
  let text := url_escape bare ++ (h :: sep) ++ form_field (name, value) in
  (length text <= length junk)%nat -> (length text + 1 <= fuel)%nat ->
  decodeUrlEncoded vts fuel junk (h :: sep) text
  = Done [(vts (percent_decode (url_escape bare ++ (h :: sep) ++ url_escape name)) [],
           vts value [])].
Proof.
  intros vts fuel junk bare h sep name value Hh HS HE HB HN HV text HJ HL.
  assert (A : forall s, bytes_ok s -> ~ In 61 (url_escape s)).
  { intros s Hs A. apply (escape_avoids s 61) in A; auto. apply A. now left. }
  rewrite decode_url_fields with (k := S (length text)); auto; [|discriminate|].
  - unfold text at 2. unfold form_field. cbn [fst snd].
    replace (url_escape bare ++ (h :: sep) ++ url_escape name ++ [61] ++ url_escape value)
      with ((url_escape bare ++ (h :: sep) ++ url_escape name) ++ 61 :: url_escape value)
      by (rewrite <- !app_assoc; reflexivity).
    cbn [form_fields]. rewrite cut_char_hit.
    2:{ intros H. apply in_app_or in H as [H|H]; [now apply (A bare)|].
        apply in_app_or in H as [H|H]; [auto|now apply (A name)]. }
    rewrite cut_sep_end.
    2:{ intro X. apply (escape_avoids value h) in X; auto. apply X.
        destruct Hh as [<-|[<-|[]]]; cbn; auto. }
    cbn [map cv fst snd]. rewrite decode_escape by assumption. reflexivity.
  - unfold text. apply Forall_app. split; [now apply bytes_url_escape|].
    apply Forall_app. split; auto. unfold form_field. cbn [fst snd].
    apply Forall_app. split; [now apply bytes_url_escape|].
    constructor; [unfold is_byte; lia|now apply bytes_url_escape].
Qed.
