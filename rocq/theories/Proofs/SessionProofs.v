From Coq Require Import List NArith ZArith Lia ZifyBool ZifyNat ZifyN Bool.
From Verif Require Import Model.Base Model.Sessions Spec.SessionSpec Proofs.UrlProofs.
Import ListNotations.
Local Open Scope Z_scope.

Section P.
Context {D : Type}.
Notation sess := (session D).

Lemma leb_refl : forall a, list_eqb a a = true.
Proof. intros. now apply list_eqb_eq. Qed.

Definition keys (m : list sess) := map s_id m.

Lemma find_in : forall (m : list sess) id s, s_find m id = Some s -> In s m /\ s_id s = id.
Proof.
  induction m as [|x m IH]; intros id s H; [discriminate|]. cbn in H.
  destruct (list_eqb (s_id x) id) eqn:E.
  - injection H as <-. apply list_eqb_eq in E. split; [now left|assumption].
  - apply IH in H as [H1 H2]. split; [now right|assumption].
Qed.

Lemma find_none : forall (m : list sess) id, s_find m id = None -> ~ In id (keys m).
Proof.
  induction m as [|x m IH]; intros id H; [intros []|]. cbn in *.
  destruct (list_eqb (s_id x) id) eqn:E; [discriminate|].
  intros [<-|H']; [now rewrite leb_refl in E|]. now apply IH in H.
Qed.

Lemma find_unique : forall (m : list sess) s, NoDup (keys m) -> In s m -> s_find m (s_id s) = Some s.
Proof.
  induction m as [|x m IH]; intros s ND H; [destruct H|].
  cbn in ND. inversion ND as [|? ? N1 N2]; subst. cbn.
  destruct H as [->|H].
  - now rewrite leb_refl.
  - destruct (list_eqb (s_id x) (s_id s)) eqn:E; [|now apply IH].
    apply list_eqb_eq in E. exfalso. apply N1. rewrite E. now apply in_map.
Qed.

Lemma erase_keys : forall (m : list sess) id x, In x (keys (s_erase m id)) -> In x (keys m).
Proof.
  induction m as [|y m IH]; intros id x H; [destruct H|]. cbn in *.
  destruct (list_eqb (s_id y) id); [now right|]. destruct H; [now left|right; eauto].
Qed.

Lemma erase_nodup : forall (m : list sess) id, NoDup (keys m) -> NoDup (keys (s_erase m id)).
Proof.
  induction m as [|y m IH]; intros id H; [constructor|]. cbn in *.
  inversion H; subst. destruct (list_eqb (s_id y) id); auto.
  cbn. constructor; auto. intro I. apply erase_keys in I. auto.
Qed.

Lemma refresh_keys : forall (m : list sess) id t, keys (s_refresh m id t) = keys m.
Proof.
  induction m as [|y m IH]; intros id t; [reflexivity|]. cbn.
  destruct (list_eqb (s_id y) id); [reflexivity|]. cbn. f_equal. apply IH.
Qed.

Lemma filter_keys : forall (m : list sess) f x, In x (keys (filter f m)) -> In x (keys m).
Proof.
  intros m f x H. apply in_map_iff in H as (s & <- & H). apply filter_In in H as [H _].
  now apply in_map.
Qed.

Lemma filter_nodup : forall (m : list sess) f, NoDup (keys m) -> NoDup (keys (filter f m)).
Proof.
  induction m as [|y m IH]; intros f H; [constructor|]. cbn in *. inversion H; subst.
  destruct (f y); auto. cbn. constructor; auto. intro I. apply filter_keys in I. auto.
Qed.

Lemma find_erase : forall (m : list sess) id id', NoDup (keys m) ->
  s_find (s_erase m id) id' = if list_eqb id id' then None else s_find m id'.
Proof.
  induction m as [|y m IH]; intros id id' ND; cbn.
  - destruct (list_eqb id id'); reflexivity.
  - cbn in ND. inversion ND as [|? ? N1 N2]; subst.
    destruct (list_eqb (s_id y) id) eqn:E.
    + apply list_eqb_eq in E. subst. destruct (list_eqb (s_id y) id') eqn:E'; [|reflexivity].
      apply list_eqb_eq in E'. subst. destruct (s_find m (s_id y)) eqn:F; auto.
      exfalso. apply N1. apply find_in in F as [F1 F2]. rewrite <- F2. now apply in_map.
    + cbn. rewrite IH by assumption. destruct (list_eqb (s_id y) id') eqn:E'; [|reflexivity].
      destruct (list_eqb id id') eqn:E2; [|reflexivity].
      apply list_eqb_eq in E2. subst. congruence.
Qed.

Lemma find_refresh : forall (m : list sess) id t id',
  s_find (s_refresh m id t) id'
  = if list_eqb id id' then
      match s_find m id' with Some s => Some (mkS (s_id s) t (s_data s)) | None => None end
    else s_find m id'.
Proof.
  induction m as [|y m IH]; intros id t id'; cbn.
  - destruct (list_eqb id id'); reflexivity.
  - destruct (list_eqb (s_id y) id) eqn:E; cbn.
    + apply list_eqb_eq in E. subst. destruct (list_eqb (s_id y) id'); reflexivity.
    + rewrite IH. destruct (list_eqb (s_id y) id') eqn:E'; [|reflexivity].
      destruct (list_eqb id id') eqn:E2; [|reflexivity].
      apply list_eqb_eq in E2. subst. congruence.
Qed.

Lemma find_filter : forall (m : list sess) f id, NoDup (keys m) ->
  s_find (filter f m) id
  = match s_find m id with Some s => if f s then Some s else None | None => None end.
Proof.
  induction m as [|y m IH]; intros f id ND; [reflexivity|].
  cbn in ND. inversion ND as [|? ? N1 N2]; subst. cbn.
  destruct (f y) eqn:F; cbn.
  - destruct (list_eqb (s_id y) id); [now rewrite F|auto].
  - rewrite IH by assumption. destruct (list_eqb (s_id y) id) eqn:E; [|reflexivity].
    rewrite F. apply list_eqb_eq in E. subst.
    destruct (s_find m (s_id y)) eqn:X; auto.
    exfalso. apply N1. apply find_in in X as [X1 X2]. rewrite <- X2. now apply in_map.
Qed.

(** What the map says about a key. *)
Definition view (ss : sessions D) (id : list N) : option (D * Z) :=
  match s_find (ss_map ss) id with Some s => Some (s_data s, s_time s) | None => None end.

(** Soundness invariant: the map never knows more than the log. *)
Record sound (keep : Z) (log : list (call D * reply D)) (ss : sessions D) : Prop := {
  so_keep : ss_keepAlive ss = keep;
  so_nodup : NoDup (keys (ss_map ss));
  so_view : forall id x, view ss id = Some x -> last_use keep log id = Some x
}.

(** Completeness: what the log says is alive at time [T] is in the map. *)
Definition complete (keep : Z) (T : Z) (log : list (call D * reply D)) (ss : sessions D) : Prop :=
  forall id d u, last_use keep log id = Some (d, u) -> T - keep <= u -> view ss id = Some (d, u).

Lemma generate_facts : forall draws (data : D) ss id ss',
  generate draws data ss = Some (id, ss') ->
  s_find (ss_map ss) id = None /\
  exists t, In (id, t) draws /\
    ss' = mkSS (ss_keepAlive ss) (ss_cleanup ss) (mkS id t data :: ss_map ss) (ss_expiration ss).
Proof.
  induction draws as [|[i t] draws IH]; intros data ss id ss' H; [discriminate|]. cbn in H.
  destruct (s_find (ss_map ss) i) eqn:E.
  - apply IH in H as (H1 & t' & H2 & H3). split; auto. exists t'. split; [now right|assumption].
  - injection H as <- <-. split; auto. exists t. split; [now left|reflexivity].
Qed.

(** The map after the optional sweep of [get]. *)
Definition swept (now tc : Z) (ss : sessions D) : sessions D :=
  if ss_cleanup ss <=? now then
    mkSS (ss_keepAlive ss) (tc + ss_keepAlive ss)
         (filter (fun s => negb (s_time s <? now - ss_keepAlive ss)) (ss_map ss))
         (tc + ss_keepAlive ss + ss_keepAlive ss)
  else ss.

Lemma view_swept : forall now tc ss id, NoDup (keys (ss_map ss)) ->
  view (swept now tc ss) id
  = match view ss id with
    | Some (d, u) => if (ss_cleanup ss <=? now) && (u <? now - ss_keepAlive ss) then None
                     else Some (d, u)
    | None => None end.
Proof.
  intros now tc ss id ND. unfold swept, view. destruct (ss_cleanup ss <=? now) eqn:E; cbn [ss_map andb].
  - rewrite find_filter by assumption. destruct (s_find (ss_map ss) id) as [s|]; auto.
    destruct (s_time s <? now - ss_keepAlive ss); reflexivity.
  - destruct (s_find (ss_map ss) id); reflexivity.
Qed.

Lemma swept_keep : forall now tc ss, ss_keepAlive (swept now tc ss) = ss_keepAlive ss.
Proof. intros. unfold swept. destruct (_ <=? _); reflexivity. Qed.

Lemma swept_nodup : forall now tc ss, NoDup (keys (ss_map ss)) -> NoDup (keys (ss_map (swept now tc ss))).
Proof. intros. unfold swept. destruct (_ <=? _); auto. cbn. now apply filter_nodup. Qed.

Lemma get_facts : forall now tc tr id ss r ss',
  NoDup (keys (ss_map ss)) ->
  get now tc tr id ss = (r, ss') ->
  let ss1 := swept now tc ss in
  ss_keepAlive ss' = ss_keepAlive ss /\ NoDup (keys (ss_map ss')) /\
  r = (match view ss1 id with
       | Some (d, u) => if u <? now - ss_keepAlive ss then None else Some d
       | None => None end) /\
  forall id', view ss' id' =
    if list_eqb id id' then
      match view ss1 id with
      | Some (d, u) => if u <? now - ss_keepAlive ss then None else Some (d, tr)
      | None => None end
    else view ss1 id'.
Proof.
  intros now tc tr id ss r ss' ND H ss1.
  assert (N1 : NoDup (keys (ss_map ss1))) by (now apply swept_nodup).
  unfold get in H. fold (swept now tc ss) in H. fold ss1 in H.
  assert (K1 : ss_keepAlive ss1 = ss_keepAlive ss) by apply swept_keep.
  unfold view at 1 2.
  destruct (s_find (ss_map ss1) id) as [s|] eqn:F.
  - destruct (s_time s <? now - ss_keepAlive ss) eqn:T; injection H as <- <-; cbn [ss_keepAlive ss_map].
    + repeat split; auto. { now apply erase_nodup. }
      intros id'. unfold view. cbn [ss_map]. rewrite find_erase by assumption.
      destruct (list_eqb id id'); auto. now rewrite F, T.
    + repeat split; auto. { now rewrite refresh_keys. }
      intros id'. unfold view. cbn [ss_map]. rewrite find_refresh.
      destruct (list_eqb id id') eqn:E; auto.
      apply list_eqb_eq in E. subst. rewrite F, T. reflexivity.
  - injection H as <- <-. repeat split; auto.
    intros id'. destruct (list_eqb id id') eqn:E; auto.
    apply list_eqb_eq in E. subst. unfold view. now rewrite F.
Qed.

Lemma step_sound : forall keep log ss c r ss',
  sound keep log ss -> step c ss = (r, ss') -> sound keep ((c, r) :: log) ss'.
Proof.
  intros keep log ss c r ss' [HK HN HV] H. destruct c as [draws data|now tc tr id|id]; cbn in H.
  - destruct (generate draws data ss) as [[id s']|] eqn:G; injection H as <- <-.
    + apply generate_facts in G as (F & t & _ & ->). split; cbn [ss_keepAlive ss_map]; auto.
      * cbn. constructor; auto. now apply find_none.
      * intros id' x. unfold view. cbn [ss_map s_find s_id last_use]. rewrite leb_refl.
        cbn [s_time]. destruct (list_eqb id id') eqn:E; auto.
    + split; auto.
  - destruct (get now tc tr id ss) as [r0 s'] eqn:G. injection H as <- <-.
    apply get_facts in G as (K & N1 & _ & V); auto. split; auto; [congruence|].
    intros id' x. rewrite V. rewrite !view_swept by assumption. cbn [last_use].
    destruct (list_eqb id id') eqn:E.
    + apply list_eqb_eq in E. subst. destruct (view ss id') as [[d u]|] eqn:W; [|discriminate].
      rewrite (HV _ _ W).
      destruct (_ && _); [discriminate|].
      destruct (u <? now - ss_keepAlive ss) eqn:T; [discriminate|].
      destruct (Z.leb_spec (now - ss_keepAlive ss) u); [auto|lia].
    + destruct (view ss id') as [[d u]|] eqn:W; [|discriminate].
      destruct (_ && _); [discriminate|]. intros X. apply HV. congruence.
  - injection H as <- <-. split; cbn [ss_keepAlive ss_map erase]; auto.
    + now apply erase_nodup.
    + intros id' x. unfold view, erase. cbn [ss_map last_use]. rewrite find_erase by assumption.
      destruct (list_eqb id id'); [discriminate|]. apply HV.
Qed.

Lemma run_sound : forall cs keep log ss, sound keep log ss ->
  sound keep (fst (run_calls cs log ss)) (snd (run_calls cs log ss)).
Proof.
  induction cs as [|c cs IH]; intros keep log ss H; auto. cbn [run_calls].
  destruct (step c ss) as [r ss'] eqn:E. apply IH. eapply step_sound; eauto.
Qed.

Lemma new_sound : forall keep t0, sound keep [] (sessions_new keep t0).
Proof. intros. split; [reflexivity|constructor|discriminate]. Qed.

Lemma nondec_le : forall l T t, nondecreasing T l -> In t l -> T <= t.
Proof.
  induction l as [|x l IH]; intros T t H I; [destruct I|].
  destruct H as [H1 H2]. destruct I as [<-|I]; auto. specialize (IH _ _ H2 I). lia.
Qed.

Lemma complete_mono : forall keep T T' log ss, T <= T' -> complete keep T log ss -> complete keep T' log ss.
Proof. intros keep T T' log ss H C id d u H1 H2. apply C; auto. lia. Qed.

Lemma step_complete : forall keep T log ss c r ss',
  sound keep log ss -> complete keep T log ss -> nondecreasing T (times c) ->
  step c ss = (r, ss') -> complete keep (last (times c) T) ((c, r) :: log) ss'.
Proof.
  intros keep T log ss c r ss' [HK HN HV] HC HT H.
  destruct c as [draws data|now tc tr id|id]; cbn in H.
  - assert (L : T <= last (times (CGenerate draws data)) T).
    { clear -HT. destruct (times (CGenerate draws data)) as [|z l] eqn:E; [cbn; lia|].
      destruct (exists_last (l := z :: l)) as (l' & w & E'); [discriminate|].
      rewrite E', last_last. rewrite E' in HT. apply nondec_le with (1 := HT).
      apply in_or_app. right. now left. }
    apply complete_mono with (1 := L).
    destruct (generate draws data ss) as [[id s']|] eqn:G; injection H as <- <-.
    + apply generate_facts in G as (F & t & _ & ->).
      intros id' d u. cbn [last_use ss_map s_find s_id]. rewrite leb_refl. cbn [s_time].
      unfold view. cbn [ss_map s_find s_id].
      destruct (list_eqb id id') eqn:E.
      * intros X _. injection X as -> ->. reflexivity.
      * intros X Y. apply (HC _ _ _ X Y).
    + intros id' d u. cbn [last_use]. apply HC.
  - cbn [times nondecreasing] in HT. destruct HT as (T1 & T2 & T3 & _).
    change (last (times (CGet now tc tr id)) T) with tr.
    destruct (get now tc tr id ss) as [r0 s'] eqn:G. injection H as <- <-.
    apply get_facts in G as (K & N1 & _ & V); auto.
    assert (A : forall id' d u, last_use keep log id' = Some (d, u) -> now - keep <= u ->
        view (swept now tc ss) id' = Some (d, u)).
    { intros id' d u X Y. rewrite view_swept by assumption.
      rewrite (HC id' d u X) by lia.
      destruct (Z.ltb_spec u (now - ss_keepAlive ss)); [lia|]. now rewrite andb_false_r. }
    intros id' d u. rewrite V. cbn [last_use].
    destruct (list_eqb id id') eqn:E.
    + apply list_eqb_eq in E. subst.
      destruct (last_use (ss_keepAlive ss) log id') as [[d0 u0]|] eqn:W; [|discriminate].
      destruct (Z.leb_spec (now - ss_keepAlive ss) u0); [|discriminate].
      intros X _. injection X as <- <-. rewrite (A _ _ _ W) by assumption.
      destruct (Z.ltb_spec u0 (now - ss_keepAlive ss)); [lia|reflexivity].
    + intros X Y. apply A; auto. lia.
  - cbn [times last]. injection H as <- <-. intros id' d u. cbn [last_use].
    unfold view, erase. cbn [ss_map]. rewrite find_erase by assumption.
    destruct (list_eqb id id'); [discriminate|]. apply HC.
Qed.

Lemma last_app_cons : forall (l1 l2 : list Z) T, last (l1 ++ l2) T = last l2 (last l1 T).
Proof.
  induction l1 as [|x l1 IH]; intros l2 T; auto.
  cbn [app]. destruct l1 as [|y l1].
  - cbn. destruct l2; auto. revert z. induction l2; intros z; auto. cbn in *. destruct l2; auto.
  - change (last (x :: (y :: l1) ++ l2) T) with (last ((y :: l1) ++ l2) T).
    rewrite IH. reflexivity.
Qed.

Lemma nondec_app : forall l1 l2 T, nondecreasing T (l1 ++ l2) ->
  nondecreasing T l1 /\ nondecreasing (last l1 T) l2.
Proof.
  induction l1 as [|x l1 IH]; intros l2 T H; [cbn; auto|].
  cbn [app nondecreasing] in H. destruct H as [H1 H2]. apply IH in H2 as [H2 H3].
  split; [cbn; auto|].
  replace (last (x :: l1) T) with (last l1 x); auto.
  clear. revert x T. induction l1 as [|y l1 IH]; intros x T; auto.
  change (last (x :: y :: l1) T) with (last (y :: l1) T). rewrite <- !IH. reflexivity.
Qed.

Lemma run_complete : forall cs keep T log ss, sound keep log ss -> complete keep T log ss ->
  nondecreasing T (flat_map times cs) ->
  complete keep (last (flat_map times cs) T) (fst (run_calls cs log ss)) (snd (run_calls cs log ss)).
Proof.
  induction cs as [|c cs IH]; intros keep T log ss HS HC HT; auto. cbn [run_calls flat_map] in *.
  apply nondec_app in HT as [HT1 HT2]. rewrite last_app_cons.
  destruct (step c ss) as [r ss'] eqn:E. apply IH; auto.
  - eapply step_sound; eauto.
  - eapply step_complete; eauto.
Qed.

Lemma new_complete : forall keep t0, complete keep t0 [] (sessions_new keep t0).
Proof. intros keep t0. unfold complete. cbn. discriminate. Qed.

(** ** The property lemmas *)

Lemma get_sound : forall keep t0 cs now tc tr id d log (ss : sessions D),
  run_calls cs [] (sessions_new keep t0) = (log, ss) ->
  fst (get now tc tr id ss) = Some d ->
  exists u, last_use keep log id = Some (d, u) /\ now - keep <= u.
Proof.
  intros keep t0 cs now tc tr id d log ss HR H.
  pose proof (run_sound cs keep [] _ (new_sound keep t0)) as S. rewrite HR in S. cbn [fst snd] in S.
  destruct S as [HK HN HV].
  destruct (get now tc tr id ss) as [r ss'] eqn:G. cbn [fst] in H. subst r.
  apply get_facts in G as (_ & _ & G & _); auto.
  rewrite view_swept in G by assumption. destruct (view ss id) as [[d0 u]|] eqn:W; [|discriminate].
  destruct (_ && _); [discriminate|]. destruct (Z.ltb_spec u (now - ss_keepAlive ss)); [discriminate|].
  injection G as ->. exists u. split; [now apply HV|lia].
Qed.

Lemma get_exact : forall keep t0 cs now tc tr id d log (ss : sessions D),
  run_calls cs [] (sessions_new keep t0) = (log, ss) ->
  nondecreasing t0 (flat_map times cs ++ [now; tc; tr]) ->
  (fst (get now tc tr id ss) = Some d <->
   exists u, last_use keep log id = Some (d, u) /\ now - keep <= u).
Proof.
  intros keep t0 cs now tc tr id d log ss HR HT. split; [now apply get_sound with (1 := HR)|].
  intros (u & HL & HU). apply nondec_app in HT as [HT1 HT2].
  pose proof (run_sound cs keep [] _ (new_sound keep t0)) as S. rewrite HR in S. cbn [fst snd] in S.
  pose proof (run_complete cs keep t0 [] _ (new_sound keep t0) (new_complete keep t0) HT1) as C.
  rewrite HR in C. cbn [fst snd] in C.
  destruct S as [HK HN HV].
  destruct (get now tc tr id ss) as [r ss'] eqn:G. cbn [fst].
  apply get_facts in G as (_ & _ & G & _); auto.
  destruct HT2 as (T1 & _).
  rewrite view_swept in G by assumption. rewrite (C id d u HL) in G by lia.
  destruct (Z.ltb_spec u (now - ss_keepAlive ss)); [lia|].
  rewrite andb_false_r in G.
  destruct (Z.ltb_spec u (now - ss_keepAlive ss)); [lia|exact G].
Qed.

Lemma generate_fresh : forall keep t0 cs draws data id ss' log (ss : sessions D),
  run_calls cs [] (sessions_new keep t0) = (log, ss) ->
  generate draws data ss = Some (id, ss') ->
  nondecreasing t0 (flat_map times cs) ->
  (forall d u, last_use keep log id = Some (d, u) -> u < last (flat_map times cs) t0 - keep) /\
  (forall id', id' <> id -> s_find (ss_map ss') id' = s_find (ss_map ss) id') /\
  size ss' = S (size ss).
Proof.
  intros keep t0 cs draws data id ss' log ss HR HG HT.
  pose proof (run_complete cs keep t0 [] _ (new_sound keep t0) (new_complete keep t0) HT) as C.
  rewrite HR in C. cbn [fst snd] in C.
  apply generate_facts in HG as (F & t & _ & ->). split; [|split].
  - intros d u HL. destruct (Z.lt_ge_cases u (last (flat_map times cs) t0 - keep)); auto.
    assert (V : view ss id = Some (d, u)) by (apply C; auto).
    unfold view in V. rewrite F in V. discriminate.
  - intros id' NE. cbn [ss_map s_find s_id]. destruct (list_eqb id id') eqn:E; auto.
    apply list_eqb_eq in E. congruence.
  - reflexivity.
Qed.

(** ** The cookie expiration time *)
Definition exp_inv (ss : sessions D) : Prop := ss_expiration ss = ss_cleanup ss + ss_keepAlive ss.

Lemma step_exp : forall c ss r ss', exp_inv ss -> step c ss = (r, ss') ->
  exp_inv ss' /\ ss_keepAlive ss' = ss_keepAlive ss.
Proof.
  intros c ss r ss' HI H. destruct c as [draws data|now tc tr id|id]; cbn in H.
  - destruct (generate draws data ss) as [[id s']|] eqn:G; injection H as <- <-; [|auto].
    apply generate_facts in G as (_ & t & _ & ->). auto.
  - unfold get in H. fold (swept now tc ss) in H.
    assert (E : exp_inv (swept now tc ss) /\ ss_keepAlive (swept now tc ss) = ss_keepAlive ss).
    { unfold swept. destruct (_ <=? _); auto. unfold exp_inv. cbn. auto. }
    destruct (s_find _ id); [destruct (_ <? _)|]; injection H as <- <-; auto.
  - injection H as <- <-. auto.
Qed.

Lemma run_exp : forall cs log ss, exp_inv ss ->
  exp_inv (snd (run_calls cs log ss)) /\
  ss_keepAlive (snd (run_calls cs log ss)) = ss_keepAlive ss.
Proof.
  induction cs as [|c cs IH]; intros log ss H; auto. cbn [run_calls].
  destruct (step c ss) as [r ss'] eqn:E. pose proof (step_exp _ _ _ _ H E) as [H1 H2].
  destruct (IH ((c, r) :: log) ss' H1) as [H3 H4]. split; auto. congruence.
Qed.

Lemma expiration_after_get : forall keep t0 cs now tc tr id log (ss : sessions D),
  run_calls cs [] (sessions_new keep t0) = (log, ss) ->
  0 < keep -> now <= tc ->
  now + keep < ss_expiration (snd (get now tc tr id ss)).
Proof.
  intros keep t0 cs now tc tr id log ss HR HK HT.
  destruct (run_exp cs [] (sessions_new keep t0)) as [H1 H2]; [reflexivity|].
  rewrite HR in H1, H2. cbn [snd sessions_new ss_keepAlive] in *.
  unfold get. fold (swept now tc ss).
  assert (E : now + keep < ss_expiration (swept now tc ss)).
  { unfold swept. destruct (Z.leb_spec (ss_cleanup ss) now); cbn [ss_expiration]; [lia|].
    rewrite H1. lia. }
  destruct (s_find _ id); [destruct (_ <? _)|]; exact E.
Qed.

Lemma size_counts : forall keep t0 cs log (ss : sessions D),
  run_calls cs [] (sessions_new keep t0) = (log, ss) ->
  exists ids, NoDup ids /\ length ids = size ss /\
    forall id, In id ids <-> s_find (ss_map ss) id <> None.
Proof.
  intros keep t0 cs log ss HR.
  pose proof (run_sound cs keep [] _ (new_sound keep t0)) as S. rewrite HR in S. cbn [fst snd] in S.
  destruct S as [HK HN HV]. exists (keys (ss_map ss)). split; auto.
  split; [apply map_length|]. intros id. split.
  - intros H F. now apply find_none in F.
  - destruct (s_find (ss_map ss) id) eqn:F; [|congruence]. intros _.
    apply find_in in F as [F1 F2]. rewrite <- F2. now apply in_map.
Qed.
End P.

Lemma expiration_stale : forall keep, 0 <= keep ->
  exists (cs : list (call nat)) (now : Z) log (ss : sessions nat) (id : list N),
    run_calls cs [] (sessions_new keep 0) = (log, ss) /\
    nondecreasing 0 (flat_map times cs ++ [now; now; now]) /\
    fst (get now now now id ss) = Some 7%nat /\
    ss_expiration ss < now.
Proof.
  intros keep HK.
  set (cs := [CGenerate [([1%N], 2 * keep + 1)] 7%nat]).
  assert (HT : nondecreasing 0 (flat_map times cs ++ [2 * keep + 1; 2 * keep + 1; 2 * keep + 1]))
    by (cbn -[Z.mul Z.add]; lia).
  exists cs, (2 * keep + 1). eexists. eexists. exists [1%N].
  split; [reflexivity|]. split; [exact HT|]. split; [|cbn -[Z.mul Z.add]; lia].
  eapply (proj2 (get_exact keep 0 cs _ _ _ _ _ _ _ eq_refl HT)).
  exists (2 * keep + 1). split; [reflexivity|lia].
Qed.
