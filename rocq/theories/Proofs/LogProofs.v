(** Logging: whole lines, in order, and exit. *)
From Coq Require Import String List NArith Bool Arith Lia.
From Verif Require Import Model.Base Model.Log Spec.LogSpec.
Import ListNotations.

Lemma tag_text : forall l, level_text l = lit "[" ++ lit (level_name l) ++ lit "]: ".
Proof. intros []; reflexivity. Qed.
Lemma compiled_enabled : forall built l ps, compiled built l = enabled built (Entry l ps).
Proof.
  intros built l ps. destruct l; cbn; auto.
  - destruct (N.ltb_spec 0 built), (N.eqb_spec built 0); cbn; auto; lia.
  - destruct (N.ltb_spec 1 built), (N.leb_spec 2 built); auto; lia.
  - destruct (N.ltb_spec 2 built), (N.leb_spec 3 built); auto; lia.
  - destruct (N.ltb_spec 3 built), (N.leb_spec 4 built); auto; lia.
Qed.

Definition fin (e : entry) : list instr := (match entry_level e with LFail => [IExit] | _ => [] end) ++ [IUnlock].
Definition isfail (e : entry) : bool := match entry_level e with LFail => true | _ => false end.

Section Inv.
Variable good : list N -> Prop.
Variable built : N.
Variable at_exit : list entry.

Definition exiting (is : list instr) : Prop :=
  (exists l, is = map ITest l ++ [IGone] /\ incl l at_exit) \/ (exists r, is = ILock :: r /\ at_exit <> []) \/ is = [].

(** What a thread is about, given whether it holds the mutex ([mine]), the
    line under way, what it began and the lines it wrote. *)
Inductive tstate (mine : bool) (cur : list N) (b : list entry) (ln : list (list N)) (gone : bool) : list instr -> Prop :=
| ts_idle : mine = false -> Forall2 (is_line good) b ln -> existsb isfail b = false -> tstate mine cur b ln gone []
| ts_test : forall e, mine = false -> plain e -> Forall2 (is_line good) b ln -> existsb isfail b = false ->
    tstate mine cur b ln gone [ITest e]
| ts_lock : forall e b0, mine = false -> plain e -> b = b0 ++ [e] -> Forall2 (is_line good) b0 ln -> existsb isfail b0 = false ->
    tstate mine cur b ln gone (body e)
| ts_head : forall e b0, mine = true -> plain e -> b = b0 ++ [e] -> Forall2 (is_line good) b0 ln -> existsb isfail b0 = false ->
    cur = [] -> tstate mine cur b ln gone (tl (body e))
| ts_puts : forall e b0 xs, mine = true -> b = b0 ++ [e] -> Forall2 (is_line good) b0 ln -> existsb isfail b0 = false ->
    is_line good e (cur ++ concat xs) -> tstate mine cur b ln gone (map IPut xs ++ fin e)
| ts_exit : forall e b0 extra is, mine = true -> isfail e = true -> b = b0 ++ e :: extra -> Forall2 (is_line good) b0 ln ->
    existsb isfail b0 = false -> is_line good e cur -> exiting is -> (is = [] -> gone = true) ->
    tstate mine cur b ln gone is.

Definition mine_of (t : nat) (h : option nat) : bool := match h with Some t' => Nat.eqb t' t | None => false end.

Definition linv (s : log) : Prop :=
  exists lines cur,
    l_out s = concat (map snd lines) ++ cur /\
    (l_holder s = None -> cur = []) /\
    (forall t, tstate (mine_of t (l_holder s)) cur (by_thread t (l_begun s)) (by_thread t lines) (l_gone s) (l_threads s t)) /\
    (l_gone s = true -> exists t e, l_holder s = Some t /\ isfail e = true /\ is_line good e cur).

Lemma by_app : forall A t (a b : list (nat * A)), by_thread t (a ++ b) = by_thread t a ++ by_thread t b.
Proof. intros. unfold by_thread. now rewrite filter_app, map_app. Qed.
Lemma by_one : forall A t u (x : A), by_thread t [(u, x)] = if Nat.eqb u t then [x] else [].
Proof. intros. unfold by_thread. cbn. destruct (Nat.eqb u t); reflexivity. Qed.

Lemma plain_body : forall e, plain e -> exists l texts, entry_level e = l /\ message_text e = concat texts /\
  body e = [ILock; IHead l] ++ map IPut (texts ++ [[10%N]]) ++ fin e.
Proof.
  intros [l ps] (texts & ->). exists l, texts. split; [reflexivity|]. split.
  - cbn. rewrite flat_map_concat_map, map_map, map_id. reflexivity.
  - unfold body, fin. cbn [entry_level]. rewrite map_map, map_app. cbn. rewrite <- app_assoc. reflexivity.
Qed.

Lemma fin_not_put : forall e is, fin e = is -> match is with IPut _ :: _ => False | _ => True end.
Proof. intros [[] ps] is <-; cbn; auto. Qed.

(** The state of the other threads does not change if the mutex does not
    become theirs and they are not the ones writing. *)
Lemma ts_other : forall cur cur' b ln g is, tstate false cur b ln g is -> tstate false cur' b ln g is.
Proof.
  intros cur cur' b ln g is H. inversion H; subst; try discriminate.
  - now apply ts_idle.
  - now apply ts_test.
  - now apply ts_lock with (b0 := b0).
Qed.

Lemma ts_gone : forall m cur b ln g is, tstate m cur b ln g is -> g = false -> tstate m cur b ln true is.
Proof.
  intros m cur b ln g is H ->. inversion H; subst.
  - now apply ts_idle.
  - now apply ts_test.
  - now apply ts_lock with (b0 := b0).
  - now apply ts_head with (b0 := b0).
  - now apply ts_puts with (b0 := b0).
  - now apply ts_exit with (e := e) (b0 := b0) (extra := extra).
Qed.

Lemma fail_snoc : forall b e, existsb isfail b = false -> isfail e = false -> existsb isfail (b ++ [e]) = false.
Proof. intros b e B E. rewrite existsb_app, B. cbn. now rewrite E. Qed.

Lemma at_same : forall t is f, at_thread t is f t = is.
Proof. intros. unfold at_thread. now rewrite Nat.eqb_refl. Qed.
Lemma at_other : forall t u is f, u <> t -> at_thread t is f u = f u.
Proof. intros t u is f N. unfold at_thread. destruct (Nat.eqb_spec u t); congruence. Qed.

(** A step of thread [t] that leaves the lines: only [t]'s state is to be
    looked at. *)
Lemma linv_local : forall s t is h cur' n lines cur,
  l_gone s = false ->
  l_out s = concat (map snd lines) ++ cur ->
  (forall u, tstate (mine_of u (l_holder s)) cur (by_thread u (l_begun s)) (by_thread u lines) false (l_threads s u)) ->
  (forall u, u <> t -> mine_of u h = false /\ mine_of u (l_holder s) = false) \/ (h = l_holder s /\ cur' = cur) ->
  (h = None -> cur' = []) ->
  (forall x, In x n -> fst x = t) ->
  tstate (mine_of t h) cur' (by_thread t (l_begun s ++ n)) (by_thread t lines) false is ->
  linv (mkLog (at_thread t is (l_threads s)) h (l_suppress s) (concat (map snd lines) ++ cur') false (l_made s) (l_begun s ++ n)).
Proof.
  intros s t is h cur' n lines cur G O T X HN NN TS. exists lines, cur'. cbn [l_out l_holder l_gone l_threads l_begun].
  split; [reflexivity|]. split; [exact HN|]. split; [|discriminate].
  intros u. destruct (Nat.eq_dec u t) as [->|NE].
  - rewrite at_same. exact TS.
  - rewrite at_other by auto. rewrite by_app.
    assert (E : by_thread u n = []).
    { clear - NN NE. induction n as [|[v x] n IH]; auto. unfold by_thread in *. cbn [filter fst].
      assert (v = t) by (apply (NN (v, x)); now left). subst v.
      destruct (Nat.eqb_spec t u); [congruence|]. apply IH. intros y Y. apply NN. now right. }
    rewrite E, app_nil_r. specialize (T u). destruct X as [X|(-> & ->)]; [|exact T].
    destruct (X u NE) as (X1 & X2). rewrite X1. rewrite X2 in T. eapply ts_other; exact T.
Qed.

Lemma mine_other : forall t u, u <> t -> mine_of u (Some t) = false.
Proof. intros t u N. cbn. destruct (Nat.eqb_spec t u); congruence. Qed.
Lemma mine_same : forall t, mine_of t (Some t) = true.
Proof. intros t. cbn. apply Nat.eqb_refl. Qed.
Lemma mine_true : forall t h, mine_of t h = true -> h = Some t.
Proof. intros t [u|] H; cbn in H; [|discriminate]. apply Nat.eqb_eq in H. congruence. Qed.

Lemma linv_init : linv log_init.
Proof.
  exists [], []. split; [reflexivity|]. split; [auto|]. split; [|discriminate].
  intros t. cbn. now apply ts_idle.
Qed.

Lemma linv_step : forall a s s', calm good a -> linv s -> l_step built at_exit a s = LOn s' -> linv s'.
Proof.
  intros a s s' C (lines & cur & O & HN & T & G) H. unfold l_step in H.
  destruct (l_gone s) eqn:GE; [discriminate|]. destruct a as [t stamp|t e|t e|b].
  - (* a step *)
    pose proof (T t) as Tt.
    destruct (l_threads s t) as [|i r] eqn:ET; [discriminate|].
    inversion Tt as [| e m P F B E1 | e b0 m P Eb F B E1 | e b0 m P Eb F B CE E1 | e b0 xs m Eb F B IL E1 | e b0 extra is m FE Eb F B IL X XG E1]; subst.
    + (* test *)
      destruct e as [l ps]. destruct (negb (compiled built l) || _).
      * injection H as <-. rewrite O. eapply linv_local; eauto.
        { intros x []. } rewrite app_nil_r. apply ts_idle; auto.
      * injection H as <-. rewrite O. eapply linv_local; eauto.
        { intros x [<-|[]]. reflexivity. }
        rewrite by_app, by_one, Nat.eqb_refl, ?app_nil_r.
        exact (ts_lock _ _ _ _ _ (Entry l ps) _ m P eq_refl F B).
    + (* lock *)
      destruct e as [l ps]. injection E1 as <- E1.
      destruct (l_holder s) as [t'|] eqn:EH.
      { destruct (Nat.eqb t' t); discriminate. }
      injection H as <-. rewrite O. eapply linv_local; eauto.
      * intros u. rewrite EH. apply T.
      * left. intros u NE. split; [now apply mine_other|now rewrite EH].
      * intros x [].
      * rewrite app_nil_r, mine_same. rewrite <- E1.
        change (IHead l :: _) with (tl (body (Entry l ps))). apply ts_head with (b0 := b0); auto.
    + (* head *)
      destruct (plain_body e P) as (l & texts & EL & EM & EB).
      rewrite EB in E1. cbn [app tl] in E1. injection E1 as <- E1.
      apply mine_true in m. injection H as <-. rewrite O, <- !app_assoc, app_nil_l.
      eapply linv_local; eauto.
      * left. intros u NE. rewrite m. split; now apply mine_other.
      * rewrite m. discriminate.
      * intros x [].
      * rewrite app_nil_r, m, mine_same, <- E1. apply ts_puts with (b0 := b0); auto.
        exists stamp. split; [exact C|]. rewrite tag_text, concat_app, EM, EL. cbn [concat]. rewrite app_nil_r, <- !app_assoc. reflexivity.
    + (* puts *)
      apply mine_true in m. destruct xs as [|x xs].
      * cbn [map app concat] in *. rewrite app_nil_r in IL. unfold fin in E1.
        destruct e as [l ps]. cbn [entry_level] in E1.
        destruct l; cbn [app] in E1; injection E1 as <- <-.
        2:{ injection H as <-. rewrite O. eapply linv_local; eauto.
            - intros x [].
            - rewrite app_nil_r, m, mine_same. apply (ts_exit _ _ _ _ _ (Entry LFail ps) b0 []);
                [reflexivity|reflexivity|exact Eb|exact F|exact B|exact IL|left; eexists; split; [reflexivity|apply incl_refl]|].
              intros E. destruct (map ITest at_exit); discriminate E. }
        all: injection H as <-; rewrite app_nil_r;
          exists (lines ++ [(t, cur)]), []; cbn [l_out l_holder l_gone l_threads l_begun];
          split; [rewrite O, map_app, concat_app; cbn; now rewrite !app_nil_r|];
          split; [auto|]; split; [|discriminate];
          intros u; destruct (Nat.eq_dec u t) as [->|NE];
          [ rewrite at_same, by_app, by_one, Nat.eqb_refl, Eb; apply ts_idle;
            [reflexivity|apply Forall2_app; auto|apply fail_snoc; auto]
          | rewrite at_other by auto; rewrite by_app, by_one; destruct (Nat.eqb_spec t u); [congruence|];
            rewrite app_nil_r; specialize (T u); rewrite m, mine_other in T by auto; cbn [mine_of];
            eapply ts_other; exact T ].
      * cbn [map app concat] in *. injection E1 as <- <-. injection H as <-. rewrite O, <- app_assoc.
        eapply linv_local; eauto.
        -- left. intros u NE. rewrite m. split; now apply mine_other.
        -- rewrite m. discriminate.
        -- intros y [].
        -- rewrite app_nil_r, m, mine_same. apply ts_puts with (b0 := b0); auto. now rewrite <- app_assoc.
    + (* exit *)
      apply mine_true in m. destruct X as [(l & X & XI)|[(r' & X & XN)|X]]; [| |discriminate].
      * destruct l as [|e1 l]; cbn [map app] in X; injection X as -> ->.
        -- injection H as <-. rewrite app_nil_r. exists lines, cur. cbn [l_out l_holder l_gone l_threads l_begun].
           split; [exact O|]. split; [auto|]. split; [|intros _; exists t, e; auto].
           intros u. destruct (Nat.eq_dec u t) as [->|NE].
           ++ rewrite at_same, m, mine_same. apply (ts_exit _ _ _ _ _ e b0 extra); auto. now right; right.
           ++ rewrite at_other by auto. eapply ts_gone; [apply T|reflexivity].
        -- destruct e1 as [l1 ps1]. destruct (negb (compiled built l1) || _).
           ++ injection H as <-. rewrite O. eapply linv_local; eauto.
              { intros x []. } rewrite app_nil_r, m, mine_same.
              apply (ts_exit _ _ _ _ _ e b0 extra); auto; [left; exists l; split; [reflexivity|intros x IX; apply XI; now right]|]. intros E. destruct (map ITest l); discriminate E.
           ++ injection H as <-. rewrite O. eapply linv_local; eauto.
              { intros x [<-|[]]. reflexivity. }
              rewrite by_app, by_one, Nat.eqb_refl, m, mine_same, Eb, <- app_assoc.
              apply (ts_exit _ _ _ _ _ e b0 (extra ++ [Entry l1 ps1])); auto; [right; left; eexists; split; [reflexivity|intros EE; rewrite EE in XI; exact (XI _ (or_introl eq_refl))]|discriminate].
      * injection X as -> ->. rewrite m, Nat.eqb_refl in H. discriminate.
  - (* a call *)
    pose proof (T t) as Tt.
    destruct (l_threads s t) as [|i r] eqn:ET; [|discriminate]. injection H as <-.
    exists lines, cur. cbn [l_out l_holder l_gone l_threads l_begun].
    split; [exact O|]. split; [exact HN|]. split; [|discriminate].
    intros u. destruct (Nat.eq_dec u t) as [->|NE].
    + rewrite at_same. inversion Tt as [m F B E1|e' m P F B E1|e' b0 m P Eb F B E1|e' b0 m P Eb F B CE E1|e' b0 xs m Eb F B IL E1|e' b0 extra is m FE Eb F B IL X XG E1]; subst.
      * now apply ts_test.
      * destruct e'; discriminate.
      * destruct e'; discriminate.
      * destruct xs; [|discriminate]. destruct e' as [[] ps]; discriminate.
      * specialize (XG eq_refl). discriminate.
    + rewrite at_other by auto. apply T.
  - contradiction.
  - injection H as <-. exists lines, cur. cbn [l_out l_holder l_gone l_threads l_begun]. auto.
Qed.

Lemma linv_run : forall acts s s', Forall (calm good) acts -> linv s -> l_run built at_exit acts s = LOn s' -> linv s'.
Proof.
  induction acts as [|a acts IH]; intros s s' F I H; cbn [l_run] in H.
  - injection H as <-. exact I.
  - inversion F; subst. destruct (l_step built at_exit a s) as [s1| |] eqn:E; try discriminate.
    eapply IH; [assumption|eapply linv_step; eauto|exact H].
Qed.

Lemma logged_inv : forall s, logged good built at_exit s -> linv s.
Proof. intros s (acts & F & H). eapply linv_run; [exact F|apply linv_init|exact H]. Qed.

(** ** What follows *)
Lemma F2_length : forall (b : list entry) (l : list (list N)), Forall2 (is_line good) b l -> length b = length l.
Proof. induction 1; cbn; congruence. Qed.

Lemma lines_whole : forall s, logged good built at_exit s ->
  exists lines cur,
    l_out s = concat (map snd lines) ++ cur /\
    (l_holder s = None -> cur = []) /\
    (forall t, l_holder s = Some t -> cur = [] \/ exists e line rest,
       nth_error (by_thread t (l_begun s)) (length (by_thread t lines)) = Some e /\ is_line good e line /\ line = cur ++ rest) /\
    (forall t, exists n, Forall2 (is_line good) (firstn n (by_thread t (l_begun s))) (by_thread t lines) /\
       (l_threads s t = [] -> l_gone s = false -> firstn n (by_thread t (l_begun s)) = by_thread t (l_begun s))).
Proof.
  intros s L. destruct (logged_inv s L) as (lines & cur & O & HN & T & G). exists lines, cur.
  split; [exact O|]. split; [exact HN|]. split.
  - intros t H. specialize (T t). rewrite H, mine_same in T.
    assert (NE : forall b0 e x, Forall2 (is_line good) b0 (by_thread t lines) ->
       nth_error (b0 ++ e :: x) (length (by_thread t lines)) = Some e).
    { intros b0 e x F. rewrite <- (F2_length _ _ F), nth_error_app2, Nat.sub_diag by lia. reflexivity. }
    inversion T as [m F B E1|e m P F B E1|e b0 m P Eb F B E1|e b0 m P Eb F B CE E1|e b0 xs m Eb F B IL E1|e b0 extra is m FE Eb F B IL X XG E1]; subst; try discriminate.
    + now left.
    + right. exists e. eexists. eexists. split; [rewrite Eb; apply NE; exact F|]. split; [exact IL|reflexivity].
    + right. exists e, cur, []. split; [rewrite Eb; apply NE; exact F|]. split; [exact IL|now rewrite app_nil_r].
  - intros t. specialize (T t).
    assert (FN : forall b0 x : list entry, firstn (length b0) (b0 ++ x) = b0).
    { intros b0 x. rewrite firstn_app, Nat.sub_diag, firstn_all. cbn. apply app_nil_r. }
    inversion T as [m F B E1|e m P F B E1|e b0 m P Eb F B E1|e b0 m P Eb F B CE E1|e b0 xs m Eb F B IL E1|e b0 extra is m FE Eb F B IL X XG E1]; subst.
    + exists (length (by_thread t (l_begun s))). rewrite firstn_all. auto.
    + exists (length (by_thread t (l_begun s))). rewrite firstn_all. auto.
    + exists (length b0). rewrite Eb, FN. split; [exact F|]. destruct e; discriminate.
    + exists (length b0). rewrite Eb, FN. split; [exact F|]. destruct e; discriminate.
    + exists (length b0). rewrite Eb, FN. split; [exact F|]. intros E. destruct xs; [|discriminate]. destruct e as [[] ps]; discriminate.
    + exists (length b0). rewrite Eb, FN. split; [exact F|]. intros E GG. rewrite E in XG. specialize (XG eq_refl). congruence.
Qed.

Lemma exit_why : forall s, logged good built at_exit s -> l_gone s = true ->
  exists before e line, l_out s = concat before ++ line /\ is_line good e line /\ entry_level e = LFail /\
    Forall (fun x => exists e, is_line good e x) before.
Proof.
  intros s L GG. destruct (logged_inv s L) as (lines & cur & O & HN & T & G).
  destruct (G GG) as (t & e & H & FE & IL). exists (map snd lines), e, cur. split; [exact O|]. split; [exact IL|].
  split; [unfold isfail in FE; destruct (entry_level e); congruence|].
  assert (ALL : forall u x, In (u, x) lines -> exists e, is_line good e x).
  { intros u x IN.
    assert (IX : In x (by_thread u lines)).
    { unfold by_thread. apply in_map_iff. exists (u, x). split; [reflexivity|]. apply filter_In. split; [exact IN|].
      cbn. apply Nat.eqb_refl. }
    specialize (T u).
    assert (F2 : exists b, Forall2 (is_line good) b (by_thread u lines)) by (inversion T; eauto).
    destruct F2 as (b & F2). clear - F2 IX. induction F2 as [|a l b' ls A F2 IH]; [contradiction|].
    destruct IX as [<-|IX]; eauto. }
  apply Forall_forall. intros x IX. apply in_map_iff in IX as ([u y] & <- & IN). eapply ALL; exact IN.
Qed.

Lemma fail_final : forall s t e, logged good built at_exit s -> In (t, e) (l_begun s) -> entry_level e = LFail ->
  l_threads s t = [] -> l_gone s = true.
Proof.
  intros s t e L I FE ET. destruct (logged_inv s L) as (lines & cur & O & HN & T & G). specialize (T t). rewrite ET in T.
  assert (IX : In e (by_thread t (l_begun s))).
  { unfold by_thread. apply in_map_iff. exists (t, e). split; [reflexivity|]. apply filter_In. split; [exact I|]. cbn. apply Nat.eqb_refl. }
  inversion T as [m F B E1|e' m P F B E1|e' b0 m P Eb F B E1|e' b0 m P Eb F B CE E1|e' b0 xs m Eb F B IL E1|e' b0 extra is m FE' Eb F B IL X XG E1]; subst.
  - exfalso. assert (existsb isfail (by_thread t (l_begun s)) = true); [|congruence].
    apply existsb_exists. exists e. split; [exact IX|]. unfold isfail. now rewrite FE.
  - destruct e'; discriminate.
  - destruct e'; discriminate.
  - destruct xs; [|discriminate]. destruct e' as [[] ps]; discriminate.
  - now apply XG.
Qed.

(** ** Which uses get through *)
Definition got (f : entry -> bool) (s : log) : Prop := forall t,
  existsb isfail (by_thread t (l_begun s)) = true \/
  match l_threads s t with
  | [ITest e] => exists pre, by_thread t (l_made s) = pre ++ [e] /\
      filter f (by_thread t (l_begun s)) = filter (fun e => f e && enabled built e) pre
  | _ => filter f (by_thread t (l_begun s)) = filter (fun e => f e && enabled built e) (by_thread t (l_made s))
  end.

Lemma body_not_test : forall e r, match body e ++ r with [ITest _] => False | _ => True end.
Proof. intros [l ps] r. cbn. trivial. Qed.

Lemma got_step : forall f a s s', calm good a -> linv s ->
  (forall e, f e = true -> heeds (entry_level e) && l_suppress s = false) ->
  got f s -> l_step built at_exit a s = LOn s' -> got f s'.
Proof.
  intros f a s s' C (lines & cur & O & HN & T & G) SUP K H. unfold l_step in H.
  destruct (l_gone s) eqn:GE; [discriminate|]. destruct a as [t stamp|t e|t e|b].
  - pose proof (T t) as Tt. pose proof (K t) as Kt.
    destruct (l_threads s t) as [|i r] eqn:ET; [discriminate|].
    (* threads other than t *)
    assert (OTH : forall n is h o g u, (forall x, In x n -> fst x = t) -> u <> t ->
       let s1 := mkLog (at_thread t is (l_threads s)) h (l_suppress s) o g (l_made s) (l_begun s ++ n) in
       existsb isfail (by_thread u (l_begun s1)) = true \/
       match l_threads s1 u with
       | [ITest e] => exists pre, by_thread u (l_made s1) = pre ++ [e] /\
           filter f (by_thread u (l_begun s1)) = filter (fun e => f e && enabled built e) pre
       | _ => filter f (by_thread u (l_begun s1)) = filter (fun e => f e && enabled built e) (by_thread u (l_made s1))
       end).
    { intros n is h o g u NN NE. cbn [l_threads l_begun l_made]. rewrite at_other by auto. rewrite by_app.
      assert (E : by_thread u n = []).
      { clear - NN NE. induction n as [|[v x] n IH]; auto. unfold by_thread in *. cbn [filter fst].
        assert (v = t) by (apply (NN (v, x)); now left). subst v.
        destruct (Nat.eqb_spec t u); [congruence|]. apply IH. intros y Y. apply NN. now right. }
      rewrite E, app_nil_r. apply K. }
    (* no use begun, and not at a test before or after *)
    assert (SAME : forall is h o g, match is with [ITest _] => existsb isfail (by_thread t (l_begun s)) = true | _ => True end ->
       match i :: r with [ITest _] => existsb isfail (by_thread t (l_begun s)) = true | _ => True end ->
       got f (mkLog (at_thread t is (l_threads s)) h (l_suppress s) o g (l_made s) (l_begun s ++ []))).
    { intros is h o g X Y u. destruct (Nat.eq_dec u t) as [->|NE]; [|apply OTH; [intros x []|exact NE]].
      cbn [l_threads l_begun l_made]. rewrite at_same, app_nil_r. destruct Kt as [Kt|Kt]; [now left|].
      destruct (existsb isfail (by_thread t (l_begun s))); [now left|]. right.
      assert (K2 : filter f (by_thread t (l_begun s)) = filter (fun e => f e && enabled built e) (by_thread t (l_made s))).
      { destruct i; try exact Kt. destruct r; [discriminate|exact Kt]. }
      destruct is as [|[] []]; try exact K2. discriminate. }
    assert (IE : forall e, i = ITest e -> r = [] \/ existsb isfail (by_thread t (l_begun s)) = true).
    { intros e ->. inversion Tt as [|e' m P F B E1|e' b0 m P Eb F B E1|e' b0 m P Eb F B CE E1|e' b0 xs m Eb F B IL E1|e' b0 extra is m FE Eb F B IL X XG E1]; subst.
      - now left.
      - destruct e'; discriminate.
      - destruct e'; discriminate.
      - destruct xs; [|discriminate]. destruct e' as [[] ps]; discriminate.
      - right. rewrite Eb, existsb_app. cbn. rewrite FE. cbn. apply orb_true_r. }
    destruct i as [[l ps]| |l|x| | |].
    + destruct (IE _ eq_refl) as [-> |FF].
      * destruct (negb (compiled built l) || _) eqn:CE; injection H as <-.
        -- intros u. destruct (Nat.eq_dec u t) as [->|NE]; [|apply OTH; [intros x []|exact NE]].
           cbn [l_threads l_begun l_made]. rewrite at_same, app_nil_r. destruct Kt as [Kt|Kt]; [now left|right].
           destruct Kt as (pre & E1 & E2). rewrite E1, filter_app, <- E2. cbn [filter].
           destruct (f (Entry l ps)) eqn:FE; cbn [andb]; [|now rewrite app_nil_r].
           rewrite <- compiled_enabled. specialize (SUP _ FE). cbn [entry_level] in SUP. rewrite SUP, orb_false_r in CE.
           destruct (compiled built l); [discriminate|]. now rewrite app_nil_r.
        -- intros u. destruct (Nat.eq_dec u t) as [->|NE]; [|apply OTH; [intros x [<-|[]]; reflexivity|exact NE]].
           cbn [l_threads l_begun l_made]. rewrite at_same. destruct Kt as [Kt|Kt].
           { left. rewrite by_app, existsb_app, Kt. reflexivity. }
           right. destruct Kt as (pre & E1 & E2). cbn [app]. rewrite by_app, by_one, Nat.eqb_refl, E1, !filter_app, <- E2.
           f_equal. cbn [filter]. rewrite <- compiled_enabled. apply orb_false_elim in CE as (CE & _).
           apply negb_false_iff in CE. rewrite CE, andb_true_r. reflexivity.
      * destruct (negb (compiled built l) || _) eqn:CE; injection H as <-; intros u;
          (destruct (Nat.eq_dec u t) as [->|NE]; [|apply OTH; [intros x XX; cbn in XX; intuition; subst; reflexivity|exact NE]]);
          left; cbn [l_begun]; rewrite by_app, existsb_app, FF; reflexivity.
    + destruct (l_holder s) as [t'|]; [destruct (Nat.eqb t' t); discriminate|]. injection H as <-.
      apply SAME; [|exact Logic.I]. destruct r as [|[] []]; trivial.
      exfalso. inversion Tt as [|e' m P F B E1|e' b0 m P Eb F B E1|e' b0 m P Eb F B CE E1|e' b0 xs m Eb F B IL E1|e' b0 extra is m FE Eb F B IL X XG E1]; subst.
      * destruct e'; discriminate.
      * destruct e'; discriminate.
      * destruct xs; [|discriminate]. destruct e' as [[] ps]; discriminate.
      * apply mine_true in m. discriminate.
    + injection H as <-. apply SAME; [|exact Logic.I]. destruct r as [|[] []]; trivial.
      exfalso. inversion Tt as [|e' m P F B E1|e' b0 m P Eb F B E1|e' b0 m P Eb F B CE E1|e' b0 xs m Eb F B IL E1|e' b0 extra is m FE Eb F B IL X XG E1]; subst.
      * destruct e'; discriminate.
      * destruct (plain_body _ P) as (l' & texts & _ & _ & EB). rewrite EB in E1. cbn [app tl] in E1.
        injection E1 as _ E1. destruct texts; discriminate.
      * destruct xs; [|discriminate]. destruct e' as [[] ps]; discriminate.
      * destruct X as [(l0 & X & _)|[(r' & X & _)|X]]; [destruct l0; discriminate|discriminate|discriminate].
    + injection H as <-. apply SAME; [|exact Logic.I]. destruct r as [|[] []]; trivial.
      exfalso. inversion Tt as [|e' m P F B E1|e' b0 m P Eb F B E1|e' b0 m P Eb F B CE E1|e' b0 xs m Eb F B IL E1|e' b0 extra is m FE Eb F B IL X XG E1]; subst.
      * destruct e'; discriminate.
      * destruct e'; discriminate.
      * destruct xs as [|y xs]; [destruct e' as [[] ps]; discriminate|]. injection E1 as _ E1.
        destruct xs; [|discriminate]. destruct e' as [[] ps]; discriminate.
      * destruct X as [(l0 & X & _)|[(r' & X & _)|X]]; [destruct l0; discriminate|discriminate|discriminate].
    + injection H as <-. intros u.
      destruct (Nat.eq_dec u t) as [->|NE]; [|apply OTH; [intros x []|exact NE]].
      left. cbn [l_begun]. rewrite app_nil_r.
      inversion Tt as [|e' m P F B E1|e' b0 m P Eb F B E1|e' b0 m P Eb F B CE E1|e' b0 xs m Eb F B IL E1|e' b0 extra is m FE Eb F B IL X XG E1]; subst.
      * destruct e'; discriminate.
      * destruct e'; discriminate.
      * destruct xs; [|discriminate]. destruct e' as [l ps]. rewrite Eb, existsb_app. destruct l; try discriminate. cbn. apply orb_true_r.
      * rewrite Eb, existsb_app. cbn. rewrite FE. apply orb_true_r.
    + injection H as <-. apply SAME; [|exact Logic.I]. destruct r as [|[] []]; trivial.
      exfalso. inversion Tt as [|e' m P F B E1|e' b0 m P Eb F B E1|e' b0 m P Eb F B CE E1|e' b0 xs m Eb F B IL E1|e' b0 extra is m FE Eb F B IL X XG E1]; subst.
      * destruct e'; discriminate.
      * destruct e'; discriminate.
      * destruct xs; [|discriminate]. destruct e' as [[] ps]; discriminate.
      * destruct X as [(l0 & X & _)|[(r' & X & _)|X]]; [destruct l0; discriminate|discriminate|discriminate].
    + injection H as <-. apply SAME; [|exact Logic.I]. destruct r as [|[] []]; trivial.
      exfalso. inversion Tt as [|e' m P F B E1|e' b0 m P Eb F B E1|e' b0 m P Eb F B CE E1|e' b0 xs m Eb F B IL E1|e' b0 extra is m FE Eb F B IL X XG E1]; subst.
      * destruct e'; discriminate.
      * destruct e'; discriminate.
      * destruct xs; [|discriminate]. destruct e' as [[] ps]; discriminate.
      * destruct X as [(l0 & X & _)|[(r' & X & _)|X]]; [destruct l0; discriminate|discriminate|discriminate].
  - pose proof (K t) as Kt. destruct (l_threads s t) as [|i r] eqn:ET; [|discriminate]. injection H as <-.
    intros u. cbn [l_threads l_begun l_made]. rewrite by_app, by_one. destruct (Nat.eqb_spec t u) as [<-|NE].
    + rewrite at_same. destruct Kt as [Kt|Kt]; [now left|right]. eexists. split; [reflexivity|exact Kt].
    + rewrite at_other by auto. rewrite app_nil_r. apply K.
  - contradiction.
  - injection H as <-. exact K.
Qed.

Lemma got_run : forall f acts s s', Forall (calm good) acts -> linv s ->
  (forall e, f e = true -> heeds (entry_level e) = false) \/ (Forall never_suppressed acts /\ l_suppress s = false) ->
  got f s -> l_run built at_exit acts s = LOn s' -> got f s'.
Proof.
  intros f. induction acts as [|a acts IH]; intros s s' F I W K H; cbn [l_run] in H.
  - injection H as <-. exact K.
  - inversion F; subst. destruct (l_step built at_exit a s) as [s1| |] eqn:E; try discriminate.
    eapply IH; [assumption|eapply linv_step; eauto| | |exact H].
    + destruct W as [W|(W & S)]; [now left|]. right. inversion W as [|? ? NA W']; subst. split; [exact W'|].
      unfold l_step in E. destruct (l_gone s); [discriminate|]. destruct a as [t stamp|t e|t e|b].
      * destruct (l_threads s t) as [|i r]; [discriminate|]. destruct i as [[l ps]| |l|x| | |].
        -- destruct (_ || _); injection E as <-; exact S.
        -- destruct (l_holder s) as [t'|]; [destruct (Nat.eqb t' t); discriminate|]. injection E as <-. exact S.
        -- injection E as <-. exact S.
        -- injection E as <-. exact S.
        -- injection E as <-. exact S.
        -- injection E as <-. exact S.
        -- injection E as <-. exact S.
      * destruct (l_threads s t); [|discriminate]. injection E as <-. exact S.
      * injection E as <-. exact S.
      * injection E as <-. destruct b; [exfalso; now apply NA|reflexivity].
    + eapply got_step; eauto. intros e FE. destruct W as [W|(_ & S)]; [rewrite W by auto; reflexivity|rewrite S; apply andb_false_r].
Qed.

Lemma got_init : forall f, got f log_init.
Proof. intros f t. right. reflexivity. Qed.

Lemma filter_true : forall (l : list entry), filter (fun _ => true) l = l.
Proof. induction l; cbn; congruence. Qed.

Lemma idle_begun : forall f acts s t, Forall (calm good) acts -> l_run built at_exit acts log_init = LOn s ->
  (forall e, f e = true -> heeds (entry_level e) = false) \/ Forall never_suppressed acts ->
  l_threads s t = [] -> l_gone s = false ->
  filter f (by_thread t (l_begun s)) = filter (fun e => f e && enabled built e) (by_thread t (l_made s)).
Proof.
  intros f acts s t F H W ET GG.
  assert (K : got f s).
  { eapply got_run; [exact F|apply linv_init| |apply got_init|exact H]. destruct W; auto. }
  specialize (K t). rewrite ET in K. destruct K as [K|K]; [exfalso|exact K].
  apply existsb_exists in K as (e & IN & FE).
  assert (X : l_gone s = true); [|congruence].
  apply (fail_final s t e); [exists acts; auto| | |exact ET].
  - unfold by_thread in IN. apply in_map_iff in IN as ([u y] & EY & IN). cbn in EY. subst y.
    apply filter_In in IN as (IN & EQ). cbn in EQ. apply Nat.eqb_eq in EQ. now subst u.
  - unfold isfail in FE. destruct (entry_level e); congruence.
Qed.

Lemma all_logged : forall acts s t, Forall (calm good) acts -> Forall never_suppressed acts ->
  l_run built at_exit acts log_init = LOn s -> l_threads s t = [] -> l_gone s = false ->
  by_thread t (l_begun s) = filter (enabled built) (by_thread t (l_made s)).
Proof.
  intros acts s t F W H ET GG.
  pose proof (idle_begun (fun _ => true) acts s t F H (or_intror W) ET GG) as E. rewrite filter_true in E. exact E.
Qed.

Lemma errors_logged : forall s t, logged good built at_exit s -> l_threads s t = [] -> l_gone s = false ->
  filter is_error (by_thread t (l_begun s)) = filter (fun e => is_error e && enabled built e) (by_thread t (l_made s)).
Proof.
  intros s t (acts & F & H) ET GG. eapply idle_begun; eauto. left. intros e E. unfold is_error in E.
  destruct (entry_level e); try discriminate. reflexivity.
Qed.
End Inv.

(** ** Going on *)
Lemma log_goes_on : forall good built s t, logged good built [] s -> l_gone s = false -> l_threads s t <> [] ->
  exists t', forall stamp, exists s', l_step built [] (LStep t' stamp) s = LOn s'.
Proof.
  intros good built s t L GG NE. destruct (logged_inv good built [] s L) as (lines & cur & O & HN & T & G).
  destruct (l_holder s) as [h|] eqn:EH.
  - exists h. intros stamp. specialize (T h). cbn [mine_of] in T. rewrite Nat.eqb_refl in T.
    unfold l_step. rewrite GG.
    inversion T as [m F B E1|e m P F B E1|e b0 m P Eb F B E1|e b0 m P Eb F B CE E1|e b0 xs m Eb F B IL E1|e b0 extra is m FE Eb F B IL X XG E1]; subst; try discriminate.
    + destruct e as [l ps]. cbn. eauto.
    + destruct xs; cbn; [destruct e as [[] ps]; cbn; eauto|eauto].
    + destruct X as [(l & X & I)|[(r & X & N)|X]].
      * apply incl_l_nil in I. subst l. rewrite X. cbn. eauto.
      * contradiction.
      * specialize (XG X). congruence.
  - exists t. intros stamp. specialize (T t). cbn [mine_of] in T. unfold l_step. rewrite GG.
    inversion T as [m F B E1|e m P F B E1|e b0 m P Eb F B E1|e b0 m P Eb F B CE E1|e b0 xs m Eb F B IL E1|e b0 extra is m FE Eb F B IL X XG E1]; subst; try discriminate.
    + congruence.
    + destruct e as [l ps]. destruct (_ || _); eauto.
    + destruct e as [l ps]. cbn. rewrite EH. eauto.
Qed.

Lemma log_defined : forall good built s a, logged good built [] s -> calm good a -> l_step built [] a s <> LUndef.
Proof.
  intros good built s a L C. destruct (logged_inv good built [] s L) as (lines & cur & O & HN & T & G).
  unfold l_step. destruct (l_gone s) eqn:GG; [discriminate|].
  destruct a as [t stamp|t e|t e|b]; try discriminate; [|destruct (l_threads s t); discriminate].
  specialize (T t). destruct (l_threads s t) as [|i r] eqn:ET; [discriminate|].
  destruct i as [[l ps]| |l|x| | |]; try discriminate; [destruct (_ || _); discriminate|].
  destruct (l_holder s) as [h|] eqn:EH; [|discriminate]. destruct (Nat.eqb_spec h t) as [->|]; [|discriminate].
  cbn [mine_of] in T. rewrite Nat.eqb_refl in T. exfalso.
  inversion T as [m F B E1|e m P F B E1|e b0 m P Eb F B E1|e b0 m P Eb F B CE E1|e b0 xs m Eb F B IL E1|e b0 extra is m FE Eb F B IL X XG E1]; subst; try discriminate.
  - destruct e as [l ps]; discriminate.
  - destruct xs; [|discriminate]. destruct e as [[] ps]; discriminate.
  - destruct X as [(l & X & I)|[(r' & X & N)|X]]; [|contradiction|discriminate].
    apply incl_l_nil in I. subst l. discriminate.
Qed.
