(** Lemmas for C75. *)
From Coq Require Import List NArith Bool Arith Lia.
From Verif Require Import Model.Base Model.Sockets Model.Listen Spec.ListenSpec Proofs.SocketProofs.
Import ListNotations.
Local Open Scope N_scope.

Lemma path_eqb_eq : forall a b, path_eqb a b = true <-> a = b.
Proof.
  induction a as [|x a IH]; intros [|y b]; cbn; try (split; congruence).
  rewrite andb_true_iff, N.eqb_eq, IH. split; [intros [-> ->]|intros [= -> ->]]; auto.
Qed.
Lemma path_eqb_refl : forall a, path_eqb a a = true.
Proof. intro a. now apply path_eqb_eq. Qed.
Lemma path_eqb_neq : forall a b, path_eqb a b = false <-> a <> b.
Proof. intros. rewrite <- path_eqb_eq. destruct (path_eqb a b); split; congruence. Qed.

Lemma at_drop : forall p q l, file_at p (file_drop q l) = if path_eqb q p then None else file_at p l.
Proof.
  intros p q l. unfold file_drop. induction l as [|[r f] l IH]; cbn.
  - now destruct (path_eqb q p).
  - destruct (path_eqb r q) eqn:E; cbn.
    + apply path_eqb_eq in E as ->. rewrite IH. now destruct (path_eqb q p) eqn:E.
    + rewrite IH. destruct (path_eqb r p) eqn:E2; [|reflexivity].
      apply path_eqb_eq in E2 as ->. destruct (path_eqb q p) eqn:E3; [|reflexivity].
      apply path_eqb_eq in E3 as ->. now rewrite path_eqb_refl in E.
Qed.
Lemma at_put : forall p q f l, file_at p (file_put q f l) = if path_eqb q p then Some f else file_at p l.
Proof. intros. unfold file_put. cbn. rewrite at_drop. now destruct (path_eqb q p). Qed.

(** remove changes the files only, and only this one. *)
Lemma remove_files : forall a p s s' b, sys_remove a p s = (s', b) ->
  l_open s' = l_open s /\ l_next s' = l_next s /\ l_listening s' = l_listening s /\ l_listeners s' = l_listeners s
  /\ l_filenames s' = l_filenames s
  /\ (forall q, q <> p -> file_at q (l_files s') = file_at q (l_files s))
  /\ (b = true -> file_at p (l_files s') = None)
  /\ (file_at p (l_files s') = None \/ file_at p (l_files s') = file_at p (l_files s)).
Proof.
  intros a p s s' b H. unfold sys_remove in H.
  destruct (file_at p (l_files s)) eqn:E; [destruct a|]; injection H as <- <-; cbn; repeat (split; auto); try discriminate.
  all: rewrite ?at_drop, ?path_eqb_refl; auto.
  intros q N. rewrite at_drop. now apply not_eq_sym, path_eqb_neq in N as ->.
Qed.

(** The calls between bind and listen, all in one. *)
Lemma steps_after : forall k name owner group id p s3,
  file_at name (l_files s3) = (if path_eqb p name then Some (mkFile (Some id) (fst (k_new k)) (snd (k_new k))) else None) ->
  forall s4, chown_step k name owner group s3 = Val (Some s4) ->
  (l_open s4 = l_open s3 /\ l_next s4 = l_next s3 /\ l_listening s4 = l_listening s3 /\ l_listeners s4 = l_listeners s3
   /\ l_filenames s4 = l_filenames s3 /\ (forall q, q <> name -> file_at q (l_files s4) = file_at q (l_files s3)))
  /\ file_at name (l_files s4) = (if path_eqb p name then Some (mkFile (Some id) (fst (k_new k))
       (match owner, group, k_user k, k_group k with Some _, Some _, Some u, Some g => (u, g) | _, _, _, _ => snd (k_new k) end)) else None)
  /\ (match owner, group with Some _, Some _ => p = name /\ (exists u, k_user k = Some u) /\ (exists g, k_group k = Some g) | _, _ => True end).
Proof.
  intros k name owner group id p s3 F s4 H. unfold chown_step in H.
  destruct owner; [destruct group|]; try (injection H as <-; repeat (split; auto)).
  destruct (k_user k) eqn:Eu; [destruct (k_group k) eqn:Eg|]; try discriminate. injection H as H.
  unfold sys_chown in H. rewrite F in H. destruct (path_eqb p name) eqn:E; [|discriminate].
  destruct (k_chown k); [|discriminate]. injection H as <-. cbn.
  repeat (split; auto); rewrite ?at_put, ?path_eqb_refl; eauto.
  - intros q N. change (file_at q (file_put name (mkFile (Some id) (fst (k_new k)) (n, n0)) (l_files s3)) = file_at q (l_files s3)).
    rewrite at_put. now apply not_eq_sym, path_eqb_neq in N as ->.
  - now apply path_eqb_eq.
Qed.

Lemma chmod_after : forall k name mode id p o s4,
  file_at name (l_files s4) = (if path_eqb p name then Some (mkFile (Some id) (fst (k_new k)) o) else None) ->
  forall s5, chmod_step k name mode s4 = Some s5 ->
  (l_open s5 = l_open s4 /\ l_next s5 = l_next s4 /\ l_listening s5 = l_listening s4 /\ l_listeners s5 = l_listeners s4
   /\ l_filenames s5 = l_filenames s4 /\ (forall q, q <> name -> file_at q (l_files s5) = file_at q (l_files s4)))
  /\ file_at name (l_files s5) = (if path_eqb p name then Some (mkFile (Some id) (if mode =? 0xffffffff then fst (k_new k) else mode) o) else None)
  /\ (mode <> 0xffffffff -> p = name).
Proof.
  intros k name mode id p o s4 F s5 H. unfold chmod_step in H.
  destruct (N.eqb_spec mode 0xffffffff) as [E|E].
  - injection H as <-. repeat (split; auto). congruence.
  - unfold sys_chmod in H. rewrite F in H. destruct (path_eqb p name) eqn:E2; [|discriminate].
    destruct (k_chmod k); [|discriminate]. injection H as <-. cbn.
    repeat (split; auto); rewrite ?at_put, ?path_eqb_refl; auto.
    + intros q N. change (file_at q (file_put name (mkFile (Some id) mode o) (l_files s4)) = file_at q (l_files s4)).
      rewrite at_put. now apply not_eq_sym, path_eqb_neq in N as ->.
    + intros _. now apply path_eqb_eq.
Qed.

(** The invariant of the descriptors. *)
Record dinv (s : lst) : Prop := {
  di_fds : NoDup (map fst (l_open s));
  di_next : forall fd id, In (fd, id) (l_open s) -> (id < l_next s)%nat;
  di_ids : NoDup (map snd (l_open s));
  di_known : forall fd id, In (fd, id) (l_open s) -> In fd (l_listeners s) \/ fd = 0;
  di_open : forall fd, In fd (l_listeners s) -> exists id, In (fd, id) (l_open s);
  di_heard : forall id, In id (l_listening s) -> exists fd, In (fd, id) (l_open s) /\ In fd (l_listeners s)
}.

(** Closing the new descriptor, wherever the files are by then. *)
Lemma close_new : forall fd s s', findN fd (l_open s) = None -> ~ In (l_next s) (l_listening s) ->
  l_open s' = (fd, l_next s) :: l_open s -> l_listening s' = l_listening s ->
  sys_close fd s' = mkL (l_files s') (l_open s) (l_next s') (l_listening s) (l_listeners s') (l_filenames s').
Proof.
  intros fd s s' F N O L. unfold sys_close. rewrite O, L. cbn [findN]. rewrite N.eqb_refl. unfold set_heard, set_fds. cbn [l_files l_open l_next l_listening l_listeners l_filenames].
  f_equal.
  - rewrite dropN_head. apply dropN_absent. now apply findN_None.
  - clear - N. induction (l_listening s) as [|x l IH]; cbn; auto.
    cbn in N. destruct (Nat.eqb_spec x (l_next s)) as [E|E]; [exfalso; auto|]. cbn. f_equal. apply IH. tauto.
Qed.

Lemma close_fresh : forall fd s, findN fd (l_open s) = None -> ~ In (l_next s) (l_listening s) ->
  sys_close fd (sys_socket fd s) = mkL (l_files s) (l_open s) (S (l_next s)) (l_listening s) (l_listeners s) (l_filenames s).
Proof. intros fd s F N. now rewrite (close_new fd s (sys_socket fd s)). Qed.

Lemma dinv_next : forall s, dinv s -> ~ In (l_next s) (l_listening s).
Proof. intros s I H. destruct (di_heard _ I _ H) as [fd [A _]]. apply (di_next _ I) in A. lia. Qed.

Definition lfile (k : kans) (mode : N) (owner group : option path) (id : nat) : file :=
  mkFile (Some id) (if mode =? 0xffffffff then fst (k_new k) else mode)
   (match owner, group, k_user k, k_group k with Some _, Some _, Some u, Some g => (u, g) | _, _, _, _ => snd (k_new k) end).

(** One call, whole: what each outcome leaves. *)
Definition wants (mode : N) (owner group : option path) : Prop :=
  mode <> 0xffffffff \/ (owner <> None /\ group <> None).

Inductive lunix (k : kans) (name : path) (mode : N) (owner group : option path) (s : lst) : list lst -> lout -> Prop :=
| LuNot : lunix k name mode owner group s [] LNot
| LuUndef : forall s' h, owner <> None -> group <> None -> k_user k = None \/ k_group k = None ->
    Forall (fun w => l_listening w = l_listening s) (s' :: h) ->
    lunix k name mode owner group s (s' :: h) LUndef
| LuFalse : forall s' h,
    l_open s' = l_open s -> l_listening s' = l_listening s -> l_listeners s' = l_listeners s -> l_filenames s' = l_filenames s ->
    (l_next s <= l_next s')%nat ->
    (forall p, file_at p (l_files s') = file_at p (l_files s) \/ (p = name /\ file_at p (l_files s') = None)
       \/ (p = sun_path name /\ p <> [] /\ k_bind k = true /\ (exists f, file_at p (l_files s') = Some f /\ f_sock f = Some (l_next s))
           /\ (k_chown k = false \/ k_chmod k = false \/ k_listen k = false \/ p <> name))) ->
    Forall (fun w => l_listening w = l_listening s) (s' :: h) ->
    lunix k name mode owner group s (s' :: h) (LRet false)
| LuTrue : forall s' h fd,
    k_fd k = Some fd -> findN fd (l_open s) = None ->
    l_open s' = (fd, l_next s) :: l_open s -> l_listening s' = l_next s :: l_listening s -> l_listeners s' = fd :: l_listeners s ->
    l_filenames s' = l_filenames s ++ [name] -> l_next s' = S (l_next s) ->
    (wants mode owner group -> sun_path name = name /\ name <> []) ->
    ((owner <> None /\ group <> None) -> k_user k <> None /\ k_group k <> None) ->
    (sun_path name <> [] -> file_at (sun_path name) (l_files s') = Some (lfile k mode owner group (l_next s))) ->
    (sun_path name <> name -> file_at name (l_files s') = None) ->
    (forall p, p <> name -> p <> sun_path name -> file_at p (l_files s') = file_at p (l_files s)) ->
    (name = [] -> file_at [] (l_files s') = None) ->
    Forall (fun w => l_listening w = l_listening s \/ l_files w = l_files s' /\ l_listening w = l_next s :: l_listening s) (s' :: h) ->
    lunix k name mode owner group s (s' :: h) (LRet true).

Lemma sun_nil : forall name, sun_path name = [] -> name = [].
Proof. now intros [|x name]. Qed.

Lemma listen_unix_spec : forall k name mode owner group s,
  ~ In (l_next s) (l_listening s) ->
  lunix k name mode owner group s (fst (listen_unix k name mode owner group s)) (snd (listen_unix k name mode owner group s)).
Proof.
  intros k name mode owner group s NX. unfold listen_unix.
  destruct (sys_remove (k_remove k) name s) as [s1 rm] eqn:R.
  apply remove_files in R as (O1 & X1 & L1 & Ls1 & Fn1 & F1 & G1 & H1).
  assert (FS1 : forall p, file_at p (l_files s1) = file_at p (l_files s) \/ p = name /\ file_at p (l_files s1) = None).
  { intro p. destruct (path_eqb p name) eqn:E.
    - apply path_eqb_eq in E as ->. destruct H1; auto.
    - apply path_eqb_neq in E. auto. }
  assert (Stop : lunix k name mode owner group s [s1] (LRet false)).
  { constructor; auto; try lia. intro p. destruct (FS1 p); auto. }
  destruct rm; cbn [negb]; [|exact Stop].
  specialize (G1 eq_refl). clear H1.
  destruct (k_fd k) as [fd|] eqn:K; [|exact Stop].
  destruct (findN fd (l_open s1)) eqn:Fd; [constructor|].
  assert (NX1 : ~ In (l_next s1) (l_listening s1)) by (rewrite X1, L1; exact NX).
  set (s2 := sys_socket fd s1).
  destruct (sys_bind (k_bind k) (k_new k) (l_next s1) (sun_path name) s2) as [s3|] eqn:B.
  2:{ cbn [fst snd]. unfold s2. rewrite (close_fresh fd s1 Fd NX1).
      match goal with |- context[fst ?r] => destruct r as [s4 b4] eqn:R2 end.
      apply remove_files in R2 as (O2 & X2 & L2 & Ls2 & Fn2 & F2 & G2 & H2). cbn in O2, X2, L2, Ls2, Fn2, F2, H2.
      cbn [fst]. constructor; try congruence; [lia| |].
      - intro p. destruct (path_eqb p name) eqn:E.
        + apply path_eqb_eq in E as ->. right. left. split; auto. destruct H2 as [H2|H2]; congruence.
        + apply path_eqb_neq in E. rewrite F2 by auto. destruct (FS1 p) as [A|A]; auto.
      - repeat constructor; cbn; congruence. }
  (* bound *)
  assert (B3 : l_open s3 = (fd, l_next s1) :: l_open s1 /\ l_next s3 = S (l_next s1) /\ l_listening s3 = l_listening s1
    /\ l_listeners s3 = l_listeners s1 /\ l_filenames s3 = l_filenames s1 /\ k_bind k = true
    /\ (forall p, p <> sun_path name -> file_at p (l_files s3) = file_at p (l_files s1))
    /\ (sun_path name <> [] -> file_at (sun_path name) (l_files s3) = Some (mkFile (Some (l_next s1)) (fst (k_new k)) (snd (k_new k))))
    /\ (sun_path name = [] -> s3 = s2)).
  { unfold sys_bind in B. destruct (sun_path name) as [|c cs] eqn:SP.
    - destruct (k_bind k); [|discriminate]. injection B as <-. repeat (split; auto). congruence.
    - destruct (file_at (c :: cs) (l_files s2)); [discriminate|]. destruct (k_bind k); [|discriminate].
      injection B as <-. cbn [l_open l_next l_listening l_listeners l_filenames l_files set_files s2 sys_socket].
      repeat (split; auto).
      + intros p N. rewrite at_put. now apply not_eq_sym, path_eqb_neq in N as ->.
      + intros _. now rewrite at_put, path_eqb_refl.
      + discriminate. }
  destruct B3 as (O3 & X3 & L3 & Ls3 & Fn3 & KB & F3 & G3 & Nil3).
  assert (N3 : file_at name (l_files s3) = if path_eqb (sun_path name) name && negb (path_eqb name [])
     then Some (mkFile (Some (l_next s1)) (fst (k_new k)) (snd (k_new k))) else None).
  { destruct (path_eqb (sun_path name) name) eqn:E; cbn [andb].
    - apply path_eqb_eq in E. destruct (path_eqb name []) eqn:E2; cbn [negb].
      + apply path_eqb_eq in E2 as ->. rewrite (Nil3 eq_refl). exact G1.
      + apply path_eqb_neq in E2. rewrite <- E at 1. apply G3. now rewrite E.
    - apply path_eqb_neq in E. rewrite F3 by congruence. exact G1. }
  (* the path to compare with: a name that cannot be equal if the name is empty *)
  set (p0 := if path_eqb name [] then [0] else sun_path name).
  assert (P0 : path_eqb p0 name = path_eqb (sun_path name) name && negb (path_eqb name [])).
  { unfold p0. destruct name as [|c cs]; [reflexivity|]. cbn [path_eqb negb]. now rewrite andb_true_r. }
  assert (P0' : p0 = name -> sun_path name = name /\ name <> []).
  { intro E. apply path_eqb_eq in E. rewrite P0, andb_true_iff in E. destruct E as [A E].
    apply path_eqb_eq in A. split; auto. intros ->. discriminate. }
  rewrite <- P0 in N3.
  (* a failure from here on, at a state with the files of some [s'] *)
  assert (Fail : forall s' h,
     l_open s' = l_open s3 -> l_next s' = l_next s3 -> l_listening s' = l_listening s3 -> l_listeners s' = l_listeners s3 ->
     l_filenames s' = l_filenames s3 ->
     (forall q, q <> name -> file_at q (l_files s') = file_at q (l_files s3)) ->
     (file_at name (l_files s') = None /\ p0 <> name
       \/ exists f, file_at name (l_files s') = Some f /\ f_sock f = Some (l_next s1) /\ p0 = name) ->
     (k_chown k = false \/ k_chmod k = false \/ k_listen k = false \/ (sun_path name <> name \/ name = [])) ->
     Forall (fun w => l_listening w = l_listening s) h ->
     lunix k name mode owner group s (sys_close fd s' :: h) (LRet false)).
  { intros s' h O' X' L' Ls' Fn' F' G' Why Hist.
    rewrite (close_new fd s1 s' Fd NX1) by congruence.
    constructor; cbn [l_open l_next l_listening l_listeners l_filenames l_files]; try congruence; [lia| |].
    - intro p. destruct (path_eqb p name) eqn:E.
      + apply path_eqb_eq in E as ->. destruct G' as [[A B']|[f [A [B' C]]]]; [auto|].
        apply P0' in C as [C D]. right. right. rewrite C. repeat (split; auto).
        * exists f. rewrite <- X1. auto.
        * tauto.
      + apply path_eqb_neq in E. rewrite F' by auto.
        destruct (path_eqb p (sun_path name)) eqn:E2.
        * apply path_eqb_eq in E2 as ->. destruct (path_eqb (sun_path name) []) eqn:E3.
          { apply path_eqb_eq in E3. apply sun_nil in E3 as E4. subst name. now cbn in E. }
          apply path_eqb_neq in E3. right. right. repeat (split; auto).
          exists (mkFile (Some (l_next s1)) (fst (k_new k)) (snd (k_new k))). rewrite <- X1. auto.
        * apply path_eqb_neq in E2. rewrite F3 by auto. destruct (FS1 p); auto.
    - constructor; [cbn; congruence|exact Hist]. }
  destruct (chown_step k name owner group s3) as [[s4|]|] eqn:CO.
  - destruct (steps_after k name owner group (l_next s1) p0 s3 N3 s4 CO) as ((O4 & X4 & L4 & Ls4 & Fn4 & F4) & N4 & W4).
    destruct (chmod_step k name mode s4) as [s5|] eqn:CM.
    + destruct (chmod_after k name mode (l_next s1) p0 _ s4 N4 s5 CM) as ((O5 & X5 & L5 & Ls5 & Fn5 & F5) & N5 & W5).
      unfold sys_listen. destruct (k_listen k) eqn:KL.
      * cbn [fst snd]. set (s6 := set_heard (l_next s1 :: l_listening s5) s5).
        eapply LuTrue with (fd := fd); auto; cbn [l_open l_next l_listening l_listeners l_filenames l_files set_heard s6].
        -- congruence.
        -- congruence.
        -- congruence.
        -- congruence.
        -- congruence.
        -- congruence.
        -- intros [M|[M1 M2]]; [apply P0', W5, M|]. destruct owner; [destruct group|]; try congruence. apply P0', W4.
        -- intros [M1 M2]. destruct owner; [destruct group|]; try congruence. destruct W4 as (_ & [u ->] & [g ->]). split; discriminate.
        -- intro SN. destruct (path_eqb (sun_path name) name) eqn:E.
           ++ apply path_eqb_eq in E. rewrite E in SN |- *. rewrite N5.
              assert (Z : path_eqb name [] = false) by (now apply path_eqb_neq). rewrite P0, Z. cbn [andb negb].
              unfold lfile. now rewrite X1.
           ++ apply path_eqb_neq in E. rewrite F5, F4, G3 by auto. rewrite <- X1.
              assert (Z : p0 <> name) by (intro C; apply P0' in C; tauto).
              unfold lfile. destruct (N.eqb_spec mode 0xffffffff) as [M|M]; [|now apply W5 in M].
              destruct owner; [destruct group|]; try reflexivity. destruct W4. contradiction.
        -- intro E. rewrite N5. apply path_eqb_neq in E. now rewrite P0, E.
        -- intros p A C. rewrite F5, F4, F3 by auto. destruct (FS1 p) as [D|[D _]]; [auto|contradiction].
        -- intros ->. rewrite N5. reflexivity.
        -- repeat (apply Forall_cons; [cbn; first [left; congruence | right; split; [reflexivity|congruence]]|]); apply Forall_nil.
      * apply (Fail s5); try congruence; auto.
        -- intros q N. rewrite F5, F4; auto.
        -- rewrite N5. destruct (path_eqb p0 name) eqn:E; [right|left].
           ++ apply path_eqb_eq in E. eexists. repeat (split; auto).
           ++ apply path_eqb_neq in E. auto.
        -- repeat (apply Forall_cons; [try unfold s2; cbn; congruence|]); apply Forall_nil.
    + apply (Fail s4); try congruence; auto.
      * rewrite N4. destruct (path_eqb p0 name) eqn:E; [right|left].
        -- apply path_eqb_eq in E. eexists. repeat (split; auto).
        -- apply path_eqb_neq in E. auto.
      * unfold chmod_step in CM. destruct (mode =? 0xffffffff); [discriminate|]. unfold sys_chmod in CM. rewrite N4 in CM.
        destruct (path_eqb p0 name) eqn:E; [destruct (k_chmod k); auto; discriminate|].
        symmetry in P0. right. right. right. destruct (path_eqb (sun_path name) name) eqn:E2; cbn [andb] in P0.
        -- right. apply negb_false_iff, path_eqb_eq in P0. exact P0.
        -- left. now apply path_eqb_neq.
      * repeat (apply Forall_cons; [try unfold s2; cbn; congruence|]); apply Forall_nil.
  - apply (Fail s3); try congruence; auto.
    + rewrite N3. destruct (path_eqb p0 name) eqn:E; [right|left].
      * apply path_eqb_eq in E. eexists. repeat (split; auto).
      * apply path_eqb_neq in E. auto.
    + unfold chown_step in CO. destruct owner; [destruct group|]; try discriminate.
      destruct (k_user k); [destruct (k_group k)|]; try discriminate. injection CO as CO.
      unfold sys_chown in CO. rewrite N3 in CO.
      destruct (path_eqb p0 name) eqn:E; [destruct (k_chown k); auto; discriminate|].
      symmetry in P0. right. right. right. destruct (path_eqb (sun_path name) name) eqn:E2; cbn [andb] in P0.
      * right. apply negb_false_iff, path_eqb_eq in P0. exact P0.
      * left. now apply path_eqb_neq.
    + repeat (apply Forall_cons; [try unfold s2; cbn; congruence|]); apply Forall_nil.
  - cbn [fst snd]. unfold chown_step in CO. destruct owner; [destruct group|]; try discriminate.
    constructor; try discriminate.
    + destruct (k_user k); [destruct (k_group k)|]; auto. discriminate.
    + repeat (apply Forall_cons; [try unfold s2; cbn; congruence|]); apply Forall_nil.
Qed.

(** The invariant of the descriptors holds in every run. *)
Lemma dinv_init : forall files zero, dinv (l_init files zero).
Proof.
  intros files zero. constructor; cbn; try tauto; destruct zero; cbn; try tauto; try (repeat constructor; cbn; tauto).
  - intros fd id [[= <- <-]|[]]. lia.
  - intros fd id [[= <- <-]|[]]. auto.
Qed.

Lemma fresh_fd : forall fd s, dinv s -> findN fd (l_open s) = None -> ~ In fd (l_listeners s).
Proof. intros fd s I F H. destruct (di_open _ I _ H) as [id A]. exact (findN_None _ _ F _ A). Qed.

(** A new descriptor that is listened on. *)
Lemma dinv_more : forall s s' fd, dinv s -> findN fd (l_open s) = None ->
  l_open s' = (fd, l_next s) :: l_open s -> l_next s' = S (l_next s) -> l_listening s' = l_next s :: l_listening s ->
  l_listeners s' = fd :: l_listeners s -> dinv s'.
Proof.
  intros s s' fd I F O X L Ls. constructor.
  - rewrite O. cbn. constructor; [|apply (di_fds _ I)]. rewrite in_map_iff. intros [[fd' id] [E H]]. cbn in E. subst fd'.
    exact (findN_None _ _ F _ H).
  - intros fd' id. rewrite O, X. intros [[= <- <-]|H]; [lia|]. apply (di_next _ I) in H. lia.
  - rewrite O. cbn. constructor; [|apply (di_ids _ I)]. rewrite in_map_iff. intros [[fd' id] [E H]]. cbn in E. subst id.
    apply (di_next _ I) in H. lia.
  - intros fd' id. rewrite O, Ls. intros [[= <- <-]|H]; [left; left; auto|]. destruct (di_known _ I _ _ H); [left; right|right]; auto.
  - intro fd'. rewrite O, Ls. intros [<-|H]; [exists (l_next s); left; auto|]. destruct (di_open _ I _ H) as [id A]. exists id. right. exact A.
  - intro id. rewrite O, L, Ls. intros [<-|H]; [exists fd; split; left; auto|]. destruct (di_heard _ I _ H) as [fd' [A B]].
    exists fd'. split; right; auto.
Qed.

Lemma dinv_same : forall s s', dinv s -> l_open s' = l_open s -> (l_next s <= l_next s')%nat -> l_listening s' = l_listening s ->
  l_listeners s' = l_listeners s -> dinv s'.
Proof.
  intros s s' I O X L Ls. constructor.
  - rewrite O. apply I.
  - intros fd id. rewrite O. intro H. apply (di_next _ I) in H. lia.
  - rewrite O. apply I.
  - intros fd id. rewrite O, Ls. apply I.
  - intros fd. rewrite O, Ls. apply I.
  - intros id. rewrite O, L, Ls. apply I.
Qed.

Lemma tcp_inv : forall l s s' b, dinv s -> listen_tcp l s = (s', LRet b) ->
  dinv s' /\ l_files s' = l_files s /\ l_filenames s' = l_filenames s.
Proof.
  induction l as [|[[fd ok]|] l IH]; intros s s' b I H; cbn [listen_tcp] in H.
  - injection H as <- _. auto.
  - destruct (findN fd (l_open s)) eqn:F; [discriminate|]. destruct ok.
    + injection H as <- _. split; [|auto]. now apply (dinv_more s _ fd).
    + rewrite (close_fresh fd s F (dinv_next _ I)) in H. apply IH in H; [exact H|].
      apply (dinv_same s); auto. cbn. lia.
  - eapply IH; eauto.
Qed.

Lemma default_inv : forall ok s s' b, dinv s -> listen_default ok s = (s', LRet b) ->
  dinv s' /\ l_files s' = l_files s /\ l_filenames s' = l_filenames s.
Proof.
  intros ok s s' b I H. unfold listen_default in H. destruct (memN 0 (l_listeners s)) eqn:M; [injection H as <- _; auto|].
  destruct (findN 0 (l_open s)) as [id|] eqn:F; [|injection H as <- _; auto].
  destruct ok; injection H as <- _; [|auto]. split; [|auto]. apply findN_In in F.
  constructor; cbn; try apply I.
  - intros fd i H. destruct (di_known _ I _ _ H); auto.
  - intros fd [<-|H]; [eauto|]. now apply (di_open _ I).
  - intros i [<-|H]; [exists 0; auto|]. destruct (di_heard _ I _ H) as [fd [A B]]. exists fd. auto.
Qed.

Lemma lstep_inv : forall o s s', dinv s -> lstep o s = Some s' -> dinv s'.
Proof.
  intros o s s' I H. destruct o as [k name mode owner group|ok|l|p [[m o]|]]; cbn [lstep] in H.
  - pose proof (listen_unix_spec k name mode owner group s (dinv_next _ I)) as L.
    destruct (listen_unix k name mode owner group s) as [h out]. cbn [fst snd] in L.
    destruct L as [|s1 h1 _ _ _ _|s1 h1 O L Ls Fn X _ _|s1 h1 fd _ F O L Ls Fn X _ _ _ _ _ _ _]; try discriminate; injection H as <-.
    + now apply (dinv_same s).
    + now apply (dinv_more s _ fd).
  - destruct (listen_default ok s) as [s1 out] eqn:E. destruct out; try discriminate. injection H as <-. now apply default_inv in E.
  - destruct (listen_tcp l s) as [s1 out] eqn:E. destruct out; try discriminate. injection H as <-. now apply tcp_inv in E.
  - injection H as <-. now apply (dinv_same s).
  - injection H as <-. now apply (dinv_same s).
Qed.

Lemma lexec_inv : forall l s s', dinv s -> lexec l s = Some s' -> dinv s'.
Proof.
  induction l as [|o l IH]; cbn; intros s s' I H; [now injection H as <-|].
  destruct (lstep o s) as [s1|] eqn:E; [|discriminate]. apply (IH s1); [eapply lstep_inv; eauto|exact H].
Qed.
Lemma lreach_inv : forall l s, lreach l s -> dinv s.
Proof. intros l s (files & zero & H). eapply lexec_inv; [apply dinv_init|exact H]. Qed.

(** ** The theorems about one call. *)
Lemma sun_short : forall name, (length name <= 107)%nat -> sun_path name = name.
Proof. intros. now apply firstn_all2. Qed.
Lemma sun_long : forall name, (107 < length name)%nat -> sun_path name <> name.
Proof. intros name H E. apply (f_equal (@length N)) in E. unfold sun_path in E. rewrite firstn_length in E. lia. Qed.

Lemma lfile_asked : forall k mode owner group id,
  (owner <> None /\ group <> None -> k_user k <> None /\ k_group k <> None) ->
  as_asked k mode owner group (lfile k mode owner group id).
Proof.
  intros k mode owner group id W. unfold as_asked, lfile. cbn. split; [reflexivity|].
  destruct owner as [o|]; [destruct group as [g|]|]; auto.
  destruct W as [A B]; [split; discriminate|]. destruct (k_user k); [|congruence]. destruct (k_group k); [|congruence]. auto.
Qed.

Lemma listens : forall l s k name mode owner group s' h,
  lreach l s -> listen_unix k name mode owner group s = (s' :: h, LRet true) -> (0 < length name <= 107)%nat ->
  exists fd f, k_fd k = Some fd /\ findN fd (l_open s) = None
    /\ l_open s' = (fd, l_next s) :: l_open s
    /\ l_listening s' = l_next s :: l_listening s
    /\ l_listeners s' = fd :: l_listeners s
    /\ l_filenames s' = l_filenames s ++ [name]
    /\ file_at name (l_files s') = Some f /\ f_sock f = Some (l_next s) /\ as_asked k mode owner group f
    /\ (forall p, p <> name -> file_at p (l_files s') = file_at p (l_files s)).
Proof.
  intros l s k name mode owner group s' h R H Len. apply lreach_inv in R as I.
  pose proof (listen_unix_spec k name mode owner group s (dinv_next _ I)) as L. rewrite H in L. cbn [fst snd] in L.
  inversion L as [| | |s1 h1 fd K F O Li Ls Fn X W U A B C D E]; subst. clear L.
  rewrite (sun_short name) in A, C by lia.
  exists fd, (lfile k mode owner group (l_next s)). repeat (split; auto).
  - apply A. now destruct name.
  - now apply lfile_asked.
Qed.

Lemma guarded : forall l s k name mode owner group h out w,
  lreach l s -> listen_unix k name mode owner group s = (h, out) -> In w h -> name <> [] ->
  forall id, In id (l_listening w) ->
  In id (l_listening s)
  \/ id = l_next s /\ exists f, file_at (sun_path name) (l_files w) = Some f /\ f_sock f = Some id /\ as_asked k mode owner group f.
Proof.
  intros l s k name mode owner group h out w R H Hw Nn id Hid. apply lreach_inv in R as I.
  pose proof (listen_unix_spec k name mode owner group s (dinv_next _ I)) as L. rewrite H in L. cbn [fst snd] in L.
  inversion L as [|s1 h1 _ _ _ Hf|s1 h1 _ _ _ _ _ _ Hf|s1 h1 fd K F O Li Ls Fn X W U A B C D E]; subst.
  - destruct Hw.
  - left. rewrite Forall_forall in Hf. now rewrite <- (Hf w Hw).
  - left. rewrite Forall_forall in Hf. now rewrite <- (Hf w Hw).
  - rewrite Forall_forall in E. destruct (E w Hw) as [Q|[Q1 Q2]]; [left; now rewrite <- Q|].
    rewrite Q2 in Hid. destruct Hid as [<-|Hid]; [right|left; exact Hid]. split; [reflexivity|].
    exists (lfile k mode owner group (l_next s)). rewrite Q1. split; [|split; [reflexivity|now apply lfile_asked]].
    apply A. intro Z. now apply sun_nil in Z.
Qed.

Lemma failed : forall l s k name mode owner group s' h,
  lreach l s -> listen_unix k name mode owner group s = (s' :: h, LRet false) ->
  l_open s' = l_open s /\ l_listening s' = l_listening s /\ l_listeners s' = l_listeners s /\ l_filenames s' = l_filenames s
  /\ forall p, file_at p (l_files s') = file_at p (l_files s)
     \/ (p = name /\ file_at p (l_files s') = None)
     \/ (p = sun_path name /\ (exists f, file_at p (l_files s') = Some f /\ f_sock f = Some (l_next s))
         /\ (k_chown k = false \/ k_chmod k = false \/ k_listen k = false \/ (107 < length name)%nat)).
Proof.
  intros l s k name mode owner group s' h R H. apply lreach_inv in R as I.
  pose proof (listen_unix_spec k name mode owner group s (dinv_next _ I)) as L. rewrite H in L. cbn [fst snd] in L.
  inversion L as [| |s1 h1 O Li Ls Fn X Fs Hf|]; subst. repeat (split; auto).
  intro p. destruct (Fs p) as [A|[A|(A & _ & _ & B & C)]]; auto. right. right. repeat (split; auto).
  destruct C as [C|[C|[C|C]]]; auto. right. right. right.
  destruct (le_lt_dec (length name) 107) as [Q|Q]; [|exact Q]. apply sun_short in Q. congruence.
Qed.

(** ** The destructor. *)
Lemma close_dinv : forall fd s, dinv s -> In fd (l_listeners s) ->
  forall fd' id, In (fd', id) (l_open (sys_close fd s)) <-> In (fd', id) (l_open s) /\ fd' <> fd.
Proof.
  intros fd s I H fd' id. destruct (di_open _ I _ H) as [i A]. unfold sys_close.
  rewrite (findN_nodup fd i _ (di_fds _ I) A). cbn. apply dropN_In.
Qed.

(** Closing in turn, in a state where the descriptors are distinct and every
    listening socket is one of the open descriptors. *)
Lemma close_all : forall ls s,
  NoDup (map fst (l_open s)) ->
  (forall id, In id (l_listening s) -> exists fd, In (fd, id) (l_open s) /\ In fd ls) ->
  let s' := fold_left (fun s fd => sys_close fd s) ls s in
  l_files s' = l_files s /\ l_filenames s' = l_filenames s /\ l_listening s' = []
  /\ (forall fd id, In (fd, id) (l_open s') <-> In (fd, id) (l_open s) /\ ~ In fd ls).
Proof.
  induction ls as [|fd ls IH]; intros s ND Hd; cbn [fold_left].
  - repeat (split; auto).
    + destruct (l_listening s) as [|id l]; [reflexivity|]. destruct (Hd id (or_introl eq_refl)) as [fd [_ []]].
    + intros [A _]. exact A.
  - destruct (findN fd (l_open s)) as [i|] eqn:F.
    + assert (Q : l_open (sys_close fd s) = dropN fd (l_open s)) by (unfold sys_close; now rewrite F).
      assert (Q2 : l_listening (sys_close fd s) = filter (fun x => negb (Nat.eqb x i)) (l_listening s)) by (unfold sys_close; now rewrite F).
      assert (Q3 : l_files (sys_close fd s) = l_files s) by (unfold sys_close; now rewrite F).
      assert (Q4 : l_filenames (sys_close fd s) = l_filenames s) by (unfold sys_close; now rewrite F).
      destruct (IH (sys_close fd s)) as (A & B & C & D).
      * rewrite Q. unfold dropN. clear - ND. induction (l_open s) as [|[x y] l IH]; cbn in *; [constructor|].
        inversion ND; subst. destruct (negb (x =? fd)); cbn; [|auto]. constructor; [|auto].
        rewrite in_map_iff. intros [[x' y'] [E G]]. cbn in E. subst x'. apply filter_In in G as [G _].
        apply H1. rewrite in_map_iff. exists (x, y'). auto.
      * intros id H. rewrite Q2, filter_In in H. destruct H as [H N]. destruct (Hd id H) as [fd' [A [<-|B]]].
        -- apply findN_In in F as F'. assert (i = id) by (rewrite (findN_nodup fd id _ ND A) in F; congruence). subst.
           now rewrite Nat.eqb_refl in N.
        -- destruct (N.eqb_spec fd' fd) as [->|E].
           ++ assert (i = id) by (rewrite (findN_nodup fd id _ ND A) in F; congruence). subst. now rewrite Nat.eqb_refl in N.
           ++ exists fd'. split; [|exact B]. rewrite Q. apply dropN_In. auto.
      * split; [congruence|]. split; [congruence|]. split; [exact C|].
        intros fd' id. rewrite D, Q, dropN_In. cbn [fst In]. intuition congruence.
    + assert (Q : sys_close fd s = s) by (unfold sys_close; now rewrite F). rewrite Q.
      destruct (IH s ND) as (A & B & C & D).
      * intros id H. destruct (Hd id H) as [fd' [A [<-|B]]]; [|eauto]. exfalso. exact (findN_None _ _ F _ A).
      * split; [exact A|]. split; [exact B|]. split; [exact C|].
        intros fd' id. rewrite D. cbn [In]. split; [|tauto]. intros [G N]. split; [exact G|]. intros [<-|K]; [|tauto].
        exact (findN_None _ _ F _ G).
Qed.

Lemma remove_all : forall may ps s,
  let s' := fold_left (fun s p => fst (sys_remove (may p) p s)) ps s in
  l_open s' = l_open s /\ l_listening s' = l_listening s
  /\ (forall p, ~ In p ps -> file_at p (l_files s') = file_at p (l_files s))
  /\ (forall p, In p ps -> may p = true -> file_at p (l_files s') = None)
  /\ (forall p, file_at p (l_files s') = file_at p (l_files s) \/ file_at p (l_files s') = None).
Proof.
  intro may. induction ps as [|q ps IH]; intro s; cbn [fold_left].
  - repeat (split; auto). intros p [].
  - destruct (sys_remove (may q) q s) as [s1 b] eqn:R. cbn [fst].
    pose proof R as R0.
    apply remove_files in R as (O & _ & L & _ & _ & F & _ & G). destruct (IH s1) as (A & B & C & D & E).
    split; [congruence|]. split; [congruence|]. split; [|split].
    + intros p N. cbn in N. rewrite C by tauto. apply F. intros ->. tauto.
    + intros p [->|H] M; [|auto]. destruct (E p) as [Q|Q]; [|exact Q]. rewrite Q.
      unfold sys_remove in R0. rewrite M in R0. destruct (file_at p (l_files s)) eqn:X; injection R0 as <- <-; auto.
      cbn. now rewrite at_drop, path_eqb_refl.
    + intro p. destruct (E p) as [Q|Q]; [|auto]. rewrite Q. destruct (path_eqb p q) eqn:X.
      * apply path_eqb_eq in X as ->. tauto.
      * apply path_eqb_neq in X. left. auto.
Qed.

Lemma destroyed : forall l s may, lreach l s ->
  let s' := group_destroy may s in
  l_listening s' = []
  /\ (forall fd id, In (fd, id) (l_open s') <-> fd = 0 /\ In (fd, id) (l_open s) /\ ~ In fd (l_listeners s))
  /\ (forall p, In p (l_filenames s) -> may p = true -> file_at p (l_files s') = None)
  /\ (forall p, ~ In p (l_filenames s) -> file_at p (l_files s') = file_at p (l_files s)).
Proof.
  intros l s may R. apply lreach_inv in R as I. unfold group_destroy.
  destruct (close_all (l_listeners s) s (di_fds _ I) (di_heard _ I)) as (A & B & C & D).
  destruct (remove_all may (l_filenames s) (fold_left (fun s fd => sys_close fd s) (l_listeners s) s)) as (E & F & G & H & _).
  cbv zeta. split; [congruence|]. split; [|split; [exact H|intros p N; rewrite G by exact N; now rewrite A]].
  intros fd id. rewrite E, D. split; [|tauto]. intros [P Q]. destruct (di_known _ I _ _ P) as [K| ->]; tauto.
Qed.

(** ** Socket files are recorded, unless a call fails after bind. *)
Definition finv (s : lst) : Prop := forall p f, file_at p (l_files s) = Some f -> f_sock f <> None -> In p (l_filenames s).

Lemma lstep_finv : forall o s s', dinv s -> finv s -> smooth o -> lstep o s = Some s' -> finv s'.
Proof.
  intros o s s' I F Sm H p f Hp Hs. destruct o as [k name mode owner group|ok|l|q [[m o]|]]; cbn [lstep] in H.
  - pose proof (listen_unix_spec k name mode owner group s (dinv_next _ I)) as L.
    destruct (listen_unix k name mode owner group s) as [h out]. cbn [fst snd] in L.
    destruct Sm as (Len & S1 & S2 & S3). apply sun_short in Len.
    destruct L as [|s1 h1 _ _ _ _|s1 h1 O L Ls Fn X Fs _|s1 h1 fd _ _ O L Ls Fn X _ _ _ A B C _]; try discriminate; injection H as <-.
    + rewrite Fn. destruct (Fs p) as [Q|[[Q1 Q2]|(Q1 & _ & _ & _ & Q)]].
      * rewrite Q in Hp. eapply F; eauto.
      * congruence.
      * exfalso. destruct Q as [Q|[Q|[Q|Q]]]; congruence.
    + rewrite Fn. apply in_or_app. destruct (path_eqb p name) eqn:E.
      * apply path_eqb_eq in E as ->. right. left. reflexivity.
      * apply path_eqb_neq in E. left. rewrite B in Hp by congruence. eapply F; eauto.
  - destruct (listen_default ok s) as [s1 out] eqn:E. destruct out; try discriminate. injection H as <-.
    apply default_inv in E as (_ & E1 & E2); [|exact I]. rewrite E2. rewrite E1 in Hp. eapply F; eauto.
  - destruct (listen_tcp l s) as [s1 out] eqn:E. destruct out; try discriminate. injection H as <-.
    apply tcp_inv in E as (_ & E1 & E2); [|exact I]. rewrite E2. rewrite E1 in Hp. eapply F; eauto.
  - injection H as <-. cbn [l_files l_filenames set_files] in *. rewrite at_put in Hp.
    destruct (path_eqb q p); [injection Hp as <-; now cbn in Hs|]. eapply F; eauto.
  - injection H as <-. cbn [l_files l_filenames set_files] in *. rewrite at_drop in Hp.
    destruct (path_eqb q p); [discriminate|]. eapply F; eauto.
Qed.

Lemma lexec_finv : forall l s s', dinv s -> finv s -> Forall smooth l -> lexec l s = Some s' -> finv s'.
Proof.
  induction l as [|o l IH]; cbn; intros s s' I F Sm H; [now injection H as <-|].
  inversion Sm; subst. destruct (lstep o s) as [s1|] eqn:E; [|discriminate].
  eapply (IH s1); eauto using lstep_inv, lstep_finv.
Qed.

Lemma finv_init : forall files zero, finv (l_init files zero).
Proof.
  intros files zero p f H N. exfalso. cbn in H. induction files as [|[q [m o]] l IH]; cbn in H; [discriminate|].
  destruct (path_eqb q p); [injection H as <-; now cbn in N|auto].
Qed.

Lemma no_socket_left : forall l s, Forall smooth l -> lreach l s ->
  forall p f, file_at p (l_files (group_destroy (fun _ => true) s)) = Some f -> f_sock f = None.
Proof.
  intros l s Sm R p f H. pose proof (destroyed l s (fun _ => true) R) as (_ & _ & A & B). cbv zeta in *.
  destruct R as (files & zero & R).
  pose proof (lexec_finv l _ s (dinv_init files zero) (finv_init files zero) Sm R) as F.
  destruct (f_sock f) eqn:E; [|reflexivity]. exfalso.
  destruct (in_dec (list_eq_dec N.eq_dec) p (l_filenames s)) as [Y|Y].
  - rewrite A in H; auto. discriminate.
  - rewrite B in H by exact Y. apply Y. eapply F; [exact H|]. congruence.
Qed.

(** ** Names that do not fit. *)
Lemma taken_fails : forall k name mode owner group s,
  ~ In (l_next s) (l_listening s) -> sun_path name <> name -> file_at (sun_path name) (l_files s) <> None ->
  snd (listen_unix k name mode owner group s) <> LRet true.
Proof.
  intros k name mode owner group s NX SN FA. unfold listen_unix.
  destruct (sys_remove (k_remove k) name s) as [s1 rm] eqn:R.
  apply remove_files in R as (_ & _ & _ & _ & _ & F1 & _ & _).
  rewrite <- (F1 (sun_path name)) in FA by exact SN.
  destruct rm; cbn [negb]; [|discriminate]. destruct (k_fd k) as [fd|]; [|discriminate].
  destruct (findN fd (l_open s1)); [discriminate|].
  unfold sys_bind. cbn [l_files sys_socket]. destruct (sun_path name) as [|c cs] eqn:SP.
  - apply sun_nil in SP as ->. now cbn in SN.
  - destruct (file_at (c :: cs) (l_files s1)); [discriminate|congruence].
Qed.

Lemma long_name : forall l s k name mode owner group s' h,
  lreach l s -> (107 < length name)%nat -> listen_unix k name mode owner group s = (s' :: h, LRet true) ->
  ~ In (sun_path name) (l_filenames s) ->
  (mode = 0xffffffff /\ (owner = None \/ group = None))
  /\ (exists f, file_at (sun_path name) (l_files s') = Some f /\ f_sock f = Some (l_next s))
  /\ forall may, let d := group_destroy may s' in
     file_at (sun_path name) (l_files d) = file_at (sun_path name) (l_files s')
     /\ forall zero k' mode' owner' group',
        snd (listen_unix k' name mode' owner' group' (mkL (l_files d) zero 1 [] [] [])) <> LRet true.
Proof.
  intros l s k name mode owner group s' h R Len H NF. apply lreach_inv in R as I. apply sun_long in Len.
  assert (R' : lreach (l ++ [LUnix k name mode owner group]) s').
  { destruct R as (files & zero & R). exists files, zero. revert R. generalize (l_init files zero). clear - H.
    induction l as [|o l IH]; intros s0 R; cbn in R |- *.
    - injection R as ->. now rewrite H.
    - destruct (lstep o s0); [auto|discriminate]. }
  pose proof (listen_unix_spec k name mode owner group s (dinv_next _ I)) as L. rewrite H in L. cbn [fst snd] in L.
  inversion L as [| | |s1 h1 fd K F O Li Ls Fn X W U A B C D E]; subst. clear L.
  assert (SN : sun_path name <> []) by (intro Z; apply sun_nil in Z; subst; now cbn in Len).
  split; [|split].
  - destruct (N.eq_dec mode 0xffffffff) as [M|M]; [|exfalso; apply Len, W; left; exact M]. split; [exact M|].
    destruct owner; [|auto]. destruct group; [|auto]. exfalso. apply Len, W. right. split; discriminate.
  - exists (lfile k mode owner group (l_next s)). split; [now apply A|reflexivity].
  - intro may. cbv zeta.
    assert (Q : file_at (sun_path name) (l_files (group_destroy may s')) = file_at (sun_path name) (l_files s')).
    { apply (destroyed _ s' may R'). rewrite Fn. intro Z. apply in_app_or in Z as [Z|[Z|[]]]; congruence. }
    split; [exact Q|]. intros zero k' mode' owner' group'. apply taken_fails; auto.
    cbn [l_files]. rewrite Q, A by exact SN. discriminate.
Qed.

Lemma undefined : forall l s k name mode owner group,
  lreach l s -> snd (listen_unix k name mode owner group s) = LUndef ->
  owner <> None /\ group <> None /\ (k_user k = None \/ k_group k = None).
Proof.
  intros l s k name mode owner group R H. apply lreach_inv in R as I.
  pose proof (listen_unix_spec k name mode owner group s (dinv_next _ I)) as L. rewrite H in L.
  inversion L; subst. auto.
Qed.

Lemma tcp_failed : forall t s s', dinv s -> listen_tcp t s = (s', LRet false) ->
  l_files s' = l_files s /\ l_open s' = l_open s /\ l_listening s' = l_listening s /\ l_listeners s' = l_listeners s
  /\ l_filenames s' = l_filenames s.
Proof.
  induction t as [|[[fd ok]|] t IH]; intros s s' I H; cbn [listen_tcp] in H.
  - injection H as <-. auto.
  - destruct (findN fd (l_open s)) eqn:F; [discriminate|]. destruct ok; [discriminate|].
    rewrite (close_fresh fd s F (dinv_next _ I)) in H. apply IH in H; [exact H|].
    apply (dinv_same s); auto. cbn. lia.
  - now apply IH.
Qed.
Lemma tcp_done : forall t s s', dinv s -> listen_tcp t s = (s', LRet true) ->
  exists fd id, In (Some (fd, true)) t /\ findN fd (l_open s) = None
    /\ l_files s' = l_files s /\ l_open s' = (fd, id) :: l_open s /\ l_listening s' = id :: l_listening s
    /\ l_listeners s' = fd :: l_listeners s /\ l_filenames s' = l_filenames s.
Proof.
  induction t as [|[[fd ok]|] t IH]; intros s s' I H; cbn [listen_tcp] in H.
  - discriminate.
  - destruct (findN fd (l_open s)) eqn:F; [discriminate|]. destruct ok.
    + injection H as <-. exists fd, (l_next s). cbn. auto 10.
    + rewrite (close_fresh fd s F (dinv_next _ I)) in H. apply IH in H.
      * destruct H as (fd' & id & A & B). exists fd', id. split; [right; exact A|exact B].
      * apply (dinv_same s); auto. cbn. lia.
  - apply IH in H; [|exact I]. destruct H as (fd' & id & A & B). exists fd', id. split; [right; exact A|exact B].
Qed.
Lemma tcp_reach : forall l s t s', lreach l s -> 
  (listen_tcp t s = (s', LRet false) ->
     l_files s' = l_files s /\ l_open s' = l_open s /\ l_listening s' = l_listening s /\ l_listeners s' = l_listeners s
     /\ l_filenames s' = l_filenames s)
  /\ (listen_tcp t s = (s', LRet true) ->
     exists fd id, In (Some (fd, true)) t /\ findN fd (l_open s) = None
       /\ l_files s' = l_files s /\ l_open s' = (fd, id) :: l_open s /\ l_listening s' = id :: l_listening s
       /\ l_listeners s' = fd :: l_listeners s /\ l_filenames s' = l_filenames s).
Proof. intros l s t s' R. apply lreach_inv in R. split; [now apply tcp_failed|now apply tcp_done]. Qed.

(** ** Witnesses. *)
Definition good : kans := mkK true (Some 5) true (493, (33, 33)) (Some 1000) (Some 100) true true true true.
Definition sockname : path := [47; 116; 109; 112; 47; 102].

Lemma left_over : exists k name mode s' h f,
  listen_unix k name mode None None (l_init [] false) = (s' :: h, LRet false)
  /\ forall may, file_at name (l_files (group_destroy may s')) = Some f /\ f_sock f <> None.
Proof.
  exists (mkK true (Some 5) true (493, (33, 33)) None None true true false true), sockname, 432.
  do 3 eexists. split; [vm_compute; reflexivity|]. intro may. cbn. split; [reflexivity|discriminate].
Qed.
Lemma removes_any : exists k name s0 s' h f,
  lreach [] s0 /\ file_at name (l_files s0) = Some f /\ f_sock f = None
  /\ listen_unix k name 0xffffffff None None s0 = (s' :: h, LRet false)
  /\ file_at name (l_files s') = None.
Proof.
  exists (mkK true None true (0, (0, 0)) None None true true true true), sockname, (l_init [(sockname, (420, (1000, 100)))] false).
  do 3 eexists. split; [eexists; eexists; reflexivity|]. split; [vm_compute; reflexivity|]. split; [reflexivity|].
  split; vm_compute; reflexivity.
Qed.
Lemma owner_alone : exists k name o s' h f,
  listen_unix k name 0xffffffff (Some o) None (l_init [] false) = (s' :: h, LRet true)
  /\ file_at name (l_files s') = Some f /\ k_user k <> Some (fst (f_owner f)).
Proof.
  exists good, sockname, [119]. do 3 eexists. split; [vm_compute; reflexivity|]. split; [vm_compute; reflexivity|vm_compute; discriminate].
Qed.
Lemma unknown_owner : exists k name o g,
  snd (listen_unix k name 0xffffffff (Some o) (Some g) (l_init [] false)) = LUndef.
Proof.
  exists (mkK true (Some 5) true (493, (33, 33)) None (Some 1) true true true true), sockname, [119], [119]. reflexivity.
Qed.
