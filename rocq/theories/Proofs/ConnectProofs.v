(** Proofs for C81. *)
From Coq Require Import List NArith Bool Arith Lia.
From Verif Require Import Model.Base Model.Sockets Model.Listen Spec.ListenSpec Proofs.ListenProofs.
Import ListNotations.
Local Open Scope N_scope.

(** Listening only grows. *)
Lemma tcp_heard : forall l s s' b, dinv s -> listen_tcp l s = (s', LRet b) -> incl (l_listening s) (l_listening s').
Proof.
  induction l as [|[[fd ok]|] l IH]; intros s s' b I H; cbn [listen_tcp] in H.
  - injection H as <- _. apply incl_refl.
  - destruct (findN fd (l_open s)) eqn:F; [discriminate|]. destruct ok.
    + injection H as <- _. cbn. apply incl_tl, incl_refl.
    + assert (J : dinv (sys_close fd (sys_socket fd s))).
      { rewrite close_fresh by (auto using dinv_next). apply (dinv_same s); cbn; auto. }
      apply IH in H; [|exact J]. rewrite close_fresh in H by (auto using dinv_next). exact H.
  - eapply IH; eauto.
Qed.
Lemma step_heard : forall o s s', dinv s -> lstep o s = Some s' -> incl (l_listening s) (l_listening s').
Proof.
  intros o s s' I H. destruct o as [k name mode owner group|ok|l|p [[m o]|]]; cbn [lstep] in H.
  - pose proof (listen_unix_spec k name mode owner group s (dinv_next _ I)) as L.
    destruct (listen_unix k name mode owner group s) as [h out]. cbn [fst snd] in L.
    destruct L as [|s1 h1 _ _ _ _|s1 h1 O L Ls Fn X _ _|s1 h1 fd _ F O L Ls Fn X _ _ _ _ _ _ _]; try discriminate; injection H as <-; rewrite L.
    + apply incl_refl.
    + apply incl_tl, incl_refl.
  - unfold listen_default in H. destruct (memN 0 (l_listeners s)); [injection H as <-; apply incl_refl|].
    destruct (findN 0 (l_open s)) as [id|]; [|injection H as <-; apply incl_refl].
    destruct ok; injection H as <-; cbn; [apply incl_tl|]; apply incl_refl.
  - destruct (listen_tcp l s) as [s1 out] eqn:E. destruct out; try discriminate. injection H as <-. eapply tcp_heard; eauto.
  - injection H as <-. apply incl_refl.
  - injection H as <-. apply incl_refl.
Qed.

(** What happens to one file. *)
Lemma step_file : forall o s s' p, dinv s -> lstep o s = Some s' -> elsewhere p o -> file_at p (l_files s') = file_at p (l_files s).
Proof.
  intros o s s' p I H El. destruct o as [k name mode owner group|ok|l|q [[m o]|]]; cbn [lstep elsewhere] in *.
  - destruct El as [E1 E2]. pose proof (listen_unix_spec k name mode owner group s (dinv_next _ I)) as L.
    destruct (listen_unix k name mode owner group s) as [h out]. cbn [fst snd] in L.
    destruct L as [|s1 h1 _ _ _ _|s1 h1 O L Ls Fn X Fs _|s1 h1 fd _ _ O L Ls Fn X _ _ _ A B C _]; try discriminate; injection H as <-.
    + destruct (Fs p) as [Q|[[Q _]|(Q & _)]]; congruence.
    + apply B; congruence.
  - destruct (listen_default ok s) as [s1 out] eqn:E. destruct out; try discriminate. injection H as <-. apply default_inv in E as (_ & -> & _); auto.
  - destruct (listen_tcp l s) as [s1 out] eqn:E. destruct out; try discriminate. injection H as <-. apply tcp_inv in E as (_ & -> & _); auto.
  - injection H as <-. cbn [set_files l_files]. rewrite at_put. now apply path_eqb_neq in El as ->.
  - injection H as <-. cbn [set_files l_files]. rewrite at_drop. now apply path_eqb_neq in El as ->.
Qed.
Lemma exec_file : forall l s s' p, dinv s -> lexec l s = Some s' -> Forall (elsewhere p) l ->
  file_at p (l_files s') = file_at p (l_files s) /\ incl (l_listening s) (l_listening s').
Proof.
  induction l as [|o l IH]; cbn; intros s s' p I H F; [injection H as <-; split; [reflexivity|apply incl_refl]|].
  inversion F; subst. destruct (lstep o s) as [s1|] eqn:E; [|discriminate].
  destruct (IH s1 s' p (lstep_inv _ _ _ I E) H) as [A B]; [assumption|]. split.
  - rewrite A. eapply step_file; eauto.
  - eapply incl_tran; [eapply step_heard; eauto|exact B].
Qed.
Lemma heard_in : forall id l, In id l -> existsb (Nat.eqb id) l = true.
Proof. intros id l H. apply existsb_exists. exists id. split; [exact H|apply Nat.eqb_refl]. Qed.

Lemma connect_reaches : forall l s k name mode owner group s1 h l2 s2 other fd abstract,
  lreach l s -> listen_unix k name mode owner group s = (s1 :: h, LRet true) -> name <> [] ->
  lexec l2 s1 = Some s2 -> Forall (elsewhere (sun_path name)) l2 -> sun_path other = sun_path name -> findN fd (l_open s2) = None ->
  snd (connect_unix (Some fd) true abstract other s2) = CConn fd (l_next s).
Proof.
  intros l s k name mode owner group s1 h l2 s2 other fd abstract R H Nn X El So F. apply lreach_inv in R as I.
  assert (I1 : dinv s1) by (apply (lstep_inv (LUnix k name mode owner group) s); [exact I|cbn; now rewrite H]).
  pose proof (listen_unix_spec k name mode owner group s (dinv_next _ I)) as L. rewrite H in L. cbn [fst snd] in L.
  inversion L as [| | |s0 h1 fd1 K F1 O Li Ls Fn Nx W U A B C D E]; subst. clear L.
  destruct (exec_file l2 s1 s2 _ I1 X El) as [P Q].
  assert (Np : sun_path name <> []) by (intro Z; now apply sun_nil in Z). specialize (A Np). rewrite <- P in A.
  assert (Hd : In (l_next s) (l_listening s2)) by (apply Q; rewrite Li; now left).
  unfold connect_unix. rewrite F, So. unfold sys_connect. cbn [l_files l_listening sys_socket].
  destruct (sun_path name) as [|c cs]; [congruence|]. rewrite A. cbn [lfile f_sock]. rewrite (heard_in _ _ Hd). reflexivity.
Qed.

(** Where a socket file comes from. *)
Lemma next_new : forall k name mode owner group s s' h b, listen_unix k name mode owner group s = (s' :: h, LRet b) ->
  l_next s' = S (l_next s) \/ (l_next s' = l_next s /\ forall p, file_at p (l_files s') = file_at p (l_files s) \/ file_at p (l_files s') = None).
Proof.
  intros k name mode owner group s s' h b H. unfold listen_unix in H. destruct (sys_remove (k_remove k) name s) as [s1 rm] eqn:R.
  apply remove_files in R as (_ & X & _ & _ & _ & F1 & _ & F2).
  assert (Z : forall p, file_at p (l_files s1) = file_at p (l_files s) \/ file_at p (l_files s1) = None).
  { intro p. destruct (path_eqb p name) eqn:E; [apply path_eqb_eq in E as ->; tauto|apply path_eqb_neq in E; left; auto]. }
  destruct rm; cbn [negb] in H; [|injection H as <- _ _; auto]. destruct (k_fd k) as [fd|]; [|injection H as <- _ _; auto].
  destruct (findN fd (l_open s1)); [discriminate|]. left. rewrite <- X.
  assert (CL : forall w, l_next (sys_close fd w) = l_next w) by (intro w; unfold sys_close; destruct (findN fd (l_open w)); reflexivity).
  destruct (sys_bind (k_bind k) (k_new k) (l_next s1) (sun_path name) (sys_socket fd s1)) as [s3|] eqn:B.
  2:{ injection H as <- _ _. destruct (sys_remove (k_undo k) name (sys_close fd (sys_socket fd s1))) as [w rw] eqn:RW. cbn [fst].
      apply remove_files in RW as (_ & Y & _). rewrite Y, CL. reflexivity. }
  assert (N3 : l_next s3 = S (l_next s1)).
  { unfold sys_bind in B. destruct (sun_path name); [destruct (k_bind k); [injection B as <-; reflexivity|discriminate]|].
    match type of B with context [file_at ?a ?b] => destruct (file_at a b) end; [discriminate|]. destruct (k_bind k); [injection B as <-; reflexivity|discriminate]. }
  destruct (chown_step k name owner group s3) as [[s4|]|] eqn:C; [| |discriminate].
  2:{ injection H as <- _ _. now rewrite CL. }
  assert (N4 : l_next s4 = l_next s3).
  { unfold chown_step in C. destruct owner; [destruct group|]; try (injection C as <-; reflexivity).
    destruct (k_user k); [|discriminate]. destruct (k_group k); [|discriminate]. injection C as C. unfold sys_chown in C.
    destruct (file_at name (l_files s3)); [|discriminate]. destruct (k_chown k); [injection C as <-; reflexivity|discriminate]. }
  destruct (chmod_step k name mode s4) as [s5|] eqn:M.
  2:{ injection H as <- _ _. rewrite CL. congruence. }
  assert (N5 : l_next s5 = l_next s4).
  { unfold chmod_step in M. destruct (mode =? 0xffffffff); [injection M as <-; reflexivity|]. unfold sys_chmod in M.
    destruct (file_at name (l_files s4)); [|discriminate]. destruct (k_chmod k); [injection M as <-; reflexivity|discriminate]. }
  destruct (sys_listen (k_listen k) (l_next s1) s5) as [s6|] eqn:Ls.
  - injection H as <- _ _. unfold sys_listen in Ls. destruct (k_listen k); [injection Ls as <-|discriminate]. cbn. congruence.
  - injection H as <- _ _. rewrite CL. congruence.
Qed.

(** A listening socket with a file has it from the call that made it. *)
Definition origin (l : list lop) (s0 : lst) (p : path) (id : nat) : Prop :=
  exists l1 k name mode owner group l2 s1 s2, l = l1 ++ LUnix k name mode owner group :: l2 /\ lexec l1 s0 = Some s1
    /\ lstep (LUnix k name mode owner group) s1 = Some s2 /\ l_next s1 = id /\ (l_next s1 < l_next s2)%nat /\ sun_path name = p.
Lemma lexec_app : forall a b s, lexec (a ++ b) s = match lexec a s with Some s' => lexec b s' | None => None end.
Proof. induction a as [|o a IH]; cbn; intros b s; [reflexivity|]. destruct (lstep o s); [apply IH|reflexivity]. Qed.
Lemma tcp_next : forall l s s' b, listen_tcp l s = (s', LRet b) -> (l_next s <= l_next s')%nat.
Proof.
  induction l as [|[[fd ok]|] l IH]; intros s s' b H; cbn [listen_tcp] in H.
  - injection H as <- _. lia.
  - destruct (findN fd (l_open s)); [discriminate|]. destruct ok; [injection H as <- _; cbn; lia|]. apply IH in H.
    unfold sys_close in H. cbn [sys_socket l_open findN] in H. rewrite N.eqb_refl in H. cbn in H. lia.
  - eapply IH; eauto.
Qed.
Lemma step_next : forall o s s', dinv s -> lstep o s = Some s' -> (l_next s <= l_next s')%nat.
Proof.
  intros o s s' I H. destruct o as [k name mode owner group|ok|l|p [[m o]|]]; cbn [lstep] in H.
  - destruct (listen_unix k name mode owner group s) as [[|s1 h] [b| |]] eqn:E; try discriminate. injection H as <-. apply next_new in E as [E|[E _]]; lia.
  - unfold listen_default in H. destruct (memN 0 (l_listeners s)); [injection H as <-; lia|].
    destruct (findN 0 (l_open s)) as [id|]; [|injection H as <-; lia]. destruct ok; injection H as <-; cbn; lia.
  - destruct (listen_tcp l s) as [s1 out] eqn:E. destruct out; try discriminate. injection H as <-. eapply tcp_next; eauto.
  - injection H as <-. cbn. lia.
  - injection H as <-. cbn. lia.
Qed.
(** After one step a socket file is as before, or made by this call. *)
Lemma step_sock : forall o s s' p f id, dinv s -> lstep o s = Some s' -> file_at p (l_files s') = Some f -> f_sock f = Some id ->
  (exists f0, file_at p (l_files s) = Some f0 /\ f_sock f0 = Some id)
  \/ (id = l_next s /\ (l_next s < l_next s')%nat /\ match o with LUnix _ name _ _ _ => sun_path name = p | _ => False end).
Proof.
  intros o s s' p f id I H Fp Fs. destruct o as [k name mode owner group|ok|l|q [[m o]|]]; cbn [lstep] in H.
  - destruct (listen_unix k name mode owner group s) as [[|s1 h] [b| |]] eqn:E; try discriminate. injection H as <-.
    pose proof (listen_unix_spec k name mode owner group s (dinv_next _ I)) as L. rewrite E in L. cbn [fst snd] in L.
    pose proof (next_new _ _ _ _ _ _ _ _ _ E) as NN. clear E.
    inversion L as [| |s2 h1 O Li Ls Fn X Fs' Hf|s2 h1 fd K F O Li Ls Fn X W U A B C D E]; subst; clear L.
    + destruct (Fs' p) as [Q|[[Q1 Q2]|(Q1 & Q0 & _ & (g & Q2 & Q3) & Q4)]].
      * left. exists f. rewrite <- Q. auto.
      * congruence.
      * destruct NN as [NN|[NN Z]].
        -- right. rewrite Q2 in Fp. injection Fp as ->. rewrite Q3 in Fs. injection Fs as <-. split; [reflexivity|]. split; [lia|auto].
        -- left. destruct (Z p) as [Z1|Z1]; [exists f; rewrite <- Z1; auto|congruence].
    + destruct (path_eqb p (sun_path name)) eqn:Ep.
      * apply path_eqb_eq in Ep. destruct name as [|c cs].
        -- change (sun_path []) with (@nil N) in Ep. rewrite Ep, D in Fp by reflexivity. discriminate.
        -- right. assert (N1 : sun_path (c :: cs) <> []) by (intro Z; apply sun_nil in Z; discriminate). specialize (A N1). rewrite Ep, A in Fp. injection Fp as <-.
           cbn in Fs. injection Fs as <-. split; [reflexivity|]. split; [lia|auto].
      * apply path_eqb_neq in Ep. left. destruct (path_eqb p name) eqn:En.
        -- apply path_eqb_eq in En. subst p. rewrite B in Fp by congruence. discriminate.
        -- apply path_eqb_neq in En. rewrite C in Fp by auto. eauto.
  - destruct (listen_default ok s) as [s1 out] eqn:E. destruct out; try discriminate. injection H as <-. apply default_inv in E as (_ & E & _); auto. rewrite E in Fp. eauto.
  - destruct (listen_tcp l s) as [s1 out] eqn:E. destruct out; try discriminate. injection H as <-. apply tcp_inv in E as (_ & E & _); auto. rewrite E in Fp. eauto.
  - injection H as <-. cbn [set_files l_files] in Fp. rewrite at_put in Fp. destruct (path_eqb q p); [injection Fp as <-; discriminate|eauto].
  - injection H as <-. cbn [set_files l_files] in Fp. rewrite at_drop in Fp. destruct (path_eqb q p); [discriminate|eauto].
Qed.

(** Socket files have different sockets, each below the next number. *)
Definition sinv (s : lst) : Prop :=
  (forall p f id, file_at p (l_files s) = Some f -> f_sock f = Some id -> (id < l_next s)%nat)
  /\ (forall p q f g id, file_at p (l_files s) = Some f -> file_at q (l_files s) = Some g -> f_sock f = Some id -> f_sock g = Some id -> p = q).
Lemma sinv_init : forall files zero, sinv (l_init files zero).
Proof.
  intros files zero. assert (Z : forall p f, file_at p (l_files (l_init files zero)) = Some f -> f_sock f = None).
  { intros p f H. cbn in H. induction files as [|[q [m o]] l IH]; cbn in H; [discriminate|]. destruct (path_eqb q p); [injection H as <-; reflexivity|auto]. }
  split; [intros p f id H1 H2|intros p q f g id H1 _ H2 _]; apply Z in H1; congruence.
Qed.
Lemma sinv_step : forall o s s', dinv s -> sinv s -> lstep o s = Some s' -> sinv s'.
Proof.
  intros o s s' I [S1 S2] H. pose proof (step_next o s s' I H) as Nx. split.
  - intros p f id H1 H2. destruct (step_sock o s s' p f id I H H1 H2) as [(f0 & A & B)|(-> & A & _)]; [pose proof (S1 p f0 id A B); lia|lia].
  - intros p q f g id H1 H2 H3 H4.
    destruct (step_sock o s s' p f id I H H1 H3) as [(f0 & A & B)|(A & _ & B)]; destruct (step_sock o s s' q g id I H H2 H4) as [(g0 & C & D)|(C & _ & D)].
    + eauto.
    + pose proof (S1 p f0 id A B). lia.
    + pose proof (S1 q g0 id C D). lia.
    + destruct o; try contradiction. congruence.
Qed.
Lemma sinv_exec : forall l s s', dinv s -> sinv s -> lexec l s = Some s' -> sinv s'.
Proof.
  induction l as [|o l IH]; cbn; intros s s' I S H; [injection H as <-; exact S|]. destruct (lstep o s) as [s1|] eqn:E; [|discriminate].
  apply (IH s1 s'); [exact (lstep_inv _ _ _ I E)|exact (sinv_step _ _ _ I S E)|exact H].
Qed.

Lemma connect_inv : forall fd ok abstract name s s' fd' id, connect_unix fd ok abstract name s = (s', CConn fd' id) -> name <> [] ->
  fd = Some fd' /\ findN fd' (l_open s) = None /\ l_open s' = (fd', l_next s) :: l_open s /\ In id (l_listening s)
  /\ exists f, file_at (sun_path name) (l_files s) = Some f /\ f_sock f = Some id.
Proof.
  intros fd ok abstract name s s' fd' id H Nn. unfold connect_unix in H. destruct fd as [fd|]; [|discriminate].
  destruct (findN fd (l_open s)) eqn:F; [discriminate|]. destruct (sys_connect ok abstract (sun_path name) (sys_socket fd s)) as [i|] eqn:C; [|discriminate].
  injection H as <- <- <-. repeat split; auto; unfold sys_connect in C; cbn [l_files l_listening sys_socket] in C;
    destruct (sun_path name) as [|c cs] eqn:SP; try (apply sun_nil in SP; contradiction);
    destruct (file_at (c :: cs) (l_files s)) as [f|] eqn:Fa; try discriminate; destruct (f_sock f) as [j|] eqn:Fs; try discriminate;
    destruct (ok && existsb (Nat.eqb j) (l_listening s)) eqn:O; try discriminate; injection C as <-.
  - apply andb_true_iff in O as [_ O]. apply existsb_exists in O as (x & X1 & X2). apply Nat.eqb_eq in X2. now subst.
  - exists f. auto.
Qed.

Lemma origin_of : forall l s0 s p f id, dinv s0 -> lexec l s0 = Some s -> file_at p (l_files s) = Some f -> f_sock f = Some id ->
  (exists f0, file_at p (l_files s0) = Some f0 /\ f_sock f0 = Some id) \/ origin l s0 p id.
Proof.
  intros l. induction l as [|o l IH] using rev_ind; intros s0 s p f id I H Fp Fs.
  - injection H as <-. eauto.
  - rewrite lexec_app in H. destruct (lexec l s0) as [s1|] eqn:E; [|discriminate]. cbn in H. destruct (lstep o s1) as [s2|] eqn:St; [|discriminate]. injection H as <-.
    assert (I1 : dinv s1) by (eapply lexec_inv; eauto).
    destruct (step_sock o s1 s2 p f id I1 St Fp Fs) as [(f0 & A & B)|(A & Lt & B)].
    + destruct (IH s0 s1 p f0 id I E A B) as [Y|(l1 & k & name & mode & owner & group & l2 & w1 & w2 & Q & R)]; [left; exact Y|].
      right. exists l1, k, name, mode, owner, group, (l2 ++ [o]), w1, w2. split; [rewrite Q, <- app_assoc; reflexivity|exact R].
    + destruct o as [k name mode owner group| | |]; try contradiction. right. exists l, k, name, mode, owner, group, [], s1, s2. repeat split; auto.
Qed.

(** A socket that is closed is never heard again. *)
Lemma deaf_step : forall o s s' id, dinv s -> lstep o s = Some s' -> (id < l_next s)%nat -> (forall fd, ~ In (fd, id) (l_open s)) ->
  forall fd, ~ In (fd, id) (l_open s').
Proof.
  intros o s s' id I H Lt Nf. destruct o as [k name mode owner group|ok|l|p [[m o]|]]; cbn [lstep] in H.
  - pose proof (listen_unix_spec k name mode owner group s (dinv_next _ I)) as L.
    destruct (listen_unix k name mode owner group s) as [h out]. cbn [fst snd] in L.
    destruct L as [|s1 h1 _ _ _ _|s1 h1 O L Ls Fn X _ _|s1 h1 fd _ F O L Ls Fn X _ _ _ _ _ _ _]; try discriminate; injection H as <-; rewrite O.
    + exact Nf.
    + intros fd' [[= _ E]|G]; [lia|exact (Nf _ G)].
  - unfold listen_default in H. destruct (memN 0 (l_listeners s)); [injection H as <-; exact Nf|].
    destruct (findN 0 (l_open s)) as [i|]; [|injection H as <-; exact Nf]. destruct ok; injection H as <-; exact Nf.
  - destruct (listen_tcp l s) as [s1 [b| |]] eqn:E; try discriminate. injection H as <-. revert s b I E Lt Nf. induction l as [|[[fd ok]|] l IH]; intros s b I H Lt Nf; cbn [listen_tcp] in H.
    + injection H as <- _. exact Nf.
    + destruct (findN fd (l_open s)) eqn:F; [discriminate|]. destruct ok.
      * injection H as <- _. cbn. intros fd' [[= _ E]|G]; [lia|exact (Nf _ G)].
      * rewrite close_fresh in H by (auto using dinv_next). refine (IH _ b _ H _ _); cbn; [apply (dinv_same s); cbn; auto|lia|exact Nf].
    + eapply IH; eauto.
  - injection H as <-. exact Nf.
  - injection H as <-. exact Nf.
Qed.
Lemma deaf : forall l s s' id, dinv s -> lexec l s = Some s' -> (forall fd, ~ In (fd, id) (l_open s)) -> (id < l_next s)%nat -> In id (l_listening s') -> False.
Proof.
  induction l as [|o l IH]; cbn; intros s s' id I H Nf Lt Hd.
  - injection H as <-. destruct (di_heard _ I _ Hd) as (fd & A & _). exact (Nf _ A).
  - destruct (lstep o s) as [s1|] eqn:E; [|discriminate]. apply (IH s1 s' id); eauto using lstep_inv, deaf_step. pose proof (step_next _ _ _ I E). lia.
Qed.

Lemma connect_only : forall l files zero s fd ok abstract name s' fd' id,
  lexec l (l_init files zero) = Some s -> connect_unix fd ok abstract name s = (s', CConn fd' id) -> name <> [] ->
  In id (l_listening s) /\ l_open s' = (fd', l_next s) :: l_open s
  /\ exists l1 k name0 mode owner group l2 s1 s2 h, l = l1 ++ LUnix k name0 mode owner group :: l2
     /\ lexec l1 (l_init files zero) = Some s1 /\ listen_unix k name0 mode owner group s1 = (s2 :: h, LRet true)
     /\ l_next s1 = id /\ sun_path name0 = sun_path name.
Proof.
  intros l files zero s fd ok abstract name s' fd' id X H Nn. destruct (connect_inv _ _ _ _ _ _ _ _ H Nn) as (_ & _ & O & Hd & f & Fp & Fs).
  split; [exact Hd|]. split; [exact O|].
  destruct (origin_of l (l_init files zero) s _ f id (dinv_init files zero) X Fp Fs) as [(f0 & A & B)|(l1 & k & name0 & mode & owner & group & l2 & s1 & s2 & Q & E1 & St & Nx & Lt & Sp)].
  - exfalso. assert (N0 : forall p f, file_at p (l_files (l_init files zero)) = Some f -> f_sock f = None).
    { clear. intros p f H. cbn in H. induction files as [|[q [m o]] l IH]; cbn in H; [discriminate|]. destruct (path_eqb q p); [injection H as <-; reflexivity|auto]. }
    apply N0 in A. congruence.
  - cbn [lstep] in St. destruct (listen_unix k name0 mode owner group s1) as [[|w h] [b| |]] eqn:E; try discriminate. injection St as ->.
    assert (I1 : dinv s1) by (eapply lexec_inv; [apply dinv_init|exact E1]).
    exists l1, k, name0, mode, owner, group, l2, s1, s2, h. repeat split; auto. destruct b; [exact E|]. exfalso.
    pose proof (listen_unix_spec k name0 mode owner group s1 (dinv_next _ I1)) as L. rewrite E in L. cbn [fst snd] in L.
    inversion L as [| |x y Ox Li Lsx Fnx Nxx Fsx Hfx|]; subst; clear L.
    assert (I2 : dinv s2) by (apply (lstep_inv (LUnix k name0 mode owner group) s1); [exact I1|cbn; now rewrite E]).
    rewrite lexec_app, E1 in X. cbn [lexec] in X. cbn [lstep] in X. rewrite E in X.
    pose proof (next_new _ _ _ _ _ _ _ _ _ E) as [NN|[NN Z]].
    + apply (deaf l2 s2 s (l_next s1) I2 X); [|lia|exact Hd]. rewrite Ox. intros fd0 G. apply (di_next _ I1) in G. lia.
    + lia.
Qed.

(** A name that is taken over: nothing leads to the first socket any more. *)
Lemma gone : forall l s s' id, dinv s -> lexec l s = Some s' -> (id < l_next s)%nat -> (forall p f, file_at p (l_files s) = Some f -> f_sock f <> Some id) ->
  forall p f, file_at p (l_files s') = Some f -> f_sock f <> Some id.
Proof.
  induction l as [|o l IH]; cbn; intros s s' id I H Lt Nf; [injection H as <-; exact Nf|]. destruct (lstep o s) as [s1|] eqn:E; [|discriminate].
  apply (IH s1 s' id); eauto using lstep_inv; [pose proof (step_next _ _ _ I E); lia|].
  intros p f Fp Fs. destruct (step_sock o s s1 p f id I E Fp Fs) as [(f0 & A & B)|(A & _)]; [exact (Nf _ _ A B)|lia].
Qed.
Lemma taken_over : forall l s id name k mode owner group s1 h l2 s2 f,
  lreach l s -> file_at name (l_files s) = Some f -> f_sock f = Some id -> In id (l_listening s) ->
  listen_unix k name mode owner group s = (s1 :: h, LRet true) -> lexec l2 s1 = Some s2 ->
  In id (l_listening s2) /\ forall fd ok abstract other s' fd', other <> [] -> connect_unix fd ok abstract other s2 <> (s', CConn fd' id).
Proof.
  intros l s id name k mode owner group s1 h l2 s2 f R Fp Fs Hd H X. apply lreach_inv in R as I.
  assert (S : sinv s) by (destruct R as (files & zero & R); exact (sinv_exec l _ s (dinv_init files zero) (sinv_init files zero) R)).
  assert (St : lstep (LUnix k name mode owner group) s = Some s1) by (cbn; now rewrite H).
  assert (I1 : dinv s1) by (exact (lstep_inv _ _ _ I St)). destruct S as [S1 S2].
  split.
  - assert (G : forall l s s', dinv s -> lexec l s = Some s' -> incl (l_listening s) (l_listening s')).
    { clear. induction l as [|o l IH]; cbn; intros s s' I H; [injection H as <-; apply incl_refl|]. destruct (lstep o s) as [s1|] eqn:E; [|discriminate].
      eapply incl_tran; [eapply step_heard; eauto|]. eapply IH; eauto using lstep_inv. }
    apply (G l2 s1 s2 I1 X). apply (step_heard _ _ _ I St). exact Hd.
  - intros fd ok abstract other s' fd' No C. apply connect_inv in C as (_ & _ & _ & _ & g & Gp & Gs); [|exact No].
    revert Gs. apply (gone l2 s1 s2 id I1 X) with (p := sun_path other); [|clear g Gp|exact Gp].
    + pose proof (step_next _ _ _ I St). pose proof (S1 _ _ _ Fp Fs). lia.
    + intros p g Gp Gs. destruct (step_sock _ _ _ p g id I St Gp Gs) as [(g0 & A & B)|(A & _)]; [|pose proof (S1 _ _ _ Fp Fs); lia].
      assert (p = name) by eauto. subst p.
      pose proof (listen_unix_spec k name mode owner group s (dinv_next _ I)) as L. rewrite H in L. cbn [fst snd] in L.
      inversion L as [| | |s0 h1 fd1 K F1 O Li Ls Fn Nx W U A1 B1 C1 D1 E1]; subst. clear L.
      destruct (path_eqb (sun_path name) name) eqn:E.
      * apply path_eqb_eq in E. destruct name as [|c cs]; [rewrite D1 in Gp by reflexivity; discriminate|]. rewrite E in A1. rewrite A1 in Gp by discriminate.
        injection Gp as <-. cbn in Gs. injection Gs as Gs. pose proof (S1 _ _ _ Fp Fs). lia.
      * apply path_eqb_neq in E. rewrite B1 in Gp by exact E. discriminate.
Qed.
Lemma connect_failed : forall fd ok abstract name s s', ~ In (l_next s) (l_listening s) -> connect_unix fd ok abstract name s = (s', CInvalid) ->
  l_open s' = l_open s /\ l_files s' = l_files s /\ l_listening s' = l_listening s /\ l_listeners s' = l_listeners s /\ l_filenames s' = l_filenames s.
Proof.
  intros fd ok abstract name s s' N H. unfold connect_unix in H. destruct fd as [fd|]; [|injection H as <-; auto].
  destruct (findN fd (l_open s)) eqn:F; [discriminate|]. destruct (sys_connect _ _ _ _); [discriminate|]. injection H as <-.
  rewrite close_fresh by auto. cbn. auto.
Qed.
Lemma connect_fails : forall l s fd ok abstract name s', lreach l s -> connect_unix fd ok abstract name s = (s', CInvalid) ->
  l_open s' = l_open s /\ l_files s' = l_files s /\ l_listening s' = l_listening s /\ l_listeners s' = l_listeners s /\ l_filenames s' = l_filenames s.
Proof. intros l s fd ok abstract name s' R. apply connect_failed, dinv_next, (lreach_inv l). exact R. Qed.
