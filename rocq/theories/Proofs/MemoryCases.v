(** Executions in which what is kept for a connection or request grows. *)
From Coq Require Import String List NArith ZArith Bool Arith Lia.
From Verif Require Import Model.Base Model.Endian Model.Protocol Model.Block Model.Transceiver Model.RequestMap Model.Streams Model.Environment
  Model.Management Model.Request Model.System
  Spec.EndianSpec Spec.WireSpec Spec.AddressSpec Spec.EnvironmentSpec Spec.RequestSpec Spec.TransceiverSpec Spec.ManagerSpec Spec.SystemSpec
  Proofs.FillProofs Proofs.RequestBodyProofs Proofs.EnvironmentExamples.
From Verif Require Model.Manager.
Import ListNotations.
Import Manager.
Local Open Scope N_scope.

(** * Parameters *)
Definition lang_pair : list N * list N := (lit "HTTP_ACCEPT_LANGUAGE", lit "en").
Definition lang_content : list N := [20; 2] ++ lit "HTTP_ACCEPT_LANGUAGE" ++ lit "en".
Definition lang_record : params_record := mkParams [1; 4; 0; 1; 0; 24; 0; 0] [lang_pair] lang_content [].
Definition lang_message : message := record_message 4 1 lang_content [] 0.

Lemma lang_ok : params_message lang_record lang_message.
Proof.
  split; [|split; [discriminate|split; [|reflexivity]]].
  - split; [|split; [repeat (constructor; [reflexivity|]); constructor|reflexivity]].
    cbn [p_params p_content p_padding lang_record]. rewrite <- (app_nil_r lang_content). apply params_cons; [|unfold var_ok; plain|apply params_nil].
    apply (enc1_ok ("HTTP_ACCEPT_LANGUAGE", "en")%string); cbn; lia.
  - split; [reflexivity|]. split; [reflexivity|]. exists 1, 1, 0, 0, []. reflexivity.
Qed.

Lemma langs : forall n, flat_map languages (values "HTTP_ACCEPT_LANGUAGE" (concat (map p_params (repeat lang_record n)))) = repeat (lit "en") n.
Proof.
  induction n as [|n IH]; [reflexivity|]. unfold values in *. cbn [repeat map concat p_params lang_record app].
  rewrite <- IH. reflexivity.
Qed.

Lemma params_grow : forall vts junk http_time k (U : Type) (A : application U) cfg u n,
  (forall n, length (junk n) = n) -> c_role cfg = 1 \/ c_role cfg = 2 ->
  exists ms st, lives_with vts junk http_time k A cfg u ms st /\
    Forall (fun m => exists content, is_message 4 content m) ms /\ length (e_acceptLanguages (q_env st)) = n.
Proof.
  intros vts junk http_time k U A cfg u n J R.
  exists (repeat lang_message n). eexists. split; [|split].
  - unfold lives_with. refine (params_arrive vts junk http_time k A cfg text_address J text_address_ok
      (repeat lang_record n) (repeat lang_message n) (rq_init u) R eq_refl _ eq_refl eq_refl).
    clear. induction n as [|n IH]; cbn; constructor; [exact lang_ok|exact IH].
  - apply Forall_forall. intros m I. apply repeat_spec in I. subst m. exists lang_content. apply lang_ok.
  - cbn [set_env q_env rq_init env_init describe e_acceptLanguages app]. rewrite langs. apply repeat_length.
Qed.

(** * Messages waiting for a request *)
Section Waiting.
Variable vts : list N -> list N -> list N.
Variable junk : nat -> list N.
Variable http_time : list N -> Z.
Variable k : chars.
Context {U : Type}.
Variable A : application U.
Variable maxPost : N.
Variable u : U.
Notation sys := (System.sys (U := U)).
Notation sexec := (System.sexec vts junk http_time k A maxPost u).
Notation sreach := (SystemSpec.sreach vts junk http_time k A maxPost u).

Definition more : list N := [1; 4; 0; 5; 0; 0; 0; 0].
Definition the_rid : rid := mkRid 1 5.

(** The manager: thread 0 is at [p] of [push], [w] holds the map, [q] waits. *)
Record man_at (p : option (@ppc message)) (w : option nat) (q : list message) (s : state message) : Prop := mkMan {
  ma_thread : s_threads s 0 = mkThread BOther p None;
  ma_waiters : s_waiters s = [];
  ma_tasks : s_tasksLock s = None;
  ma_writer : s_writer s = w;
  ma_readers : s_readers s = [];
  ma_requests : s_requests s = [(the_rid, O)];
  ma_obj : s_objs s 0 = mkObj the_rid true None None q
}.

Ltac man_step := intros; 
  match goal with H : man_at _ _ _ ?s |- _ =>
  let H1 := fresh in let H2 := fresh in let H3 := fresh in let H4 := fresh in let H5 := fresh in let H6 := fresh in let H7 := fresh in
  destruct H as [H1 H2 H3 H4 H5 H6 H7]; destruct s; cbn in H1, H2, H3, H4, H5, H6, H7; subst;
  eexists; split; [unfold step; cbn; rewrite ?H1; cbn; unfold lock_write, touch, bindo; cbn; rewrite ?H7; cbn; reflexivity|];
  constructor; cbn; rewrite ?H1, ?H7; reflexivity end.

Lemma man_push : forall m q s, man_at None None q s ->
  exists s', step begins 0 (APush the_rid m) s = Some s' /\ man_at (Some (PStart the_rid m)) None q s'.
Proof. man_step. Qed.
Lemma man_start : forall m q s, man_at (Some (PStart the_rid m)) None q s ->
  exists s', step begins 0 (ARun 0) s = Some s' /\ man_at (Some (PWant the_rid m)) None q s'.
Proof. man_step. Qed.
Lemma man_want : forall m q s, man_at (Some (PWant the_rid m)) None q s ->
  exists s', step begins 0 (ARun 0) s = Some s' /\ man_at (Some (PFind the_rid m)) (Some 0%nat) q s'.
Proof. man_step. Qed.
Lemma man_find : forall m q s, man_at (Some (PFind the_rid m)) (Some 0%nat) q s ->
  exists s', step begins 0 (ARun 0) s = Some s' /\ man_at (Some (PMsg the_rid 0 m)) (Some 0%nat) q s'.
Proof. man_step. Qed.
Lemma man_msg : forall m q s, man_at (Some (PMsg the_rid 0 m)) (Some 0%nat) q s ->
  exists s', step begins 0 (ARun 0) s = Some s' /\ man_at (Some (PUnlock the_rid)) (Some 0%nat) (q ++ [m]) s'.
Proof. man_step. Qed.
Lemma man_unlock : forall q s, man_at (Some (PUnlock the_rid)) (Some 0%nat) q s ->
  exists s', step begins 0 (ARun 0) s = Some s' /\ man_at (Some (PTasks the_rid)) None q s'.
Proof. man_step. Qed.
Lemma man_tasks : forall q s, man_at (Some (PTasks the_rid)) None q s ->
  exists s', step begins 0 (ARun 0) s = Some s' /\ man_at None None q s'.
Proof. man_step. Qed.

(** A step of the I/O thread in [push] in the whole server. *)
Lemma run_one : forall x p w q s', man_at (Some p) w q (y_man x) ->
  step begins 0 (ARun 0) (y_man x) = Some s' -> (forall id m, p = PFind id m -> id = the_rid) ->
  sstep vts junk http_time k A maxPost u (SMan 0 (ARun 0)) x = Some (Done (with_man s' x)).
Proof.
  intros x p w q s' [H1 H2 H3 H4 H5 H6 H7] ST FI. cbn [sstep]. unfold allowed, sig_at, push_at, base_of. rewrite H1. cbn [t_sig t_push t_base].
  rewrite ST. unfold work, sig_at, push_at, base_of. rewrite H1. cbn [t_sig t_push t_base].
  destruct p; try reflexivity. rewrite (FI _ _ eq_refl), H6. reflexivity.
Qed.

(** The transceiver: at [pc], with [l] unread on connection 1. *)
Record net_at (pc : tpc) (l : list N) (n : trx) : Prop := mkNet {
  na_pc : t_pc n = pc;
  na_queue : t_queue n = [];
  na_sock : t_socks n 1 = mkS true true false l [];
  na_buf : t_bufs n 1 = b_empty
}.

Ltac net_step_tac :=
  match goal with H : net_at _ _ ?n |- _ =>
  let H1 := fresh in let H2 := fresh in let H3 := fresh in let H4 := fresh in
  destruct H as [H1 H2 H3 H4]; destruct n; cbn in H1, H2, H3, H4; subst;
  eexists; split; [cbn; rewrite ?H3; cbn; try unfold receive; do 4 (cbn; rewrite ?H3, ?H4; try unfold read_more; try unfold receive_body); cbn; reflexivity|];
  split; [constructor; cbn; rewrite ?H3, ?H4; reflexivity|cbn; reflexivity] end.

Lemma net_peer : forall n, net_at AtPoll [] n -> exists n', tstep (EPeer 1 more) n = Some (Val n') /\ net_at AtPoll more n' /\ t_msgs n' = t_msgs n.
Proof. intros. net_step_tac. Qed.
Lemma net_poll : forall n, net_at AtPoll more n -> exists n', tstep (EPoll (Some (1, false))) n = Some (Val n') /\ net_at (AtRecv (Some 1)) more n' /\ t_msgs n' = t_msgs n.
Proof. intros. net_step_tac. Qed.
Lemma net_recv : forall n, net_at (AtRecv (Some 1)) more n -> exists n', tstep (ERecv (KGive 8) KAgain) n = Some (Val n') /\ net_at TxTop [] n' /\ t_msgs n' = t_msgs n ++ [MRecord 5 1 (map Some more)].
Proof. intros. net_step_tac. Qed.
Lemma net_done : forall n, net_at TxTop [] n -> exists n', tstep EDone n = Some (Val n') /\ net_at AtPoll [] n' /\ t_msgs n' = t_msgs n.
Proof. intros. net_step_tac. Qed.

Record ready (x : sys) (q : list message) : Prop := mkReady {
  rd_net : net_at AtPoll [] (y_net x);
  rd_man : man_at None None q (y_man x);
  rd_fed : y_fed x = length (t_msgs (y_net x));
  rd_ok : Forall ev_ok (y_tr x)
}.

Lemma reach_step : forall x v x', sreach x -> sstep vts junk http_time k A maxPost u v x = Some (Done x') -> sreach x'.
Proof.
  intros x v x' (l & R) H. exists (l ++ [v]). clear -R H. revert R. generalize (y_init u).
  induction l as [|w l IH]; intros y R; cbn [app System.sexec] in *.
  - injection R as ->. rewrite H. reflexivity.
  - destruct (sstep vts junk http_time k A maxPost u w y) as [[]|]; try discriminate R. apply IH. exact R.
Qed.

Lemma net_one : forall x e n pc l, net_at pc l (y_net x) -> (exists q, man_at None None q (y_man x)) ->
  y_fed x = length (t_msgs (y_net x)) -> match e with ESend _ _ _ => False | _ => True end ->
  tstep e (y_net x) = Some (Val n) ->
  sstep vts junk http_time k A maxPost u (SNet e) x =
    Some (Done (mkSys n (y_man x) (y_fed x) (y_cfg x) (y_rq x) (y_out x) (y_ret x) (y_tr x ++ [e]) (y_sent x) (y_at x))).
Proof.
  intros x e n pc l _ (q & M) F NS T. cbn [sstep].
  assert (IO : io_free x = true) by (unfold io_free, push_at; rewrite (ma_thread _ _ _ _ M); cbn; rewrite F; apply Nat.eqb_refl).
  rewrite IO. unfold net_step. rewrite T. destruct e; try contradiction; reflexivity.
Qed.

Lemma one_more : forall x q, sreach x -> ready x q -> exists x', sreach x' /\ ready x' (q ++ [mkMsg 0 more]).
Proof.
  intros x0 q R [N0 M F OK].
  destruct (net_peer _ N0) as (n1 & T1 & N1 & G1). pose proof (net_one x0 (EPeer 1 more) n1 _ _ N0 (ex_intro _ q M) F I T1) as S1.
  pose proof (reach_step _ _ _ R S1) as R1. set (x1 := mkSys n1 _ _ _ _ _ _ _ _ _) in *.
  assert (F1 : y_fed x1 = length (t_msgs (y_net x1))) by (cbn; rewrite G1; exact F).
  destruct (net_poll _ N1) as (n2 & T2 & N2 & G2). pose proof (net_one x1 (EPoll (Some (1, false))) n2 _ _ N1 (ex_intro _ q M) F1 I T2) as S2.
  pose proof (reach_step _ _ _ R1 S2) as R2. set (x2 := mkSys n2 _ _ _ _ _ _ _ _ _) in *.
  assert (F2 : y_fed x2 = length (t_msgs (y_net x2))) by (cbn; rewrite G2; exact F1).
  destruct (net_recv _ N2) as (n3 & T3 & N3 & G3). pose proof (net_one x2 (ERecv (KGive 8) KAgain) n3 _ _ N2 (ex_intro _ q M) F2 I T3) as S3.
  pose proof (reach_step _ _ _ R2 S3) as R3. set (x3 := mkSys n3 _ _ _ _ _ _ _ _ _) in *.
  destruct (man_push (mkMsg 0 more) q _ M) as (m4 & P4 & M4).
  assert (S4 : sstep vts junk http_time k A maxPost u SFeed x3 =
    Some (Done (mkSys (y_net x3) m4 (S (y_fed x3)) (y_cfg x3) (y_rq x3) (y_out x3) (y_ret x3) (y_tr x3) (y_sent x3) (y_at x3)))).
  { cbn [sstep]. change (y_net x3) with n3. rewrite G3. change (y_fed x3) with (y_fed x2). rewrite F2. change (y_net x2) with n2.
    rewrite nth_error_app2, Nat.sub_diag by reflexivity. cbn [nth_error]. change (y_man x3) with (y_man x0).
    change (push_of (MRecord 5 1 (map Some more))) with (the_rid, mkMsg 0 more). cbn [fst snd]. rewrite P4. reflexivity. }
  pose proof (reach_step _ _ _ R3 S4) as R4. set (x4 := mkSys _ m4 _ _ _ _ _ _ _ _) in *.
  destruct (man_start _ _ _ M4) as (m5 & P5 & M5).
  pose proof (reach_step _ _ _ R4 (run_one x4 _ _ _ _ M4 P5 ltac:(intros ? ? E; discriminate E))) as R5. set (x5 := with_man m5 x4) in *.
  destruct (man_want _ _ _ M5) as (m6 & P6 & M6).
  pose proof (reach_step _ _ _ R5 (run_one x5 _ _ _ _ M5 P6 ltac:(intros ? ? E; discriminate E))) as R6. set (x6 := with_man m6 x5) in *.
  destruct (man_find _ _ _ M6) as (m7 & P7 & M7).
  pose proof (reach_step _ _ _ R6 (run_one x6 _ _ _ _ M6 P7 ltac:(intros ? ? E; injection E; auto))) as R7. set (x7 := with_man m7 x6) in *.
  destruct (man_msg _ _ _ M7) as (m8 & P8 & M8).
  pose proof (reach_step _ _ _ R7 (run_one x7 _ _ _ _ M7 P8 ltac:(intros ? ? E; discriminate E))) as R8. set (x8 := with_man m8 x7) in *.
  destruct (man_unlock _ _ M8) as (m9 & P9 & M9).
  pose proof (reach_step _ _ _ R8 (run_one x8 _ _ _ _ M8 P9 ltac:(intros ? ? E; discriminate E))) as R9. set (x9 := with_man m9 x8) in *.
  destruct (man_tasks _ _ M9) as (ma & Pa & Ma).
  pose proof (reach_step _ _ _ R9 (run_one x9 _ _ _ _ M9 Pa ltac:(intros ? ? E; discriminate E))) as Ra. set (xa := with_man ma x9) in *.
  destruct (net_done _ N3) as (nb & Tb & Nb & Gb).
  assert (Fa : y_fed xa = length (t_msgs (y_net xa))).
  { change (S (y_fed x2) = length (t_msgs n3)). rewrite F2, G3, app_length, Nat.add_1_r. reflexivity. }
  pose proof (net_one xa EDone nb TxTop [] N3 (ex_intro _ _ Ma) Fa I Tb) as Sb.
  pose proof (reach_step _ _ _ Ra Sb) as Rb. set (xb := mkSys nb _ _ _ _ _ _ _ _ _) in *.
  exists xb. split; [exact Rb|]. constructor; [exact Nb|exact Ma| |].
  - change (y_fed xa = length (t_msgs nb)). rewrite Gb. exact Fa.
  - change (Forall ev_ok ((((y_tr x0 ++ [EPeer 1 more]) ++ [EPoll (Some (1, false))]) ++ [ERecv (KGive 8) KAgain]) ++ [EDone])).
    assert (B : bytes_ok more) by (repeat (constructor; [reflexivity|]); constructor).
    rewrite !Forall_app. repeat split; [exact OK|..]; (constructor; [first [exact I|exact B]|constructor]).
Qed.

Definition first : list sev :=
  map SNet [EAccept 1; EPeer 1 [1; 1; 0; 5; 0; 8; 0; 0; 0; 1; 1; 0; 0; 0; 0; 0]; EPoll (Some (1, false)); ERecv (KGive 8) (KGive 8)] ++
  SFeed :: repeat (SMan 0 (ARun 0)) 4 ++ [SNet EDone].

Lemma begun : exists x, sexec first (y_init u) = Some (Done x) /\ ready x [].
Proof.
  eexists. split; [lazy; reflexivity|]. constructor; [constructor; reflexivity|constructor; reflexivity|reflexivity|].
  assert (B : bytes_ok [1; 1; 0; 5; 0; 8; 0; 0; 0; 1; 1; 0; 0; 0; 0; 0]) by (repeat (constructor; [reflexivity|]); constructor).
  repeat (constructor; [first [exact I|exact B]|]). constructor.
Qed.

Lemma grows : forall n, exists x, sreach x /\ ready x (repeat (mkMsg 0 more) n).
Proof.
  induction n as [|n (x & R & D)].
  - destruct begun as (x & R & D). exists x. split; [exists first; exact R|exact D].
  - destruct (one_more x _ R D) as (x' & R' & D'). exists x'. split; [exact R'|].
    change (repeat (mkMsg 0 more) (S n)) with (repeat (mkMsg 0 more) 1 ++ repeat (mkMsg 0 more) n). rewrite <- repeat_app.
    rewrite Nat.add_comm, repeat_app. exact D'.
Qed.

Lemma queue_grows : forall n, exists x o, sreach x /\ Forall ev_ok (y_tr x) /\ map_find the_rid (s_requests (y_man x)) = Some o /\ length (o_queue (s_objs (y_man x) o)) = n.
Proof.
  intro n. destruct (grows n) as (x & R & [N0 M F OK]). exists x, O. split; [exact R|]. split; [exact OK|].
  destruct M as [H1 H2 H3 H4 H5 H6 H7]. rewrite H6, H7. split; [reflexivity|apply repeat_length].
Qed.
End Waiting.

(** A connection with part of a record, and with a request. *)
Section Cases.
Variable vts : list N -> list N -> list N.
Variable junk : nat -> list N.
Variable http_time : list N -> Z.
Variable k : chars.
Context {U : Type}.
Variable A : application U.
Variable maxPost : N.
Variable u : U.

Lemma part_held : exists x : sys (U := U), sreach vts junk http_time k A maxPost u x /\ Forall ev_ok (y_tr x) /\
  b_size (t_bufs (y_net x) 1) = 10%nat /\ b_reserve (t_bufs (y_net x) 1) = 308%nat.
Proof.
  eexists. split; [|split; [|split]].
  - exists (map SNet [EAccept 1; EPeer 1 [1; 4; 0; 5; 1; 44; 0; 0; 3; 1]; EPoll (Some (1, false)); ERecv (KGive 8) (KGive 2)]).
    lazy. reflexivity.
  - assert (B : bytes_ok [1; 4; 0; 5; 1; 44; 0; 0; 3; 1]) by (repeat (constructor; [reflexivity|]); constructor).
    repeat (constructor; [first [exact I|exact B]|]). constructor.
  - reflexivity.
  - reflexivity.
Qed.

Lemma one_request : exists x : sys (U := U), sreach vts junk http_time k A maxPost u x /\ Forall ev_ok (y_tr x) /\
  length (filter (fun p => N.eqb (r_socket (fst p)) 1) (s_requests (y_man x))) = 1%nat.
Proof.
  destruct (begun vts junk http_time k A maxPost u) as (x & R & [N0 M F OK]). exists x.
  split; [exists first; exact R|]. split; [exact OK|]. rewrite (ma_requests _ _ _ _ M). reflexivity.
Qed.
End Cases.
