(** The poll list. *)
From Coq Require Import List NArith Bool Lia Arith.
From Verif Require Import Model.PollList Spec.PollSpec.
Import ListNotations.
Local Open Scope N_scope.

Lemma mem_in : forall fd l, existsb (N.eqb fd) l = true <-> In fd l.
Proof.
  intros. rewrite existsb_exists. split.
  - intros (x & I & E). apply N.eqb_eq in E. now subst.
  - intros I. exists fd. split; [exact I|apply N.eqb_refl].
Qed.
Lemma mem_not : forall fd l, existsb (N.eqb fd) l = false <-> ~ In fd l.
Proof. intros. rewrite <- mem_in. destruct (existsb _ l); split; congruence. Qed.

Lemma erase_in : forall l x fd, NoDup l -> (In x (p_erase fd l) <-> In x l /\ x <> fd).
Proof.
  induction l as [|y l IH]; intros x fd ND; cbn; [tauto|]. inversion ND as [|? ? NI ND']; subst.
  destruct (N.eqb_spec y fd) as [->|NE].
  - split; [intros I; split; [now right|intros ->; contradiction]|]. intros ([->|I] & N'); [congruence|exact I].
  - cbn. rewrite IH by auto. intuition congruence.
Qed.
Lemma erase_nodup : forall l fd, NoDup l -> NoDup (p_erase fd l).
Proof.
  induction l as [|y l IH]; intros fd ND; cbn; auto. inversion ND as [|? ? NI ND']; subst.
  destruct (N.eqb_spec y fd); auto. constructor; auto. rewrite erase_in by auto. tauto.
Qed.

Lemma nodup_snoc : forall (l : list N) x, NoDup l -> ~ In x l -> NoDup (l ++ [x]).
Proof.
  induction l as [|y l IH]; intros x ND NI; cbn; [constructor; auto|].
  inversion ND; subst. constructor; [|apply IH; auto; intros I; apply NI; now right].
  rewrite in_app_iff. intros [I|[I|[]]]; [auto|]. subst. apply NI. now left.
Qed.

Lemma call_nodup : forall c l, NoDup l -> NoDup (snd (p_call c l)).
Proof.
  intros [fd|fd] l ND; cbn; unfold p_add, p_del; destruct (existsb _ l) eqn:E; cbn; auto.
  - apply mem_not in E. now apply nodup_snoc.
  - now apply erase_nodup.
Qed.

Lemma call_in : forall c l x, NoDup l ->
  (In x (snd (p_call c l)) <-> c = PAdd x \/ (In x l /\ c <> PDel x)).
Proof.
  intros [fd|fd] l x ND; cbn; unfold p_add, p_del.
  - destruct (existsb _ l) eqn:E; cbn.
    + apply mem_in in E. split; [intros I; right; split; [exact I|discriminate]|].
      intros [H|(I & _)]; [injection H as ->; exact E|exact I].
    + rewrite in_app_iff. cbn. split.
      * intros [I|[->|[]]]; [right; split; [exact I|discriminate]|now left].
      * intros [H|(I & _)]; [injection H as ->; right; now left|now left].
  - destruct (existsb _ l) eqn:E; cbn.
    + rewrite erase_in by auto. split.
      * intros (I & NE). right. split; [exact I|congruence].
      * intros [H|(I & NE)]; [discriminate|]. split; [exact I|congruence].
    + apply mem_not in E. split; [intros I; right; split; [exact I|intros H; injection H as ->; contradiction]|].
      intros [H|(I & _)]; [discriminate|exact I].
Qed.

Lemma calls_snoc : forall cs c l,
  p_calls (cs ++ [c]) l =
  (fst (p_calls cs l) ++ [fst (p_call c (snd (p_calls cs l)))], snd (p_call c (snd (p_calls cs l)))).
Proof.
  induction cs as [|d cs IH]; intros c l; cbn.
  - destruct (p_call c l); reflexivity.
  - destruct (p_call d l) as [b l'] eqn:E. rewrite IH. destruct (p_calls cs l') as [bs l''] eqn:E'. reflexivity.
Qed.

Lemma registered_snoc : forall fd cs c, registered fd (cs ++ [c]) <-> c = PAdd fd \/ (registered fd cs /\ c <> PDel fd).
Proof.
  intros fd cs c. split.
  - intros (b & a & E & N').
    destruct (exists_last (l := PAdd fd :: a)) as (m & z & E2); [discriminate|].
    rewrite E2, app_assoc in E. apply app_inj_tail in E as (-> & ->).
    destruct a as [|x a]; [destruct m; [injection E2 as <-; now left|destruct m; discriminate]|].
    destruct m as [|y m]; [discriminate|]. injection E2 as <- E2. right. split.
    + exists b, m. split; [reflexivity|]. intros I. apply N'. rewrite E2. apply in_or_app. now left.
    + intros ->. apply N'. rewrite E2. apply in_or_app. right. now left.
  - intros [-> |((b & a & -> & N') & NE)].
    + exists cs, []. split; [reflexivity|intros []].
    + exists b, (a ++ [c]). split; [now rewrite <- app_assoc|]. rewrite in_app_iff. intros [I|[I|[]]]; auto.
Qed.

Lemma list_ok : forall cs, NoDup (snd (p_calls cs [])) /\ forall fd, In fd (snd (p_calls cs [])) <-> registered fd cs.
Proof.
  induction cs as [|c cs IH] using rev_ind.
  - cbn. split; [constructor|]. intros fd. split; [intros []|]. intros (b & a & E & _). destruct b; discriminate.
  - destruct IH as (ND & IN). rewrite calls_snoc. cbn [snd]. split; [now apply call_nodup|].
    intros fd. rewrite call_in by auto. rewrite registered_snoc, IN. reflexivity.
Qed.

Lemma results_ok : forall cs c,
  fst (p_calls (cs ++ [c]) []) = fst (p_calls cs []) ++
    [match c with PAdd fd => negb (existsb (N.eqb fd) (snd (p_calls cs []))) | PDel fd => existsb (N.eqb fd) (snd (p_calls cs [])) end].
Proof.
  intros. rewrite calls_snoc. cbn [fst]. f_equal. f_equal.
  destruct c; cbn; unfold p_add, p_del; destruct (existsb _ _); reflexivity.
Qed.

Lemma add_result : forall cs fd b, (exists r, fst (p_calls (cs ++ [PAdd fd]) []) = r ++ [b]) -> (b = true <-> ~ registered fd cs).
Proof.
  intros cs fd b (r & E). rewrite results_ok in E. apply app_inj_tail in E as (_ & <-).
  destruct (list_ok cs) as (_ & IN). rewrite <- IN, <- mem_not. destruct (existsb _ _); cbn; split; congruence.
Qed.
Lemma del_result : forall cs fd b, (exists r, fst (p_calls (cs ++ [PDel fd]) []) = r ++ [b]) -> (b = true <-> registered fd cs).
Proof.
  intros cs fd b (r & E). rewrite results_ok in E. apply app_inj_tail in E as (_ & <-).
  destruct (list_ok cs) as (_ & IN). rewrite <- IN, <- mem_in. reflexivity.
Qed.

(** ** Polling *)
Lemma find_first : forall (f : N -> bool) l fd, find f l = Some fd ->
  exists l1 l2, l = l1 ++ fd :: l2 /\ f fd = true /\ Forall (fun x => f x = false) l1.
Proof.
  induction l as [|x l IH]; intros fd H; [discriminate|]. cbn in H. destruct (f x) eqn:E.
  - injection H as <-. exists [], l. repeat split; auto.
  - destruct (IH fd H) as (l1 & l2 & -> & F & A). exists (x :: l1), l2. repeat split; auto.
Qed.

Lemma poll_right : forall l a, kept a l ->
  match p_poll a l with
  | PNothing => forall fd, ~ ready a fd
  | PEvent fd ev => In fd l /\ ready a fd /\ forall r, a = AEvents r -> ev = r fd
  | PFail => False
  end.
Proof.
  intros l [| | |r] K; cbn in *; auto. destruct (find _ l) as [fd|] eqn:F.
  - apply find_first in F as (l1 & l2 & -> & F & _). apply negb_true_iff, N.eqb_neq in F.
    split; [apply in_or_app; right; now left|]. split; [exact F|]. intros r' E. injection E as <-. reflexivity.
  - destruct K as (fd & I & NZ). pose proof (find_none _ _ F fd I) as Z. cbn in Z.
    apply negb_false_iff, N.eqb_eq in Z. contradiction.
Qed.

(** Before [b] there is [a]: as long as [a] is ready, [b] is not reported. *)
Definition before (a b : N) (l : pollset) : Prop := exists l1 l2, l = l1 ++ l2 /\ In a l1 /\ ~ In b l1.
Lemma find_before : forall a b l r fd, before a b l -> r a <> 0 ->
  find (fun fd => negb (r fd =? 0)) l = Some fd -> fd <> b.
Proof.
  intros a b l r fd (l1 & l2 & -> & IA & NB) RA F. apply find_first in F as (m1 & m2 & E & FT & FF).
  intros ->. 
  assert (In a m1).
  { clear FT. revert l1 IA NB E. induction m1 as [|x m1 IH]; intros l1 IA NB E.
    - destruct l1; [destruct IA|]. cbn in E. injection E as -> _. exfalso. apply NB. now left.
    - destruct l1 as [|y l1]; [destruct IA|]. cbn in E. injection E as -> E. destruct IA as [->|IA]; [now left|].
      right. inversion FF; subst. apply (IH H2 l1); auto. intros I. apply NB. now right. }
  rewrite Forall_forall in FF. specialize (FF a H). apply negb_false_iff, N.eqb_eq in FF. contradiction.
Qed.

Lemma earlier_before : forall a b cs, earlier a b cs -> before a b (snd (p_calls cs [])).
Proof.
  intros a b cs (l1 & l2 & l3 & -> & NE & NR & NA & NB).
  (* after PAdd a and l2: a registered, b not *)
  assert (S0 : In a (snd (p_calls (l1 ++ PAdd a :: l2) [])) /\ ~ In b (snd (p_calls (l1 ++ PAdd a :: l2) []))).
  { destruct (list_ok (l1 ++ PAdd a :: l2)) as (_ & IN). rewrite !IN. split; [|exact NR].
    exists l1, l2. split; [reflexivity|]. intros I. apply NA, in_or_app. now left. }
  destruct (list_ok (l1 ++ PAdd a :: l2)) as (ND0 & _).
  replace (l1 ++ PAdd a :: l2 ++ PAdd b :: l3) with ((l1 ++ PAdd a :: l2) ++ PAdd b :: l3) by now rewrite <- app_assoc.
  assert (NA3 : ~ In (PDel a) l3) by (intros I; apply NA, in_or_app; right; now right).
  clear NA NR. set (p := l1 ++ PAdd a :: l2) in *.
  revert NB NA3. induction l3 as [|c l3 IH] using rev_ind; intros NB NA3.
  - rewrite calls_snoc. cbn [snd]. cbn. unfold p_add. destruct S0 as (S1 & S2). rewrite (proj2 (mem_not _ _) S2). cbn.
    exists (snd (p_calls p [])), [b]. auto.
  - replace (p ++ PAdd b :: l3 ++ [c]) with ((p ++ PAdd b :: l3) ++ [c]) by now rewrite <- app_assoc.
    rewrite calls_snoc. cbn [snd].
    destruct IH as (m1 & m2 & E & IA & NB'); [intros I; apply NB, in_or_app; now left|intros I; apply NA3, in_or_app; now left|].
    rewrite E. destruct c as [fd|fd]; cbn; unfold p_add, p_del.
    + destruct (existsb _ _); cbn; [exists m1, m2; auto|]. exists m1, (m2 ++ [fd]). rewrite app_assoc. auto.
    + destruct (existsb _ _); cbn; [|exists m1, m2; auto].
      assert (NFA : fd <> a) by (intros ->; apply NA3, in_or_app; right; now left).
      assert (EX : exists n1 n2, p_erase fd (m1 ++ m2) = n1 ++ n2 /\ In a n1 /\ ~ In b n1).
      { clear E. revert IA NB'. induction m1 as [|x m1 IH']; intros IA NB'; [destruct IA|]. cbn.
        destruct (N.eqb_spec x fd) as [->|NX].
        - exists m1, m2. split; [reflexivity|]. destruct IA as [IA|IA]; [congruence|]. split; [exact IA|]. intros I. apply NB'. now right.
        - destruct (in_dec N.eq_dec a m1) as [I|NI].
          + destruct IH' as (n1 & n2 & E1 & E2 & E3); [exact I|intros I'; apply NB'; now right|].
            exists (x :: n1), n2. rewrite E1. split; [reflexivity|]. split; [now right|].
            intros [->|I']; [apply NB'; now left|auto].
          + destruct IA as [->|IA]; [|contradiction]. exists [a], (p_erase fd (m1 ++ m2)). split; [reflexivity|].
            split; [now left|]. intros [->|[]]. apply NB'. now left. }
      exact EX.
Qed.

Lemma starved : forall a b cs rs, earlier a b cs -> Forall (fun r => r a <> 0) rs ->
  Forall (fun r => ~ reported b (p_poll (AEvents r) (snd (p_calls cs [])))) rs.
Proof.
  intros a b cs rs E F. apply Forall_impl with (2 := F). intros r RA (ev & H). cbn in H.
  destruct (find _ _) as [fd|] eqn:FD; [|discriminate]. injection H as -> _.
  exact (find_before a b _ r b (earlier_before a b cs E) RA FD eq_refl).
Qed.

(** ** Waiting *)
Lemma waits : forall b l rs, NoDup l -> In b l -> (length l <= length rs)%nat ->
  Forall (fun r => r b <> 0) rs ->
  (* whoever was reported is not ready again *)
  (forall rs1 r rs2 r' fd, rs = rs1 ++ r :: rs2 -> In r' rs2 -> reported fd (p_poll (AEvents r) l) -> fd <> b -> r' fd = 0) ->
  exists r, In r rs /\ reported b (p_poll (AEvents r) l).
Proof.
  intros b l rs ND IB LEN RB ONCE.
  (* invariant: after the polls rs1 (none reporting b), the reported ones are distinct members *)
  assert (INV : forall n, (n <= length rs)%nat ->
     (exists r, In r rs /\ reported b (p_poll (AEvents r) l)) \/
     exists seen, length seen = n /\ NoDup seen /\ incl seen l /\ ~ In b seen /\
       forall fd, In fd seen -> exists r, In r (firstn n rs) /\ reported fd (p_poll (AEvents r) l)).
  { induction n as [|n IH]; intros LE.
    - right. exists []. repeat split; [constructor|intros x []|auto|intros fd []].
    - destruct IH as [X|(seen & L & NS & IS & NB & W)]; [lia|now left|].
      destruct (nth_error rs n) as [r|] eqn:E; [|apply nth_error_None in E; lia].
      apply nth_error_split in E as (rs1 & rs2 & ERS & EL).
      assert (FS : firstn n rs = rs1) by (rewrite ERS, firstn_app, EL, Nat.sub_diag, <- EL, firstn_all; cbn; apply app_nil_r).
      assert (FS1 : firstn (S n) rs = rs1 ++ [r]).
      { rewrite ERS, firstn_app, EL. replace (S n - n)%nat with 1%nat by lia.
        rewrite firstn_all2 by lia. reflexivity. }
      assert (IR : In r rs) by (rewrite ERS; apply in_or_app; right; now left).
      assert (RBr : r b <> 0) by (rewrite Forall_forall in RB; auto).
      pose proof (poll_right l (AEvents r) (ex_intro _ b (conj IB RBr))) as P.
      destruct (p_poll (AEvents r) l) as [|fd ev|] eqn:EP; [exfalso; exact (P b RBr)| |destruct P].
      destruct P as (IL & RD & _). destruct (N.eq_dec fd b) as [->|NE].
      + left. exists r. split; [exact IR|]. now exists ev.
      + right. exists (fd :: seen). split; [cbn; now rewrite L|].
        assert (NI : ~ In fd seen).
        { intros I. destruct (W fd I) as (r0 & I0 & R0). rewrite FS in I0. apply in_split in I0 as (x1 & x2 & EX).
          cbn in RD. apply RD. apply (ONCE x1 r0 (x2 ++ r :: rs2) r fd); auto.
          - rewrite ERS, EX, <- app_assoc. reflexivity.
          - apply in_or_app. right. now left. }
        split; [constructor; auto|]. split; [intros x [<-|I]; auto|]. split; [intros [->|I]; auto|].
        intros x [<-|I].
        * exists r. rewrite FS1. split; [apply in_or_app; right; now left|]. rewrite EP. now exists ev.
        * destruct (W x I) as (r0 & I0 & R0). exists r0. split; [|exact R0]. rewrite FS1, <- FS. apply in_or_app. now left. }
  destruct (INV (length l)) as [X|(seen & L & NS & IS & NB & _)]; [lia|exact X|].
  exfalso. assert (IS' : incl (b :: seen) l) by (intros x [<-|I]; auto).
  pose proof (NoDup_incl_length (NoDup_cons b NB NS) IS'). cbn in H. lia.
Qed.

Lemma waits_calls : forall b cs rs, registered b cs -> (length (snd (p_calls cs [])) <= length rs)%nat ->
  Forall (fun r => r b <> 0) rs ->
  (forall rs1 r rs2 r' fd, rs = rs1 ++ r :: rs2 -> In r' rs2 ->
     reported fd (p_poll (AEvents r) (snd (p_calls cs []))) -> fd <> b -> r' fd = 0) ->
  exists r, In r rs /\ reported b (p_poll (AEvents r) (snd (p_calls cs []))).
Proof.
  intros b cs rs R. destruct (list_ok cs) as (ND & IN). apply waits; [exact ND|now apply IN].
Qed.
