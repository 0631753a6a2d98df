(** Proofs about the data of an email and cases of the mail sender. *)
From Coq Require Import String List NArith Bool Arith Lia.
From Verif Require Import Model.Base Model.Mailer Spec.MailerSpec Spec.MailerCases Proofs.MailerProofs.
Import ListNotations.

Definition T : list N := [13; 10; 46; 13; 10]%N.

Lemma clean_through : forall n u b st, length b < n -> dotted st b = false -> receive_data st (b ++ T ++ u) = Some (b ++ [13; 10]%N, u).
Proof.
  induction n as [|n IH]; intros u b st L D; [lia|]; destruct b as [|c r]; [destruct st; reflexivity|].
  cbn [dotted] in D; apply orb_false_iff in D as [D1 D2]; cbn [app receive_data]; rewrite D1; destruct r as [|x r].
  - cbn [app T]; destruct (crlf c 13) eqn:C; [unfold crlf in C; rewrite andb_false_r in C; discriminate|].
    reflexivity.
  - cbn [app]; destruct (crlf c x).
    + rewrite IH; [reflexivity|cbn in L; lia|exact D2].
    + change (x :: r ++ T ++ u) with ((x :: r) ++ T ++ u); rewrite IH; [reflexivity|cbn in *; lia|exact D2].
Qed.

Lemma receive_short : forall n s st t u, length s < n -> receive_data st s = Some (t, u) -> length t + length u + 3 <= length s.
Proof.
  induction n as [|n IH]; intros s st t u L H; [lia|]; destruct s as [|c r]; [discriminate|]; cbn [receive_data] in H.
  destruct (st && N.eqb c 46).
  - destruct r as [|x [|y r]]; try discriminate; destruct (crlf x y); [injection H as <- <-; cbn; lia|].
    apply IH in H; [cbn in *; lia|cbn in *; lia].
  - destruct r as [|x r]; [discriminate|]; destruct (crlf c x).
    + destruct (receive_data true r) as [[t' u']|] eqn:E; [|discriminate]; injection H as <- <-; apply IH in E; cbn in *; lia.
    + destruct (receive_data false (x :: r)) as [[t' u']|] eqn:E; [|discriminate]; injection H as <- <-; apply IH in E; cbn in *; lia.
Qed.
Lemma dotted_lost : forall n b st t u, length b < n -> dotted st b = true -> receive_data st (b ++ T) = Some (t, u) ->
  u <> [] \/ length t + 4 <= length (b ++ T).
Proof.
  induction n as [|n IH]; intros b st t u L D H; [lia|]; destruct b as [|c r]; [discriminate|]; cbn [app receive_data] in H; cbn [dotted] in D.
  destruct (st && N.eqb c 46).
  - assert (X : forall t u, receive_data false (r ++ T) = Some (t, u) -> u <> [] \/ length t + 4 <= length ((c :: r) ++ T)).
    { intros t' u' E; apply (receive_short (S (length (r ++ T)))) in E; [|lia]; right; cbn [app length]; lia. }
    destruct r as [|x [|y r]]; cbn [app T] in H.
    + cbn [crlf] in H; injection H as <- <-; left; discriminate.
    + destruct (crlf x 13) eqn:C; [unfold crlf in C; rewrite andb_false_r in C; discriminate|]; auto.
    + destruct (crlf x y); [injection H as <- <-; left; destruct r; discriminate|auto].
  - cbn [orb] in D; destruct r as [|x r]; [discriminate|]; cbn [app] in H; destruct (crlf c x).
    + destruct (receive_data true (r ++ T)) as [[t' u']|] eqn:E; [|discriminate]; injection H as <- <-.
      apply IH in E; [|cbn in L; lia|exact D]; destruct E as [E|E]; [now left|right; cbn [app length]; lia].
    + change (x :: r ++ T) with ((x :: r) ++ T) in H; destruct (receive_data false ((x :: r) ++ T)) as [[t' u']|] eqn:E; [|discriminate]; injection H as <- <-.
      apply IH in E; [|cbn in *; lia|exact D]; destruct E as [E|E]; [now left|right; cbn [app length] in *; lia].
Qed.
Lemma data_intact : forall b, dotted true b = false <-> receive_data true (b ++ [13; 10; 46; 13; 10]%N) = Some (b ++ [13; 10]%N, []).
Proof.
  intros b; split; intros H; [change [13; 10; 46; 13; 10]%N with (T ++ []); apply (clean_through (S (length b))); [lia|exact H]|].
  destruct (dotted true b) eqn:D; [|reflexivity]; apply (dotted_lost (S (length b))) in H; [|lia|exact D]; destruct H as [H|H]; [congruence|].
  rewrite !app_length in H; cbn in H; lia.
Qed.
(** What is said between the server's 354 and its last answer. *)
Lemma said_body : forall l, said (map Said l) = concat l.
Proof. induction l as [|b l IH]; cbn; [reflexivity|]; now rewrite IH. Qed.

(** * Cases *)

Lemma body_sent : forall origin s e l1 l2, mreachable origin s -> x_log s = l1 ++ LPurged e :: l2 ->
  exists h d q t, conv l1 = h ++ Said (command (lit "DATA")) :: Heard d :: t ++ [Heard q] /\ answers "354 " d /\ answers "250 " q /\
    heard t = [] /\ said t = concat (m_body e) ++ [13; 10; 46; 13; 10]%N /\
    (receive_data true (said t) = Some (concat (m_body e) ++ [13; 10]%N, []) <-> dotted true (concat (m_body e)) = false).
Proof.
  intros o s e l1 l2 R E; destruct (purge_means _ _ _ _ _ R E) as (h & m & r & d & q & G & Hm & Hr & Hd & Hq & C).
  exists (h ++ [Said (command (lit "MAIL FROM: <" ++ m_from e ++ lit ">")); Heard m; Said (command (lit "RCPT TO: <" ++ m_to e ++ lit ">")); Heard r]), d, q,
    (map Said (m_body e) ++ [Said ([13; 10] ++ lit "." ++ [13; 10])%N]).
  assert (A : forall l k, said (map Said l ++ [Said k]) = concat l ++ k) by (intros l k; induction l as [|x l IH]; cbn; [now rewrite app_nil_r|]; now rewrite IH, app_assoc).
  assert (B : forall l k, heard (map Said l ++ [Said k]) = []) by (intros l k; induction l as [|x l IH]; cbn; auto).
  repeat split.
  - rewrite C, <- !app_assoc; reflexivity.
  - exact Hd.
  - exact Hq.
  - apply B.
  - apply A.
  - rewrite A; apply data_intact.
  - rewrite A; apply data_intact.
Qed.

Lemma data_ends : forall a b, dotted true a = false ->
  receive_data true (a ++ [13; 10; 46; 13; 10] ++ b)%N = Some (a ++ [13; 10], b)%N.
Proof. intros a b D; apply (clean_through (S (length a))); [lia|exact D]. Qed.

Lemma at_end_reach : forall l, (match run l with Some _ => true | None => false end) = true -> mreachable (lit "me") (at_end l).
Proof. intros l H; exists l; unfold at_end; unfold run in *; destruct (mexec _ l m_init); [reflexivity|discriminate]. Qed.

Lemma dot_lost : exists s e, mreachable (lit "me") s /\ purged (x_log s) = [e] /\ concat (m_body e) = (lit "a" ++ [13; 10; 46] ++ lit "b")%N /\
  receive_data true (concat (m_body e) ++ [13; 10; 46; 13; 10]%N) = Some (lit "a" ++ [13; 10] ++ lit "b" ++ [13; 10], [])%N.
Proof.
  exists (at_end (talk dotmail good)), dotmail; split; [apply at_end_reach; vm_compute; reflexivity|].
  split; [vm_compute; reflexivity|]; split; vm_compute; reflexivity.
Qed.
Lemma cut_short : exists s e, mreachable (lit "me") s /\ purged (x_log s) = [e] /\
  receive_data true (concat (m_body e) ++ [13; 10; 46; 13; 10]%N) = Some (lit "a" ++ [13; 10], lit "MAIL FROM: <x@y>" ++ [10; 13; 10; 46; 13; 10])%N.
Proof.
  exists (at_end (talk evilmail good)), evilmail; split; [apply at_end_reach; vm_compute; reflexivity|]; split; vm_compute; reflexivity.
Qed.

(** ** The sender *)

Lemma blank_undefined : exists s, mreachable (lit "me") s /\ x_pc s = MUndef /\ received (x_log s) = [10%N] /\ ~ bad_junk (x_log s).
Proof.
  exists (at_end [AMail T0; AGo; ANet (arrives [10%N])]); split; [apply at_end_reach; vm_compute; reflexivity|].
  split; [vm_compute; reflexivity|]; split; [vm_compute; reflexivity|].
  unfold bad_junk; vm_compute; intros [H|[H|[H|[]]]]; discriminate.
Qed.
Lemma lost_undefined : exists s, mreachable (lit "me") s /\ x_pc s = MUndef /\ received (x_log s) = (lit "220 hi" ++ [13; 10])%N.
Proof.
  exists (at_end (talk T0 ["220 hi"%string] ++ [AGo; ANet (mkEnv true true [] true 10 [])])); split; [apply at_end_reach; vm_compute; reflexivity|].
  split; vm_compute; reflexivity.
Qed.
Lemma half_line : exists s, mreachable (lit "me") s /\ purged (x_log s) = [T0] /\
  split_lf (received (x_log s)) = (map (fun x => lit x ++ [13%N])%list ["220 hi"; "250-x"; "250-8BITMIME"; "250 y"; "250 ok"; "250 ok"; "354 go"]%string, lit "250 ").
Proof.
  exists (at_end (talk T0 (firstn 7 good) ++ [AGo; ANet (arrives (lit "250 ")); AGo; ANet (mkEnv true true [] true 10 [])])).
  split; [apply at_end_reach; vm_compute; reflexivity|]; split; [vm_compute; reflexivity|].
  vm_compute; reflexivity.
Qed.

Lemma spins_from : forall o v, v_junk v <> 10%N -> forall n l,
  mexec o (idle_turns n v) (mkMS MTop DISCONNECTED SNull [] no_mail [] false false l) =
  Some (mkMS MTop DISCONNECTED SNull [] no_mail [] false false (l ++ repeat (LJunk (v_junk v)) n)).
Proof.
  intros o v J n; induction n as [|n IH]; intros l; [cbn; now rewrite app_nil_r|].
  unfold idle_turns; cbn [repeat concat app]; fold (idle_turns n v).
  cbn [mexec]; unfold mstep at 1; cbn [x_pc x_state]; change (over _) with false; cbn [take in_mail no_mail m_to x_email x_queue].
  unfold mstep at 1; cbn [x_pc take in_mail m_to x_email no_mail x_queue]; unfold handle, listen; cbn [x_email in_mail m_to no_mail andb x_sock x_line without_lf filter app last x_log x_queue x_stop x_term x_state].
  destruct (N.eqb_spec (v_junk v) lf) as [E|E]; [unfold lf in E; contradiction|].
  rewrite IH; do 2 f_equal; now rewrite <- app_assoc.
Qed.
Lemma spins : forall o v n, v_junk v <> 10%N ->
  exists s, mexec o (idle_turns n v) m_init = Some s /\ x_pc s = MTop /\ x_log s = repeat (LJunk (v_junk v)) n.
Proof. intros o v n J; eexists; split; [apply (spins_from o v J n [])|]; split; reflexivity. Qed.
Lemma idle_undefined : exists s, mreachable (lit "me") s /\ x_pc s = MUndef /\ queued (x_log s) = [].
Proof.
  exists (at_end [AGo; ANet (mkEnv false false [] false 10 [])]); split; [apply at_end_reach; vm_compute; reflexivity|]; split; vm_compute; reflexivity.
Qed.
Lemma last_extension : exists s, mreachable (lit "me") s /\ received (x_log s) = concat (map line ["220 hi"; "250-x"; "250 8BITMIME"]%string) /\ x_state s = ERROR /\ x_sock s = SClosed.
Proof.
  exists (at_end (talk T0 ["220 hi"; "250-x"; "250 8BITMIME"]%string)); split; [apply at_end_reach; vm_compute; reflexivity|]; repeat split; vm_compute; reflexivity.
Qed.
Lemma long_greeting : exists s, mreachable (lit "me") s /\ received (x_log s) = line "220-hi" /\ x_state s = ERROR /\ x_sock s = SClosed.
Proof.
  exists (at_end (talk T0 ["220-hi"]%string)); split; [apply at_end_reach; vm_compute; reflexivity|]; repeat split; vm_compute; reflexivity.
Qed.
Lemma injected : exists s e, mreachable (lit "me") s /\ purged (x_log s) = [e] /\ m_to e = (lit "a@b>" ++ [10%N] ++ lit "RCPT TO: <v@w")%list /\
  In (lit "RCPT TO: <v@w>") (fst (split_lf (said (conv (x_log s))))).
Proof.
  exists (at_end (talk spoof good)), spoof; split; [apply at_end_reach; vm_compute; reflexivity|]; split; [vm_compute; reflexivity|]; split; [reflexivity|].
  vm_compute; repeat (try (left; reflexivity); right).
Qed.
Lemma sent_twice : exists s, mreachable (lit "me") s /\ queued (x_log s) = [T0] /\ purged (x_log s) = [T0] /\
  count_occ (list_eq_dec N.eq_dec) (sent_pieces (x_log s)) ([13; 10; 46; 13; 10]%N) = 2.
Proof.
  exists (at_end twice_run); split; [apply at_end_reach; vm_compute; reflexivity|]; repeat split; vm_compute; reflexivity.
Qed.
Lemma dropped : exists s, mreachable (lit "me") s /\ queued (x_log s) = [nobody] /\ x_pc s = MEnd /\ x_term s = false /\ purged (x_log s) = [] /\ conv (x_log s) = [].
Proof.
  exists (at_end [AMail nobody; AMStop; AGo; ANet (mkEnv true true [] false 0 []); AGo]); split; [apply at_end_reach; vm_compute; reflexivity|]; repeat split; vm_compute; reflexivity.
Qed.
Lemma bare_lf : exists s, mreachable (lit "me") s /\ purged (x_log s) <> [] /\ said (firstn 2 (conv (x_log s))) = (lit "EHLO me" ++ [10])%N.
Proof.
  exists (at_end (talk T0 good)); split; [apply at_end_reach; vm_compute; reflexivity|]; split; [vm_compute; discriminate|vm_compute; reflexivity].
Qed.
