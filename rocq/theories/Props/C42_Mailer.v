(** C42: the mail sender hands over mail. *)
From Coq Require Import String List NArith Bool Arith.
From Verif Require Import Model.Base Model.Mailer Spec.MailerSpec Spec.MailerCases Proofs.MailerProofs Proofs.MailDataProofs.
Import ListNotations.

(** Whatever the network and the callers do, emails that have a recipient are
    dealt with in the order they were queued in, and none is lost: they are
    those handed over, then the one at hand, then those that wait. *)
Theorem C42_order : forall origin s, mreachable origin s ->
  filter addressed (queued (x_log s)) =
  purged (x_log s) ++ (if addressed (x_email s) then [x_email s] else []) ++ filter addressed (x_queue s).
Proof. exact kept_in_order. Qed.
Print Assumptions C42_order.

(** An email is only let go when the lines acted on are, on one connection,
    those by which a server takes it, and all of the email has been sent. *)
Theorem C42_accepted : forall origin s e l1 l2, mreachable origin s -> x_log s = l1 ++ LPurged e :: l2 ->
  handed_over origin e (conv l1).
Proof. exact purge_means. Qed.
Print Assumptions C42_accepted.

(** The lines acted on are the lines the server has sent, unless a line feed
    was found in the variable nothing has been read into. *)
Theorem C42_lines : forall origin s l l1 l2, mreachable origin s -> x_log s = l1 ++ LLine l :: l2 -> ~ bad_junk l1 ->
  heard (conv (l1 ++ [LLine l])) = map chomp (fst (split_lf (received l1))).
Proof. exact lines_true. Qed.
Print Assumptions C42_lines.

(** While the connection is open the conversation on it is the beginning of one
    that hands over an email: the protocol is kept to. *)
Theorem C42_protocol : forall origin s, mreachable origin s -> x_sock s = SOpen ->
  exists e t, handed_over origin e t /\ exists r, conv (x_log s) ++ r = t ++ [Said (command (lit "QUIT"))].
Proof. exact polite. Qed.
Print Assumptions C42_protocol.

(** The thread only ends when told to, by [terminate], or by [stop] and then not
    before everything is handed over. *)
Theorem C42_ends : forall origin a s s', mstep origin a s = Some s' -> x_pc s <> MEnd -> x_pc s' = MEnd ->
  x_term s' = true \/ (x_stop s' = true /\ x_queue s' = [] /\ m_to (x_email s') = []).
Proof. exact ends_when. Qed.
Print Assumptions C42_ends.

Theorem C42_all_sent : forall origin a s s', mreachable origin s -> mstep origin a s = Some s' ->
  x_pc s <> MEnd -> x_pc s' = MEnd -> x_term s' = false ->
  purged (x_log s') = filter addressed (queued (x_log s')).
Proof. exact all_sent. Qed.
Print Assumptions C42_all_sent.

(** An email at the head of the queue is handed over to a server that plays its
    part, in whatever pieces its lines arrive. *)
Theorem C42_delivers : forall o s e q g a b z m r d f sg sa s8 sb sz sm sr sd sf,
  ready e q s -> sends g sg -> Forall2 sends a sa -> sends (lit "250-8BITMIME") s8 -> Forall2 sends b sb -> sends z sz ->
  sends m sm -> sends r sr -> sends d sd -> sends f sf ->
  answers "220 " g -> Forall (answers "250-") a -> ~ In (lit "250-8BITMIME") a -> Forall (answers "250-") b ->
  answers "250 " z -> answers "250 " m -> answers "250 " r -> answers "354 " d -> answers "250 " f ->
  exists s', mexec o (turns (sg ++ concat sa ++ s8 ++ concat sb ++ sz ++ sm ++ sr ++ sd ++ sf)) s = Some s' /\
    purged (x_log s') = purged (x_log s) ++ [e] /\ x_queue s' = q.
Proof. exact delivers. Qed.
Print Assumptions C42_delivers.

(** Until there is a first email the thread never waits: it goes round for as
    long as one likes, each time examining a variable without a value... *)
Theorem C42_idle_refuted : forall o v n, v_junk v <> 10%N ->
  exists s, mexec o (idle_turns n v) m_init = Some s /\ x_pc s = MTop /\ x_log s = repeat (LJunk (v_junk v)) n.
Proof. exact spins. Qed.
Print Assumptions C42_idle_refuted.

(** ...and has no defined behaviour when a line feed is there. *)
Theorem C42_idle_undefined_refuted : exists s, mreachable (lit "me") s /\ x_pc s = MUndef /\ queued (x_log s) = [].
Proof. exact idle_undefined. Qed.
Print Assumptions C42_idle_undefined_refuted.

(** A server that sends an empty line makes the behaviour undefined. *)
Theorem C42_blank_refuted : exists s, mreachable (lit "me") s /\ x_pc s = MUndef /\ received (x_log s) = [10%N] /\ ~ bad_junk (x_log s).
Proof. exact blank_undefined. Qed.
Print Assumptions C42_blank_refuted.

(** So may one that hangs up. *)
Theorem C42_hangup_refuted : exists s, mreachable (lit "me") s /\ x_pc s = MUndef /\ received (x_log s) = (lit "220 hi" ++ [13; 10])%N.
Proof. exact lost_undefined. Qed.
Print Assumptions C42_hangup_refuted.

(** An email may be let go on the beginning of a line, its end never arriving. *)
Theorem C42_half_line_refuted : exists s, mreachable (lit "me") s /\ purged (x_log s) = [T0] /\
  split_lf (received (x_log s)) =
  (map (fun x => lit x ++ [13%N])%list ["220 hi"; "250-x"; "250-8BITMIME"; "250 y"; "250 ok"; "250 ok"; "354 go"]%string, lit "250 ").
Proof. exact half_line. Qed.
Print Assumptions C42_half_line_refuted.

(** A server that names 8BITMIME last is taken for one that does not have it. *)
Theorem C42_last_extension_refuted : exists s, mreachable (lit "me") s /\
  received (x_log s) = concat (map line ["220 hi"; "250-x"; "250 8BITMIME"]%string) /\ x_state s = ERROR /\ x_sock s = SClosed.
Proof. exact last_extension. Qed.
Print Assumptions C42_last_extension_refuted.

(** A greeting of several lines is refused. *)
Theorem C42_long_greeting_refuted : exists s, mreachable (lit "me") s /\
  received (x_log s) = line "220-hi" /\ x_state s = ERROR /\ x_sock s = SClosed.
Proof. exact long_greeting. Qed.
Print Assumptions C42_long_greeting_refuted.

(** A line feed in an address makes a command of what follows. *)
Theorem C42_injection_refuted : exists s e, mreachable (lit "me") s /\ purged (x_log s) = [e] /\
  m_to e = (lit "a@b>" ++ [10%N] ++ lit "RCPT TO: <v@w")%list /\
  In (lit "RCPT TO: <v@w>") (fst (split_lf (said (conv (x_log s))))).
Proof. exact injected. Qed.
Print Assumptions C42_injection_refuted.

(** An email may be sent completely more than once. *)
Theorem C42_twice_refuted : exists s, mreachable (lit "me") s /\ queued (x_log s) = [T0] /\ purged (x_log s) = [T0] /\
  count_occ (list_eq_dec N.eq_dec) (sent_pieces (x_log s)) ([13; 10; 46; 13; 10]%N) = 2.
Proof. exact sent_twice. Qed.
Print Assumptions C42_twice_refuted.

(** An email without a recipient disappears. *)
Theorem C42_dropped_refuted : exists s, mreachable (lit "me") s /\ queued (x_log s) = [nobody] /\ x_pc s = MEnd /\
  x_term s = false /\ purged (x_log s) = [] /\ conv (x_log s) = [].
Proof. exact dropped. Qed.
Print Assumptions C42_dropped_refuted.

(** Commands end with a line feed alone. *)
Theorem C42_crlf_refuted : exists s, mreachable (lit "me") s /\ purged (x_log s) <> [] /\
  said (firstn 2 (conv (x_log s))) = (lit "EHLO me" ++ [10])%N.
Proof. exact bare_lf. Qed.
Print Assumptions C42_crlf_refuted.

(** Two emails, the first handed over, the second at hand behind a server that
    had hung up. *)
Example C42_ex_order : exists s, mexec (lit "me") (AMail T0 :: AMail dotmail :: script good ++ [AGo; ANet (mkEnv false false [] false 0 []); AGo; AGo; ANet (arrives (line "220 hi"))]) m_init = Some s /\
  purged (x_log s) = [T0] /\ x_email s = dotmail /\ x_sock s = SOpen /\
  conv (x_log s) = [Heard (lit "220 hi"); Said (lit "EHLO me" ++ [10%N])].
Proof. eexists; split; [vm_compute; reflexivity|]; repeat split; vm_compute; reflexivity. Qed.

(** An email handed over, and the end. *)
Example C42_ex_sent : exists s, mexec (lit "me") (AMail T0 :: script good ++ [AMStop]) m_init = Some s /\
  x_pc s = MTop /\ exists s', mstep (lit "me") AGo s = Some s' /\ x_pc s' = MEnd /\ x_term s' = false /\ purged (x_log s') = [T0] /\
  exists l1 l2, x_log s = l1 ++ LPurged T0 :: l2 /\ l2 <> [].
Proof.
  eexists; split; [vm_compute; reflexivity|]; split; [reflexivity|]; eexists; split; [vm_compute; reflexivity|].
  repeat split; vm_compute.
  match goal with |- exists a b, ?l = _ /\ _ => exists (firstn 26 l), (skipn 27 l) end; vm_compute; split; [reflexivity|discriminate].
Qed.

(** A line in two pieces. *)
Example C42_ex_pieces : ready T0 [] (mkMS MTop DISCONNECTED SNull [] no_mail [T0] false false [LQueued T0]) /\
  sends (lit "250 ok") [lit "25"; lit "0 ok" ++ [13; 10]]%N.
Proof.
  split; [repeat split; try discriminate|].
  exists (lit "250 ok" ++ [13%N])%list; split; [|reflexivity]; split; [reflexivity|]; split; [|split; [discriminate|repeat constructor; discriminate]].
  vm_compute; intros H; repeat (destruct H as [H|H]; [discriminate|]); exact H.
Qed.
