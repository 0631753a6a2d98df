(** Vocabulary for C83: a mail server that does its part, and what then
    happens. *)
From Coq Require Import String List NArith Bool Arith.
From Verif Require Import Model.Base Model.Mailer Spec.MailerSpec.
Import ListNotations.

(** Emails still to be handed over. *)
Definition unsent (s : mst) : list mail := (if addressed (x_email s) then [x_email s] else []) ++ x_queue s.

(** RFC 5321: the line [l] is a good answer in state [st], when [h] lines have
    been heard on this connection; at most [x] of them go before the server
    has said what it can do. *)
Definition proper (x h : nat) (st : mstate) (l : list N) : Prop :=
  match st with
  | CONNECTED => answers "220 " l
  | EHLO => answers "250-" l /\ (h < x \/ l = lit "250-8BITMIME")
  | EIGHTBIT => answers "250 " l \/ (answers "250-" l /\ h < x)
  | MAIL | RCPT | DUMP => answers "250 " l
  | DATA => answers "354 " l
  | QUIT => answers "221 " l
  | DISCONNECTED | ERROR => False
  end.
(** Behind [line] comes [seg], as part of a good answer that has, with its end,
    at most [k] bytes. *)
Definition continues (k x h : nat) (st : mstate) (line seg : list N) : Prop :=
  exists raw rest, ~ In 10%N raw /\ length raw < k /\ proper x h st (chomp raw) /\ (raw ++ [10])%N = (line ++ seg) ++ rest.

Definition opened (s : mst) : bool := match x_sock s with SOpen => true | _ => false end.
Definition heard_now (s : mst) : nat := length (heard (conv (x_log s))).

(** What the server has said so far on an open connection is the beginning of
    a good answer. *)
Definition good_so_far (k x : nat) (s : mst) : Prop :=
  opened s = true -> exists seg, seg <> [] /\ continues k x (heard_now s) (x_state s) (x_line s) seg.

(** Connections can be made, what is written goes out, and when the connection
    is reported some of a good answer is there.  (A variable without a value
    does not contain a line feed.) *)
Definition serves (k x : nat) (s : mst) (v : menv) : Prop :=
  v_connect v = true /\ v_writes v = [] /\ v_lost v = false /\ v_junk v <> 10%N /\
  (v_mine v = true -> v_read v <> [] /\
     if opened s then continues k x (heard_now s) (x_state s) (x_line s) (v_read v)
     else addressed (x_email s) = true -> continues k x 0 CONNECTED [] (v_read v)).
(** The thread goes on: [n] steps, [w] times poll is woken by somebody else
    while there is a connection. *)
Definition woken (s : mst) (v : menv) : nat := if v_mine v then 0 else if opened s || addressed (x_email s) then 1 else 0.
Inductive goes_on (o : list N) (k x : nat) : mst -> nat -> nat -> mst -> Prop :=
| goes_no : forall s, goes_on o k x s 0 0 s
| goes_go : forall s s1 n w s2, mstep o AGo s = Some s1 -> goes_on o k x s1 n w s2 -> goes_on o k x s (S n) w s2
| goes_net : forall v s s1 n w s2, serves k x s v -> mstep o (ANet v) s = Some s1 -> goes_on o k x s1 n w s2 ->
    goes_on o k x s (S n) (woken s v + w) s2.

(** The thread is running. *)
Definition alive (s : mst) : Prop := x_pc s <> MEnd /\ x_pc s <> MUndef.

Fixpoint connections (l : list mlog) : nat :=
  match l with [] => 0 | LConnect :: l => S (connections l) | _ :: l => connections l end.
(** On the way from [s] by [l] the thread waits for the time of a retry. *)
Definition retries (o : list N) (l : list mact) (s : mst) : Prop := exists l1 l2 s1, l = l1 ++ l2 /\ mexec o l1 s = Some s1 /\ x_pc s1 = MWait.

(** What the server was asked when it answers in the round that starts in [s]. *)
Definition asked (s : mst) : mstate := if opened s then x_state s else CONNECTED.
(** The round from [s] to [s1] went wrong: there was something to send and no
    connection could be made; or the server's answer was not a good one; or it
    was, and the connection is closed although it was neither lost nor done
    with: a write did not go out. *)
Definition failed (v : menv) (s s1 : mst) : Prop :=
  (addressed (x_email s) = true /\ opened s = false /\ v_connect v = false)
  \/ ((opened s = true \/ (addressed (x_email s) = true /\ v_connect v = true)) /\
      exists a l b, x_log s1 = x_log s ++ a ++ LLine l :: b /\
        ((forall x h, ~ proper x h (asked s) l)
         \/ (v_lost v = false /\ opened s1 = false /\ ~ (asked s = QUIT /\ answers "221 " l)))).
