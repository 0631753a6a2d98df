(** C43: the body of an email as the server gets it. *)
From Coq Require Import String List NArith Bool Arith.
From Verif Require Import Model.Base Model.Mailer Spec.MailerSpec Spec.MailerCases Proofs.MailerProofs Proofs.MailDataProofs.
Import ListNotations.

(** When an email has been handed over, what was sent between the server's
    answers to DATA is its body and the end of data, and a server has made the
    body of it again just when no line begins with a dot. *)
Theorem C43_body : forall origin s e l1 l2, mreachable origin s -> x_log s = l1 ++ LPurged e :: l2 ->
  exists h d q t, conv l1 = h ++ Said (command (lit "DATA")) :: Heard d :: t ++ [Heard q] /\ answers "354 " d /\ answers "250 " q /\
    heard t = [] /\ said t = concat (m_body e) ++ [13; 10; 46; 13; 10]%N /\
    (receive_data true (said t) = Some (concat (m_body e) ++ [13; 10]%N, []) <-> dotted true (concat (m_body e)) = false).
Proof. exact body_sent. Qed.
Print Assumptions C43_body.

(** What comes behind the first line of a single dot is not data for the
    server but commands, whatever it is. *)
Theorem C43_rest_refuted : forall a b, dotted true a = false ->
  receive_data true (a ++ [13; 10; 46; 13; 10] ++ b)%N = Some (a ++ [13; 10], b)%N.
Proof. exact data_ends. Qed.
Print Assumptions C43_rest_refuted.

(** A dot at the beginning of a line is lost. *)
Theorem C43_dot_refuted : exists s e, mreachable (lit "me") s /\ purged (x_log s) = [e] /\
  concat (m_body e) = (lit "a" ++ [13; 10; 46] ++ lit "b")%N /\
  receive_data true (concat (m_body e) ++ [13; 10; 46; 13; 10]%N) = Some (lit "a" ++ [13; 10] ++ lit "b" ++ [13; 10], [])%N.
Proof. exact dot_lost. Qed.
Print Assumptions C43_dot_refuted.

(** Part of a body is taken for a command. *)
Theorem C43_smuggled_refuted : exists s e, mreachable (lit "me") s /\ purged (x_log s) = [e] /\
  receive_data true (concat (m_body e) ++ [13; 10; 46; 13; 10]%N) =
  Some (lit "a" ++ [13; 10], lit "MAIL FROM: <x@y>" ++ [10; 13; 10; 46; 13; 10])%N.
Proof. exact cut_short. Qed.
Print Assumptions C43_smuggled_refuted.

(** A body of several lines, none beginning with a dot, arrives. *)
Example C43_ex : exists s, mreachable (lit "me") s /\ purged (x_log s) = [T0] /\ dotted true (concat (m_body T0)) = false /\
  receive_data true (concat (m_body T0) ++ [13; 10; 46; 13; 10]%N) = Some (concat (m_body T0) ++ [13; 10]%N, []).
Proof.
  exists (at_end (talk T0 good)); split; [apply at_end_reach; vm_compute; reflexivity|].
  split; [vm_compute; reflexivity|]; split; vm_compute; reflexivity.
Qed.
