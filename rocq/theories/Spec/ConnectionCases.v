(** Runs of the SQL connection thread. *)
From Coq Require Import List Bool Arith.
From Verif Require Import Model.Connection Spec.ConnectionSpec.
Import ListNotations.

Definition q_end (conc : nat) (l : list qact) : qst := match qexec conc l q_init with Some s => s | None => q_init end.
Definition possible (conc : nat) (l : list qact) : bool := match qexec conc l q_init with Some _ => true | None => false end.

Definition go := AHand ENone.
(** One connection, with the socket 5; the thread sleeps. *)
Definition up1 : list qact := [go; go; go; AHand (ELogin (Some 5)); AHand (EDispatch true false)].
(** A query is queued and sent. *)
Definition ask1 (o : option nat) : list qact :=
  [AAsk o true; APut 0; AHand EWake; go; AHand (EDispatch true false); go].
(** Results on a connection, and perhaps the end of them. *)
Definition answer (k : nat) (r : list nat) (complete : bool) : qact := AHand (EEvent k true false false false true false r complete).
Definition Q0 : query := mkQ 0 (Some 0) true.
Definition Q1 : query := mkQ 1 (Some 0) true.

Definition run_answered : list qact := up1 ++ ask1 (Some 0) ++ [answer 5 [42] true].
(** Two connections, three queries; the first connection is lost. *)
Definition run_two : list qact :=
  [go; go; go; AHand (ELogin (Some 7)); AHand (ELogin (Some 5)); AHand (EDispatch true false);
   AAsk (Some 0) true; AAsk (Some 1) true; AAsk (Some 2) false; APut 1; APut 0; APut 0; AHand EWake; go;
   AHand (EDispatch true false); AHand (EDispatch true false); go;
   AHand (EEvent 5 false true true false true false [] false); go; AHand (ELogin (Some 6)); AHand (EDispatch true false); AHand (EDispatch true false); go].
(** stop while a query is in flight. *)
Definition run_stop : list qact := up1 ++ ask1 (Some 0) ++ [AQStop; AQWake; AHand EWake; go; go; go].
(** A query that cannot be sent. *)
Definition run_fail : list qact := up1 ++ [AAsk (Some 0) true; APut 0; AHand EWake; go; AHand (EDispatch false false)].
(** The server says something unasked. *)
Definition run_notice : list qact := up1 ++ [answer 5 [] false].
(** A query without a results object. *)
Definition run_bare : list qact := up1 ++ ask1 None ++ [answer 5 [42] true].
(** A result, the connection is lost, the query goes again on another. *)
Definition run_again : list qact :=
  up1 ++ ask1 (Some 0) ++ [answer 5 [1] false; go; AHand (EDispatch true false); go; AHand (EEvent 5 false true true false true false [] false);
    go; AHand (ELogin (Some 6)); AHand (EDispatch true false); go; answer 6 [2] true].
(** Two queries with the same results object. *)
Definition run_reuse : list qact := run_answered ++ [go; AHand (EDispatch true false)] ++ ask1 (Some 0) ++ [answer 5 [43] true].
(** [queue] returns true when the thread has ended. *)
Definition run_late : list qact := up1 ++ [AAsk (Some 0) true; AQTerm; AQWake; AHand EWake; go; go; go; APut 0].
(** The connection is not established. *)
Definition run_connecting : list qact := [go; go; go].
(** A query too long to be sent at once. *)
Definition run_long : list qact := up1 ++ [AAsk (Some 0) true; APut 0; AHand EWake; go; AHand (EDispatch true true); go].
