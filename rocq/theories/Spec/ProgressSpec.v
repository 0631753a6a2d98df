(** Vocabulary for C80: how much the SQL connection thread does, and a server
    that does its part. *)
From Coq Require Import List Bool Arith.
From Verif Require Import Model.Connection Spec.ConnectionSpec.
Import ListNotations.

(** Steps of the thread. *)
Fixpoint thread_steps (l : list qact) : nat :=
  match l with [] => 0 | AHand _ :: l => S (thread_steps l) | _ :: l => thread_steps l end.
(** What comes to it: events of connections, timeouts, wake-ups, being started. *)
Definition stirs1 (a : qact) : nat :=
  match a with
  | AHand (EEvent _ _ _ _ _ _ _ _ _) | AHand ETimeout | APut _ | AQWake | AStart => 1
  | _ => 0
  end.
Fixpoint stirs (l : list qact) : nat := match l with [] => 0 | a :: l => stirs1 a + stirs l end.

(** libpq and the server do their part: one can log in, queries can be sent,
    and what is reported of a connection is the whole answer to its query. *)
Definition helpful (s : qst) (e : qenv) : Prop :=
  match e with
  | ELogin k => k <> None
  | EDispatch ok _ => ok = true
  | EEvent k i _ _ _ ok _ results complete =>
      i = true /\ ok = true /\ complete = true
      /\ exists c q, lookup k (z_conns s) = Some c /\ n_query c = Some q /\ (y_obj q <> None \/ results = [])
  | ENone | EWake | ETimeout => True
  end.
Inductive served (conc : nat) : qst -> nat -> qst -> Prop :=
| served_no : forall s, served conc s 0 s
| served_more : forall s e s1 n s2, helpful s e -> hstep conc e s = Some s1 -> served conc s1 n s2 -> served conc s (S n) s2.

(** The thread is at work. *)
Definition at_work (s : qst) : Prop :=
  match z_pc s with QTop | QConnect | QSend _ | QPoll => True | _ => False end.
(** Nothing is left to do: the thread sleeps and there is nothing that would
    come from a server that does its part. *)
Definition at_rest (conc : nat) (s : qst) : Prop := forall e, helpful s e -> hstep conc e s = None.
(** What it has to do. *)
Definition pending (s : qst) : list query := z_queue s ++ map snd (flying (z_conns s)).
(** The process has not been ended and nothing is undefined. *)
Definition sane (s : qst) : Prop := match z_pc s with QExit | QUndef => False | _ => True end.
