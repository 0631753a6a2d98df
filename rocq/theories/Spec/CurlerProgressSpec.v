(** Vocabulary for C82: how much the HTTP client's thread does, and a network
    that does its part. *)
From Coq Require Import List Bool Arith.
From Verif Require Import Model.Curler Spec.CurlerSpec.
Import ListNotations.

(** Steps of the handler thread. *)
Fixpoint handler_steps (l : list cact) : nat :=
  match l with [] => 0 | AHandler _ :: l => S (handler_steps l) | _ :: l => handler_steps l end.
(** What comes to it: in poll something of the network, and the steps of those
    who call. *)
Definition comes1 (s : cst) (a : cact) : nat :=
  match a with
  | AHandler (EvNet _) => match k_pc s with HPoll => 1 | _ => 0 end
  | AThread _ => 1
  | _ => 0
  end.
Fixpoint comes (conc : nat) (l : list cact) (s : cst) : nat :=
  match l with
  | [] => 0
  | a :: l => comes1 s a + match cstep conc a s with Some s' => comes conc l s' | None => 0 end
  end.

(** The handler goes on alone, and when something of the network is reported
    some request is done. *)
Definition fruitful (e : hev) : Prop := e <> EvNet [].
Inductive runs_on (conc : nat) : cst -> nat -> cst -> Prop :=
| runs_no : forall s, runs_on conc s 0 s
| runs_more : forall s e s1 n s2, (k_pc s = HPoll -> fruitful e) -> handler_step conc e s = Some s1 -> runs_on conc s1 n s2 -> runs_on conc s (S n) s2.
(** Nothing is left for it. *)
Definition idle (conc : nat) (s : cst) : Prop := forall e, (k_pc s = HPoll -> fruitful e) -> handler_step conc e s = None.
