(** What C88 says of the log of the HTTP client's thread. *)
From Coq Require Import List Bool Arith ZArith.
From Verif Require Import Model.CurlerMulti.
Import ListNotations.

Definition ureachable (conc : nat) (s : ust) : Prop := exists l, uexec conc l u_init = Some s.

Definition times (e : uev -> bool) (l : list uev) : nat := length (filter e l).
Definition is_start (c : nat) (e : uev) : bool := match e with VStart c' => Nat.eqb c c' | _ => false end.
Definition is_done (c : nat) (e : uev) : bool := match e with VDone _ c' => Nat.eqb c c' | _ => false end.
Definition is_call (c : nat) (e : uev) : bool := match e with VCall c' => Nat.eqb c c' | _ => false end.

(** The thread is about to wait, or looks whether to go on. *)
Definition between (s : ust) : Prop := u_pc s = UTop \/ u_pc s = UPoll.

(** The last libcurl said of a socket is that it is to be watched. *)
Definition asked (fd : Z) (l : list uev) : Prop :=
  exists a w b, l = a ++ VAsk fd w :: b /\ w <> WRemove /\ forall w', ~ In (VAsk fd w') b.

(** A transfer libcurl has not done with. *)
Definition running (c : nat) (l : list uev) : Prop := times (is_done c) l < times (is_start c) l.

(** Inputs of a step. *)
Definition no_signal (a : uact) : Prop := forall j, a <> UThread (ISignal j).
Definition no_queue (a : uact) : Prop := forall c, a <> UQueue c.
Definition no_timeout (a : uact) : Prop := forall j, a <> UThread (ITimeout j).
Definition no_call (a : uact) : Prop := exists i, a = UThread i.
(** A socket reported is not just writable. *)
Definition only_writable (a : uact) : Prop :=
  forall fd r, a = UThread (IEvent fd r) -> is_readable r = false /\ is_hup r = false /\ is_err r = false.
