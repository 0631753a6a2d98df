(** Vocabulary for the poll list. *)
From Coq Require Import List NArith Bool.
From Verif Require Import Model.PollList.
Import ListNotations.
Local Open Scope N_scope.

(** [fd] is registered after [cs]: the last call that names it adds it. *)
Definition named (c : pcall) (fd : N) : Prop := c = PAdd fd \/ c = PDel fd.
Definition registered (fd : N) (cs : list pcall) : Prop :=
  exists before after, cs = before ++ PAdd fd :: after /\ ~ In (PDel fd) after.

(** [::poll] keeps its promise: events are told only if there are any among
    the descriptors it was given. *)
Definition kept (a : answer) (l : pollset) : Prop :=
  match a with
  | AError => False
  | AEvents r => exists fd, In fd l /\ r fd <> 0
  | _ => True
  end.

Definition ready (a : answer) (fd : N) : Prop :=
  match a with AEvents r => r fd <> 0 | _ => False end.

Definition reported (fd : N) (r : presult) : Prop := exists ev, r = PEvent fd ev.

(** [a] was added before [b] and both are registered. *)
Definition earlier (a b : N) (cs : list pcall) : Prop :=
  exists l1 l2 l3, cs = l1 ++ PAdd a :: l2 ++ PAdd b :: l3 /\ a <> b /\
    ~ registered b (l1 ++ PAdd a :: l2) /\
    ~ In (PDel a) (l2 ++ PAdd b :: l3) /\ ~ In (PDel b) l3.
