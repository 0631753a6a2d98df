(** Vocabulary for C79. *)
From Coq Require Import List Bool Arith.
From Verif Require Import Model.Race Model.Signals Spec.RaceSpec.
Import ListNotations.

(** Locks that make a signal harmful to a thread that has one. *)
Definition harmful (m : mutex) : bool :=
  match m with MTasks | MRequests | MQueue _ | MWaking => true | _ => false end.
Definition harmless (t : thread) : Prop := forall m, harmful m = true -> holds m (t_held t) = false.

(** All signals come to threads without these. *)
Fixpoint calm (l : list happening) (c : list thread) : Prop :=
  match l with
  | [] => True
  | e :: l =>
      match e with Sig i _ => forall t, nth_error c i = Some t -> harmless t | Go _ _ => True end
      /\ match sstep e c with Some c => calm l c | None => True end
  end.
Definition calm_reach (c : list thread) : Prop :=
  exists handlers others l, calm l (t_init handlers others) /\ srun l (t_init handlers others) = Some c.

(** Thread [t] cannot go on as long as [u] has its locks. *)
Definition blocks (t u : thread) : Prop :=
  match t_code t with
  | Lock m :: _ => holds m (t_held u) = true
  | LockShared m :: _ => holds_x m (t_held u) = true
  | _ => False
  end.
(** Each thread of [S] is blocked by one of [S] (maybe itself). *)
Definition stuck (c : list thread) (S : list nat) : Prop :=
  forall i, In i S -> exists t j u, nth_error c i = Some t /\ In j S /\ nth_error c j = Some u /\ blocks t u.
(** One of them has the tasks. *)
Definition with_tasks (c : list thread) (S : list nat) : Prop :=
  exists i t, In i S /\ nth_error c i = Some t /\ holds MTasks (t_held t) = true.

(** A signal that comes to thread [i], which has the lock [m], makes a set of
    threads with [i] in it stuck: the signal comes after [l1], [l2] follows. *)
Definition kills (m : mutex) (s : signal) : Prop :=
  exists handlers others l1 c1 i t l2 c2 S,
    srun (map (fun x => Go (fst x) (snd x)) l1) (t_init handlers others) = Some c1
    /\ nth_error c1 i = Some t /\ (forall k, harmful k = true -> holds k (t_held t) = mutex_eqb k m)
    /\ srun (Sig i s :: map (fun x => Go (fst x) (snd x)) l2) c1 = Some c2
    /\ In i S /\ stuck c2 S /\ with_tasks c2 S.
