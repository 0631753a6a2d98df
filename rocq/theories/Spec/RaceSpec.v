(** Vocabulary for C76. *)
From Coq Require Import List Bool Arith.
From Verif Require Import Model.Race.
Import ListNotations.

(** What the threads can come to, with any number of handlers and others. *)
Definition treach (c : list thread) : Prop := exists handlers others l, trun l (t_init handlers others) = Some c.

(** The access a thread is about to make; true: it writes. *)
Definition about (t : thread) : option (field * bool) :=
  match t_code t with Read f :: _ => Some (f, false) | Write f :: _ => Some (f, true) | _ => None end.

(** A data race on [f]: two threads about to access it at the same time, one
    of them writing. *)
Definition race (c : list thread) (f : field) (r1 : role) (w1 : bool) (r2 : role) (w2 : bool) : Prop :=
  exists i j t1 t2, i <> j /\ nth_error c i = Some t1 /\ nth_error c j = Some t2
    /\ t_role t1 = r1 /\ t_role t2 = r2 /\ about t1 = Some (f, w1) /\ about t2 = Some (f, w2) /\ (w1 || w2 = true).

(** The races there are: the role and access that lacks a lock, and the other. *)
Definition known_race (f : field) (r1 : role) (w1 : bool) (r2 : role) (w2 : bool) : Prop :=
  match f with
  | FSend => r1 = RIo /\ w1 = false /\ r2 <> RIo /\ w2 = true           (* transmit: m_sendBuffer.empty() *)
  | FStop => r1 = RControl /\ w1 = false /\ r2 <> RControl /\ w2 = true (* resizeThreads: m_stop *)
  | FValid _ => r1 = RIo /\ w1 = true /\ r2 = RHandler /\ w2 = false    (* close; handler: id.m_socket.valid() *)
  | FListeners => r1 = RControl /\ w1 = true /\ r2 = RIo /\ w2 = false  (* listen while polling *)
  | FcWaking => r1 = RControl /\ r2 <> RControl                         (* Curler::stop, terminate: wake *)
  | FsQueue => r1 = RSql /\ w1 = false /\ r2 <> RSql /\ w2 = true       (* SQL handler: m_queue.empty() *)
  | FsConns => r1 = RSql /\ w1 = true /\ r2 <> RSql /\ w2 = false       (* queue: connected() *)
  | _ => False
  end.

(** Data for which there is none. *)
Definition safe (f : field) : bool :=
  match f with
  | FSend | FStop | FValid _ | FListeners | FcWaking | FsQueue | FsConns => false
  | _ => true
  end.

(** What a thread is about to lock or unlock. *)
Definition about_lock (t : thread) : option mutex :=
  match t_code t with Lock m :: _ | LockShared m :: _ | Try m _ _ :: _ => Some m | _ => None end.
Definition about_unlock (t : thread) : option mutex :=
  match t_code t with Unlock m :: _ => Some m | _ => None end.

(** Thread [i] waits for thread [j]: it is about to take a lock that [j] holds
    (for a shared lock, in any way: a waiting writer may be let in first, and
    it waits for whoever holds the lock). *)
Definition blocked_on (t : thread) : option mutex :=
  match t_code t with Lock m :: _ | LockShared m :: _ => Some m | _ => None end.
Definition waits_for (c : list thread) (i j : nat) : Prop :=
  exists t u m, nth_error c i = Some t /\ nth_error c j = Some u /\ blocked_on t = Some m /\ holds m (t_held u) = true.
Inductive waits_chain (c : list thread) : nat -> nat -> Prop :=
| chain_one : forall i j, waits_for c i j -> waits_chain c i j
| chain_more : forall i j k, waits_for c i j -> waits_chain c j k -> waits_chain c i k.
(** Thread [j] waits for nobody and has a step to take. *)
Definition free_to_go (c : list thread) (j : nat) : Prop :=
  (forall k, ~ waits_for c j k) /\ exists ch c', tstep j ch c = Some c'.
