(** Vocabulary for statements about the threads of the manager. *)
From Coq Require Import List NArith Bool Arith.
From Verif Require Import Model.Base Model.RequestMap Model.Manager.
Import ListNotations.

Section Spec.
Context {M : Type}.
Variable begins : M -> bool.
Notation state := (Manager.state M).

(** Some execution leads to [s]. *)
Definition reachable (s : state) : Prop := exists l, exec begins l (st_init M) = Some s.

(** Thread [t] is in a call of the handler of request [o]. *)
Definition in_handler (s : state) (t o : nat) : Prop :=
  exists id, t_base (s_threads s t) = RLock id o \/ t_base (s_threads s t) = RCheck id o \/
             t_base (s_threads s t) = RGot id o \/ t_base (s_threads s t) = RProc id o.

(** Thread [t] has found request [o], holds its lock and is not done with
    it. *)
Definition handles (s : state) (t o : nat) : Prop :=
  match t_base (s_threads s t) with
  | HFound _ (Some o') | RLock _ o' | RCheck _ o' | RGot _ o' | RProc _ o' | HRet _ o' _ | HDrop _ o' | HWant _ o'
  | HErase1 _ o' | HKeep1 _ o' => o' = o
  | _ => False
  end.

(** The request whose memory the next step of the thread uses. *)
Definition uses (s : state) (t o : nat) : Prop :=
  match t_push (s_threads s t) with
  | Some (PMsg _ o' _) => o = o'
  | Some (PBad _ ((_, o') :: _)) => o = o'
  | Some _ => False
  | None =>
      match t_base (s_threads s t) with
      | HFind id => map_find id (s_requests s) = Some o
      | RLock _ o' | RCheck _ o' | RGot _ o' | RProc _ o' | HDrop _ o' | HErase1 _ o' | HErase2 _ o'
      | HKeep1 _ o' | HKeep2 _ o' => o = o'
      | _ => False
      end
  end.

(** Thread [t] has taken the task [id] and is about to look for its request. *)
Definition looking (s : state) (t : nat) (id : rid) : Prop :=
  t_base (s_threads s t) = HPopped id \/ t_base (s_threads s t) = HFind id.

(** Thread [t] is in [push], has queued a message for [id] and not yet the
    task. *)
Definition queueing (s : state) (t : nat) (id : rid) : Prop :=
  t_push (s_threads s t) = Some (PUnlock id) \/ t_push (s_threads s t) = Some (PTasks id).

(** Thread [t] handles [o] and will look at the queue again. *)
Definition will_look (s : state) (t o : nat) : Prop :=
  t_base (s_threads s t) = HFound (o_rid (s_objs s o)) (Some o) \/ in_handler s t o.

(** Thread [t] is about to remove [o]: it was complete or its connection
    closed. *)
Definition removing (s : state) (t o : nat) : Prop :=
  exists id, t_base (s_threads s t) = HRet id o false \/ t_base (s_threads s t) = HWant id o \/
    t_base (s_threads s t) = HErase1 id o \/ t_base (s_threads s t) = HErase2 id o.

(** Messages pushed to and taken from a request. *)
Fixpoint pushed (o : nat) (l : list (event M)) : list M :=
  match l with
  | [] => []
  | EPushed o' m :: l => if Nat.eqb o o' then m :: pushed o l else pushed o l
  | _ :: l => pushed o l
  end.
Fixpoint taken (o : nat) (l : list (event M)) : list M :=
  match l with
  | [] => []
  | ETaken o' m :: l => if Nat.eqb o o' then m :: taken o l else taken o l
  | _ :: l => taken o l
  end.

(** What happened since [s], given the log of now. *)
Definition since (s : state) (l : list (event M)) : list (event M) := skipn (length (s_log s)) l.

(** After each request lost with its connection another one was completed. *)
Definition losses_followed (l : list (event M)) : Prop :=
  forall pre o sk post, l = pre ++ ELost o sk :: post -> exists o', In (EEnded o') post.

(** How a request came into being; management records put in and taken out. *)
Fixpoint begun (o : nat) (l : list (fact M)) : list (rid * M) :=
  match l with
  | [] => []
  | NBegun id m o' :: l => if Nat.eqb o o' then (id, m) :: begun o l else begun o l
  | _ :: l => begun o l
  end.
Fixpoint local_in (l : list (fact M)) : list (M * N) :=
  match l with [] => [] | NLocalIn m sk :: l => (m, sk) :: local_in l | _ :: l => local_in l end.
Fixpoint local_out (l : list (fact M)) : list (M * N) :=
  match l with [] => [] | NLocalOut m sk :: l => (m, sk) :: local_out l | _ :: l => local_out l end.

(** A handler thread that is neither waiting nor leaving. *)
Definition awake (s : state) (t : nat) : Prop :=
  match t_base (s_threads s t) with
  | BOther | HWaiting | HExit1 | HExit2 | HDone => False
  | _ => True
  end.

(** The thread waits for the exclusive lock on the requests. *)
Definition wants_write (s : state) (t : nat) : Prop :=
  t_sig (s_threads s t) = None /\
  match t_push (s_threads s t) with
  | Some (PWant _ _) | Some (PBadWant _) => True
  | Some _ => False
  | None => match t_base (s_threads s t) with HWant _ _ => True | _ => False end
  end.

(** The next step of the thread takes the shared lock on the requests. *)
Definition wants_read (s : state) (t : nat) : Prop :=
  t_sig (s_threads s t) = None /\ t_push (s_threads s t) = None /\
  match t_base (s_threads s t) with
  | HRead | HRead2 => True
  | HPopped id => r_id id <> 0%N
  | _ => False
  end.

(** The thread can go on by itself: with its own code, or because the
    application is done with a message.  Where the shared lock prefers
    writers, readers wait as long as a writer does; [can_go] demands that the
    thread can go on even then. *)
Definition can_go (s : state) (t : nat) : Prop :=
  (exists a s', step begins t a s = Some s' /\ match a with ARun _ | AReturn _ => True | _ => False end) /\
  (wants_read s t -> forall t', ~ wants_write s t').

(** A step of the manager's own code, or the application being done with a
    message: nothing comes from outside. *)
Definition goes_on (s s' : state) : Prop :=
  exists t a, step begins t a s = Some s' /\ match a with ARun _ | AReturn _ => True | _ => False end.

(** [stop] and [terminate] are being called where no code of the manager is
    interrupted. *)
Definition orderly (s : state) : Prop :=
  forall t k, t_sig (s_threads s t) = Some k ->
    t_push (s_threads s t) = None /\
    match t_base (s_threads s t) with BOther | HWaiting | HDone | RProc _ _ => True | _ => False end.

(** The thread has nothing to do. *)
Definition idle (s : state) (t : nat) : Prop :=
  t_sig (s_threads s t) = None /\ t_push (s_threads s t) = None /\
  match t_base (s_threads s t) with BOther | HWaiting | HDone => True | _ => False end.

(** No handler thread is there. *)
Definition deserted (s : state) : Prop :=
  forall t, match t_base (s_threads s t) with BOther | HDone => True | _ => False end.

(** Thread [t] is erasing the requests of the lost connection [sk]. *)
Definition notifying (sk : N) (t : nat) (s : state) : Prop :=
  exists todo, t_push (s_threads s t) = Some (PBad sk todo).

(** [P] holds in [s] and after each step of [l] but the last. *)
Definition throughout (P : state -> Prop) (l : list (nat * action M)) (s : state) : Prop :=
  forall l1 l2 s', l = l1 ++ l2 -> l2 <> [] -> exec begins l1 s = Some s' -> P s'.

(** [P] holds in [s] or after one of the steps of [l]. *)
Definition sometime (P : state -> Prop) (l : list (nat * action M)) (s : state) : Prop :=
  exists l1 l2 s', l = l1 ++ l2 /\ exec begins l1 s = Some s' /\ P s'.
End Spec.
