(** Vocabulary for the SQL connection thread: everything is said of what was
    observed. *)
From Coq Require Import List Bool Arith.
From Verif Require Import Model.Connection.
Import ListNotations.

Definition qreach (conc : nat) (s : qst) : Prop := exists l, qexec conc l q_init = Some s.

Definition queued (l : list qev) : list query := flat_map (fun e => match e with VQueued q => [q] | _ => [] end) l.
Definition completed (l : list qev) : list query := flat_map (fun e => match e with VDone _ q => [q] | _ => [] end) l.
Definition called_back (l : list qev) : list query := flat_map (fun e => match e with VCalled q => [q] | _ => [] end) l.
(** Given up without an answer. *)
Definition given_up (l : list qev) : list query :=
  flat_map (fun e => match e with VFailed q => [q] | VCut _ q => [q] | VCleared q => q | _ => [] end) l.
(** Sent, or given up without having been sent. *)
Definition had_turn (l : list qev) : list query :=
  flat_map (fun e => match e with VSent _ q => [q] | VFailed q => [q] | VCleared q => q | _ => [] end) l.

(** The queue: in at the back, out at the front, put back at the front.
    [None]: something else was taken out. *)
Definition queue_event (q : option (list query)) (e : qev) : option (list query) :=
  match q with
  | None => None
  | Some q =>
      match e with
      | VQueued x => Some (q ++ [x])
      | VBack _ x => Some (x :: q)
      | VSent _ x | VFailed x =>
          match q with
          | y :: r => if (y_id x =? y_id y) then Some r else None
          | [] => None
          end
      | VCleared _ => Some []
      | _ => Some q
      end
  end.
Definition queue_after (l : list qev) : option (list query) := fold_left queue_event l (Some []).

(** The query a connection is busy with. *)
Definition busy_event (k : nat) (b : option query) (e : qev) : option query :=
  match e with
  | VSent k' q => if k =? k' then Some q else b
  | VDone k' _ | VBack k' _ | VCut k' _ => if k =? k' then None else b
  | _ => b
  end.
Definition busy_after (k : nat) (l : list qev) : option query := fold_left (busy_event k) l None.

(** What may be observed behind [l]. *)
Definition proper (l : list qev) (e : qev) : Prop :=
  match e with
  | VSent k q => busy_after k l = None
  | VGot k q _ | VDone k q | VBack k q | VCut k q => busy_after k l = Some q
  | _ => True
  end.

(** The first result that came for a query with this results object. *)
Fixpoint first_result (o : nat) (l : list qev) : option nat :=
  match l with
  | [] => None
  | VGot _ q r :: l => match y_obj q with Some o' => if o =? o' then Some r else first_result o l | None => first_result o l end
  | _ :: l => first_result o l
  end.

(** Is every connection busy? *)
Definition all_busy (s : qst) : Prop := forall k c, lookup k (z_conns s) = Some c -> n_query c <> None.
