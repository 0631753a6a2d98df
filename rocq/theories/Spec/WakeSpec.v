(** Vocabulary for statements about wake-ups. *)
From Coq Require Import List Bool Arith.
From Verif Require Import Model.Wake.

(** Some execution leads to [s]. *)
Definition wreachable (s : wst) : Prop := exists l, wexec l w_init = Some s.

(** The I/O thread sleeps in a blocking [epoll_wait] that no wake-up ends. *)
Definition asleep (s : wst) : Prop := w_loop s = LWait true /\ w_bytes s = 0.

(** No thread is inside a call of [send], [stop], [terminate] or [wake]. *)
Definition quiet (s : wst) : Prop := forall t, w_threads s t = KOut.

(** The I/O thread is refreshing the listeners while a [stop] has set
    m_refreshListeners and not yet m_accept. *)
Definition overlap (s : wst) : Prop := (exists b, w_loop s = LFresh b) /\ exists t, w_threads s t = KAccept.

(** That happens nowhere in the run of [l] from [s]. *)
Fixpoint apart (l : list wact) (s : wst) : Prop :=
  ~ overlap s /\
  match l with
  | nil => True
  | cons a l => match wstep a s with Some s' => apart l s' | None => True end
  end.
