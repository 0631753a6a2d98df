(** Model of [Poll] as built for systems other than Linux (FASTCGIPP_UNIX):
    a vector of [pollfd] and [::poll] (src/poll.cpp 69-144).  With epoll the
    list is in the kernel (Sockets.v, [g_poll]). *)
From Coq Require Import List NArith Bool.
Import ListNotations.
Local Open Scope N_scope.

(** [m_poll]: the descriptors, in order; their events are the same for all,
    their [revents] are written by [::poll]. *)
Definition pollset := list N.

(** poll.cpp 114-131. *)
Definition p_add (fd : N) (l : pollset) : bool * pollset :=
  if existsb (N.eqb fd) l then (false, l) else (true, l ++ [fd]).

(** poll.cpp 138-156: the entry with this descriptor is erased. *)
Fixpoint p_erase (fd : N) (l : pollset) : pollset :=
  match l with
  | [] => []
  | x :: l' => if x =? fd then l' else x :: p_erase fd l'
  end.

(** poll.cpp 135-153. *)
Definition p_del (fd : N) (l : pollset) : bool * pollset :=
  if existsb (N.eqb fd) l then (true, p_erase fd l) else (false, l).

(** What [::poll] comes back with: an error, an interruption, the time is up,
    or the [revents] of each descriptor. *)
Inductive answer := AError | AInterrupted | ATimeout | AEvents (revents : N -> N).

(** Poll::Result, poll.hpp 81-165. *)
Inductive presult :=
| PNothing                       (* a Result that is false *)
| PEvent (fd events : N)
| PFail.                         (* FAIL_LOG *)

(** poll.cpp 69-108. *)
Definition p_poll (a : answer) (l : pollset) : presult :=
  match a with
  | AError => PFail
  | AInterrupted | ATimeout => PNothing
  | AEvents r =>
      match find (fun fd => negb (r fd =? 0)) l with
      | Some fd => PEvent fd (r fd)
      | None => PFail
      end
  end.

(** A call of add or del, poll.cpp 113-157. *)
Inductive pcall := PAdd (fd : N) | PDel (fd : N).
Definition p_call (c : pcall) (l : pollset) : bool * pollset :=
  match c with PAdd fd => p_add fd l | PDel fd => p_del fd l end.
(** A history: the results of the calls and the list at the end. *)
Fixpoint p_calls (cs : list pcall) (l : pollset) : list bool * pollset :=
  match cs with
  | [] => ([], l)
  | c :: cs' =>
      let '(b, l') := p_call c l in
      let '(bs, l'') := p_calls cs' l' in (b :: bs, l'')
  end.
