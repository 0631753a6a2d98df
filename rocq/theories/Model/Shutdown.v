(** The whole server (Model/System.v) with the end of its I/O thread:
    [Transceiver::handler], [stop] and [terminate] (src/transceiver.cpp 75-98)
    as called by [Manager_base::stop] and [terminate] (src/manager.cpp 60-74).

    Simplified: [Manager_base::stop] sets the manager's flag, the
    transceiver's and (sockets.cpp 610-618) [m_accept] in one step.  Other
    threads wait for m_tasksMutex meanwhile; the I/O thread looks at the
    latter two only, and if it sees the first of them alone it either ends, so
    that it does not matter whether connections are accepted, or finds
    connections open and does as if nothing was set.  That it is woken
    is C21.  [start] is not modelled. *)
From Coq Require Import String List NArith ZArith Bool Arith.
From Verif Require Import Model.Base Model.Transceiver Model.RequestMap Model.Streams Model.Environment Model.Management Model.System.
From Verif Require Model.Manager Model.Request.
Import ListNotations.
Import Request.

Section Shutdown.
Variable vts : list N -> list N -> list N.
Variable junk : nat -> list N.
Variable http_time : list N -> Z.
Variable k : chars.
Context {U : Type}.
Variable A : application U.
Variable maxPost : N.
Variable fresh_user : U.

(** [h_conns]: the connections ever accepted; those of them that are valid are
    in [SocketGroup::m_sockets]. *)
Record shut := mkH {
  h_sys : sys (U := U);
  h_conns : list N;
  h_stop : bool;      (* Transceiver::m_stop *)
  h_term : bool;      (* Transceiver::m_terminate *)
  h_accept : bool;    (* SocketGroup::m_accept *)
  h_top : bool;       (* the I/O thread is at transceiver.cpp 80 *)
  h_ended : bool      (* it has left [handler] *)
}.

(** Auxiliary, no counterpart in the code: the state before anything happens.
    *)
Definition h_init : shut := mkH (y_init fresh_user) [] false false true true false.

(** Auxiliary, no counterpart in the code: updates of one part of the state.
    *)
Definition with_sys (y : sys (U := U)) (x : shut) : shut :=
  mkH y (h_conns x) (h_stop x) (h_term x) (h_accept x) (h_top x) (h_ended x).

(** sockets.hpp 385-388: [m_sockets.size()==0]. *)
Definition none_open (x : shut) : bool :=
  forallb (fun s => negb (s_valid (t_socks (y_net (h_sys x)) s))) (h_conns x).

(** What may happen next. *)
Inductive hev :=
| HSys (v : sev)     (* a step of the server *)
| HCheck.            (* the I/O thread looks whether to go on, transceiver.cpp 80 *)

(** What a step changes besides: a connection is accepted (sockets.cpp
    592-600); [transmit] returns (transceiver.cpp 57, 72, 80); [stop] or
    [terminate] is through (manager.cpp 60-74, transceiver.cpp 88-98). *)
Definition mark (v : sev) (x : shut) : shut :=
  match v with
  | SNet (EAccept s) => mkH (h_sys x) (s :: h_conns x) (h_stop x) (h_term x) (h_accept x) (h_top x) (h_ended x)
  | SNet EBack | SNet EDone => mkH (h_sys x) (h_conns x) (h_stop x) (h_term x) (h_accept x) true (h_ended x)
  | SMan t (Manager.ARun _) =>
      match sig_at (h_sys x) t with
      | Some true => mkH (h_sys x) (h_conns x) (h_stop x) true (h_accept x) (h_top x) (h_ended x)
      | Some false => mkH (h_sys x) (h_conns x) true (h_term x) false (h_top x) (h_ended x)
      | None => x
      end
  | _ => x
  end.

(** Whether a step can be made: the network may always do its part, the I/O
    thread only while it is inside the loop, and a connection is accepted only
    while that is wanted (sockets.cpp 589-603). *)
Definition may (v : sev) (x : shut) : bool :=
  match v with
  | SNet (EPeer _ _) => true
  | SNet (EAccept _) => negb (h_ended x) && negb (h_top x) && h_accept x
  | SNet _ => negb (h_ended x) && negb (h_top x)
  | SFeed => negb (h_ended x)
  | _ => true
  end.

(** One step; [None] when it cannot happen. *)
Definition hstep (v : hev) (x : shut) : option (run shut) :=
  match v with
  | HSys v =>
      if may v x then
        match sstep vts junk http_time k A maxPost fresh_user v (h_sys x) with
        | None => None
        | Some r => Some (run_bind r (fun y => Done (with_sys y (mark v x))))
        end
      else None
  | HCheck =>
      if h_top x && negb (h_ended x) && io_free (h_sys x) then
        Some (Done (mkH (h_sys x) (h_conns x) (h_stop x) (h_term x) (h_accept x) false
                      (h_term x || (h_stop x && none_open x))))
      else None
  end.

(** A sequence of steps; [None] when one of them cannot happen.  Auxiliary, no
    counterpart in the code: the execution. *)
Fixpoint hexec (l : list hev) (x : shut) : option (run shut) :=
  match l with
  | [] => Some (Done x)
  | v :: l' =>
      match hstep v x with
      | Some (Done x') => hexec l' x'
      | r => r
      end
  end.
End Shutdown.
