(** Model of the loop of the HTTP client's thread (src/curler.cpp 35-110) with
    what it has to do with libcurl's multi interface and its poll list: which
    sockets are watched, when the wait has a limit, what libcurl is told when
    the wait ends, and when its messages are read.

    Simplified: libcurl is external; what it does in a call (which transfers
    are done, which sockets it wants watched) is in the input of the step.
    [queue], [stop] and [terminate] are one step each, and so is what the
    thread does with the mutex held (Model/Curler.v has them in pieces); the
    bytes in the wake-up socket are read together.  The thread runs from the
    beginning. *)
From Coq Require Import List Bool Arith ZArith.
From Verif Require Import Model.Curler.
Import ListNotations.

(** What libcurl wants of a socket: CURL_POLL_IN, OUT, INOUT, REMOVE. *)
Inductive want := WIn | WOut | WBoth | WRemove.

(** What libcurl does in one call: transfers it is done with, calls of
    socketCallback. *)
Record react := mkR { r_done : list nat; r_calls : list (Z * want) }.

(** How a socket is. *)
Record ready := mkReady { is_readable : bool; is_writable : bool; is_hup : bool; is_err : bool }.

(** Where the thread is; lines of curler.cpp. *)
Inductive upc :=
| UTop                         (* curler.cpp 42-61 *)
| UPoll                        (* 63-67 *)
| UAct (socket : Z)            (* 86-90 *)
| UMsgs                        (* 91-105 *)
| UEnd                         (* 108 *)
| UFail.                       (* FAIL_LOG *)

(** What can be observed, oldest first. *)
Inductive uev :=
| VStart (c : nat)             (* handed to libcurl, 52 *)
| VDone (first : bool) (c : nat)   (* libcurl is done with it; [first]: in the call at 55 *)
| VAct (socket : Z)            (* libcurl is told of this socket, 86 *)
| VCall (c : nat)              (* its callback is called, 103 *)
| VAsk (socket : Z) (w : want).    (* libcurl calls socketCallback *)

Record ust := mkU {
  u_pc : upc;
  u_queue : list nat;          (* m_queue *)
  u_handles : list nat;        (* m_handles *)
  u_live : list nat;           (* libcurl: transfers not done *)
  u_msgs : list nat;           (* libcurl: done, its message not read *)
  u_count : nat;               (* [handles], 39 *)
  u_poll : list Z;             (* m_poll, without the wake-up socket *)
  u_woken : bool;              (* the wake-up socket is readable *)
  u_stop : bool;
  u_term : bool;
  u_log : list uev
}.

(** Auxiliary, no counterpart in the code: the state before the thread starts.
    *)
Definition u_init : ust := mkU UTop [] [] [] [] 0 [] false false false [].

(** Poll::add and Poll::del: poll.cpp 111-153. *)
Definition watch (fd : Z) (l : list Z) : list Z := if existsb (Z.eqb fd) l then l else l ++ [fd].
Fixpoint unwatch (fd : Z) (l : list Z) : list Z :=
  match l with [] => [] | x :: l' => if Z.eqb fd x then l' else x :: unwatch fd l' end.
(** socketCallback, curler.cpp 110-123: what libcurl wants to wait for is not
    looked at; Poll::add watches for input, hang up and error (poll.cpp 116,
    129). *)
Definition callback (x : Z * want) (l : list Z) : list Z :=
  match snd x with WRemove => unwatch (fst x) l | _ => watch (fst x) l end.
Definition callbacks (cs : list (Z * want)) (l : list Z) : list Z := fold_left (fun l x => callback x l) cs l.
(** The events of poll.cpp 116; hang up and error are always reported. *)
Definition reported (r : ready) : bool := is_readable r || is_hup r || is_err r.

(** Auxiliary, no counterpart in the code: updates of one part of the state.
    *)
Definition at_pc (v : upc) (s : ust) : ust :=
  mkU v (u_queue s) (u_handles s) (u_live s) (u_msgs s) (u_count s) (u_poll s) (u_woken s) (u_stop s) (u_term s) (u_log s).

(** curl_multi_socket_action; [None]: libcurl would not do this.  It sets
    [handles] to the number of transfers running. *)
Definition acts (first : bool) (r : react) (s : ust) : option ust :=
  if nodupb (r_done r) && forallb (fun c => memb c (u_live s)) (r_done r) then
    let live := filter (fun c => negb (memb c (r_done r))) (u_live s) in
    Some (mkU (u_pc s) (u_queue s) (u_handles s) live (u_msgs s ++ r_done r) (length live)
            (callbacks (r_calls r) (u_poll s)) (u_woken s) (u_stop s) (u_term s)
            (u_log s ++ map (fun x => VAsk (fst x) (snd x)) (r_calls r) ++ map (VDone first) (r_done r)))
  else None.

(** Inputs of the thread's steps. *)
Inductive uin :=
| INone
| ILib (r : react)             (* what libcurl does *)
| IWake                        (* poll reports the wake-up socket *)
| IEvent (socket : Z) (r : ready)  (* poll reports this socket, which is so *)
| ITimeout (junk : Z)          (* the time libcurl gave is up *)
| ISignal (junk : Z).          (* poll is interrupted *)
(** [junk]: in the last two cases Poll::Result::m_socket has no value
    (poll.hpp 108-111); this is what is found in its place.  Should it be the
    number of the wake-up socket then, no event being set, lines 70-83 do
    nothing. *)

Definition empty {A} (l : list A) : bool := match l with [] => true | _ => false end.

(** The new ones of [start_some] (Model/Curler.v), 46-55. *)
Definition news (e : list cev) : list nat := flat_map (fun x => match x with EStarted c => [c] | _ => [] end) e.

(** curler.cpp 35-123: the next step of the thread, with what libcurl and the
    kernel answer. *)
Definition thread (conc : nat) (i : uin) (s : ust) : option ust :=
  match u_pc s, i with
  | UTop, _ =>
      if u_term s || (u_stop s && empty (u_queue s) && empty (u_handles s)) then Some (at_pc UEnd s)
      else if negb (empty (u_queue s)) && (length (u_handles s) <? conc) then
        match start_some conc (u_queue s) (u_handles s) [] with
        | None => Some (at_pc UFail s)
        | Some (q, h, e) =>
            match i with
            | ILib r =>
                acts true r (mkU UPoll q h (u_live s ++ news e) (u_msgs s) (u_count s) (u_poll s) (u_woken s) (u_stop s) (u_term s)
                               (u_log s ++ map VStart (news e)))
            | _ => None
            end
        end
      else Some (at_pc UPoll s)
  | UPoll, IWake =>
      if u_woken s
      then Some (mkU UTop (u_queue s) (u_handles s) (u_live s) (u_msgs s) (u_count s) (u_poll s) false (u_stop s) (u_term s) (u_log s))
      else None
  | UPoll, IEvent fd r => if existsb (Z.eqb fd) (u_poll s) && reported r then Some (at_pc (UAct fd) s) else None
  | UPoll, ITimeout j => if u_count s =? 0 then None else Some (at_pc (UAct j) s)
  | UPoll, ISignal j => Some (at_pc (UAct j) s)
  | UAct fd, ILib r =>
      acts false r (mkU UMsgs (u_queue s) (u_handles s) (u_live s) (u_msgs s) (u_count s) (u_poll s) (u_woken s) (u_stop s) (u_term s)
                      (u_log s ++ [VAct fd]))
  | UMsgs, ILib r =>
      match r_done r, u_msgs s with
      | [], [] => Some (at_pc UTop s)
      | [], c :: m =>
          if memb c (u_handles s) then
            Some (mkU UMsgs (u_queue s) (remb c (u_handles s)) (u_live s) m (u_count s) (callbacks (r_calls r) (u_poll s)) (u_woken s)
                    (u_stop s) (u_term s) (u_log s ++ map (fun x => VAsk (fst x) (snd x)) (r_calls r) ++ [VCall c]))
          else Some (at_pc UFail s)
      | _, _ => None
      end
  | _, _ => None
  end.

(** What may happen next: a step of the thread, or something done by libcurl
    or by another thread. *)
Inductive uact :=
| UThread (i : uin)
| UQueue (c : nat)             (* queue, 182-188 *)
| UStop                        (* stop, 151-155 *)
| UTerminate.                  (* terminate, 157-161 *)

Definition ustep (conc : nat) (a : uact) (s : ust) : option ust :=
  match a with
  | UThread i => thread conc i s
  | UQueue c => Some (mkU (u_pc s) (u_queue s ++ [c]) (u_handles s) (u_live s) (u_msgs s) (u_count s) (u_poll s) true (u_stop s) (u_term s) (u_log s))
  | UStop => Some (mkU (u_pc s) (u_queue s) (u_handles s) (u_live s) (u_msgs s) (u_count s) (u_poll s) true true (u_term s) (u_log s))
  | UTerminate => Some (mkU (u_pc s) (u_queue s) (u_handles s) (u_live s) (u_msgs s) (u_count s) (u_poll s) true (u_stop s) true (u_log s))
  end.

(** A sequence of steps; [None] when one of them cannot happen.  Auxiliary, no
    counterpart in the code: the execution. *)
Fixpoint uexec (conc : nat) (l : list uact) (s : ust) : option ust :=
  match l with
  | [] => Some s
  | a :: l' => match ustep conc a s with Some s' => uexec conc l' s' | None => None end
  end.
