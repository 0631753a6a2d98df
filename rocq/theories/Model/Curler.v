(** Model of the thread of the HTTP client, src/curler.cpp, as a transition
    system: the handler thread and any number of other threads calling
    [queue], [stop] and [terminate], interleaved at every access to what they
    share.  A request is known by the number of its libcurl handle.

    Simplified: libcurl is external, [EvNet] gives the handles it reports
    done; timeouts and the poll list (socketCallback) are not modelled; the
    thread runs from the beginning ([start] is done) and a callback that calls
    [queue] counts as another thread.  The flags, among them the plain [bool]
    m_waking that [stop] and [terminate] touch without the mutex, are taken as
    sequentially consistent. *)
From Coq Require Import List Bool Arith.
Import ListNotations.

(** Where the handler thread is; lines of curler.cpp. *)
Inductive hpc :=
| HCheck                       (* curler.cpp 42, the mutex is held *)
| HStart                       (* 44-61: requests are started, the mutex is released *)
| HPoll                        (* 63-67 *)
| HWake                        (* 72: waits for the mutex *)
| HRead                        (* 73-76 *)
| HClear                       (* 77 *)
| HMsgs (l : list nat)         (* 86-103: these handles are still to be reported *)
| HCall (c : nat) (l : list nat)   (* curl.hpp 85: [c] is out of m_handles *)
| HReset (c : nat) (l : list nat)  (* 88: its callback has been called *)
| HWant                        (* 106: waits for the mutex *)
| HEnd                         (* 108 *)
| HFail.                       (* FAIL_LOG *)

(** Another thread; [b]: it holds the mutex. *)
Inductive kpc :=
| KOut
| KLock (c : nat)              (* in queue: 184 *)
| KTest (b : bool)             (* wake: 191 *)
| KSet (b : bool)              (* 193 *)
| KWrite (b : bool)            (* 195 *)
| KUnlock.                     (* 187 *)

(** What can be observed, oldest first. *)
Inductive cev :=
| ESet (c : nat)               (* setCallback *)
| EQueued (c : nat)
| EStarted (c : nat)
| EDone (c : nat)              (* libcurl is done with it *)
| ECalled (c : nat).           (* its callback is called *)

Record cst := mkCS {
  k_pc : hpc;
  k_threads : nat -> kpc;
  k_owner : option (option nat);   (* m_mutex; Some None: the handler thread *)
  k_waking : bool;                 (* m_waking *)
  k_bytes : nat;                   (* bytes in the wake-up socket *)
  k_queue : list nat;              (* m_queue *)
  k_run : list nat;                (* m_handles *)
  k_cb : nat -> bool;              (* whether m_callback is set *)
  k_stop : bool;
  k_term : bool;
  k_log : list cev
}.

(** Auxiliary, no counterpart in the code: the state before the handler
    starts. *)
Definition c_init : cst := mkCS HCheck (fun _ => KOut) (Some None) false 0 [] [] (fun _ => false) false false [].

(** Auxiliary, no counterpart in the code: a function changed at one point. *)
Definition upd {A} (f : nat -> A) (t : nat) (v : A) : nat -> A := fun x => if Nat.eqb x t then v else f x.

(** Auxiliary, no counterpart in the code: updates of one part of the state.
    *)
Definition with_pc (v : hpc) (s : cst) : cst :=
  mkCS v (k_threads s) (k_owner s) (k_waking s) (k_bytes s) (k_queue s) (k_run s) (k_cb s) (k_stop s) (k_term s) (k_log s).
Definition with_thread (t : nat) (v : kpc) (s : cst) : cst :=
  mkCS (k_pc s) (upd (k_threads s) t v) (k_owner s) (k_waking s) (k_bytes s) (k_queue s) (k_run s) (k_cb s) (k_stop s) (k_term s) (k_log s).
Definition with_owner (v : option (option nat)) (s : cst) : cst :=
  mkCS (k_pc s) (k_threads s) v (k_waking s) (k_bytes s) (k_queue s) (k_run s) (k_cb s) (k_stop s) (k_term s) (k_log s).
Definition with_waking (v : bool) (s : cst) : cst :=
  mkCS (k_pc s) (k_threads s) (k_owner s) v (k_bytes s) (k_queue s) (k_run s) (k_cb s) (k_stop s) (k_term s) (k_log s).
Definition with_bytes (v : nat) (s : cst) : cst :=
  mkCS (k_pc s) (k_threads s) (k_owner s) (k_waking s) v (k_queue s) (k_run s) (k_cb s) (k_stop s) (k_term s) (k_log s).
Definition with_reqs (q r : list nat) (e : list cev) (s : cst) : cst :=
  mkCS (k_pc s) (k_threads s) (k_owner s) (k_waking s) (k_bytes s) q r (k_cb s) (k_stop s) (k_term s) (k_log s ++ e).
Definition with_cb (c : nat) (v : bool) (e : list cev) (s : cst) : cst :=
  mkCS (k_pc s) (k_threads s) (k_owner s) (k_waking s) (k_bytes s) (k_queue s) (k_run s) (upd (k_cb s) c v) (k_stop s) (k_term s) (k_log s ++ e).
Definition with_stop (s : cst) : cst :=
  mkCS (k_pc s) (k_threads s) (k_owner s) (k_waking s) (k_bytes s) (k_queue s) (k_run s) (k_cb s) true (k_term s) (k_log s).
Definition with_term (s : cst) : cst :=
  mkCS (k_pc s) (k_threads s) (k_owner s) (k_waking s) (k_bytes s) (k_queue s) (k_run s) (k_cb s) (k_stop s) true (k_log s).

(** Auxiliary, no counterpart in the code: membership and removal in a list
    standing for a std::set. *)
Definition memb (c : nat) (l : list nat) : bool := existsb (Nat.eqb c) l.
Fixpoint remb (c : nat) (l : list nat) : list nat :=
  match l with [] => [] | x :: r => if Nat.eqb c x then r else x :: remb c r end.
Fixpoint nodupb (l : list nat) : bool :=
  match l with [] => true | x :: r => negb (memb x r) && nodupb r end.

(** 46-55.  A handle that is in m_handles already is not inserted again and
    curl_multi_add_handle refuses it: [None]. *)
Fixpoint start_some (conc : nat) (q r : list nat) (e : list cev) : option (list nat * list nat * list cev) :=
  match q with
  | [] => Some (q, r, e)
  | c :: q' =>
      if length r <? conc
      then if memb c r then None else start_some conc q' (r ++ [c]) (e ++ [EStarted c])
      else Some (q, r, e)
  end.

(** What the wait of the handler brings, curler.cpp 65-108. *)
Inductive hev :=
| EvWake                       (* the wake-up socket is readable *)
| EvNet (done : list nat).     (* anything else; libcurl reports these done *)

(** A step of the handler; [None]: it has to wait, or libcurl would not do
    this. *)
Definition handler_step (conc : nat) (e : hev) (s : cst) : option cst :=
  match k_pc s with
  | HCheck =>
      if k_term s || (k_stop s && (match k_queue s with [] => true | _ => false end) && (match k_run s with [] => true | _ => false end))
      then Some (with_pc HEnd (with_owner None s))
      else Some (with_pc HStart s)
  | HStart =>
      match start_some conc (k_queue s) (k_run s) [] with
      | None => Some (with_pc HFail s)
      | Some (q, r, e) => Some (with_pc HPoll (with_owner None (with_reqs q r e s)))
      end
  | HPoll =>
      match e with
      | EvWake => if k_bytes s =? 0 then None else Some (with_pc HWake s)
      | EvNet done =>
          if nodupb done && forallb (fun c => memb c (k_run s)) done then Some (with_pc (HMsgs done) s) else None
      end
  | HWake =>
      match k_owner s with
      | Some _ => None
      | None => Some (with_pc HRead (with_owner (Some None) s))
      end
  | HRead => if k_bytes s =? 0 then Some (with_pc HFail s) else Some (with_pc HClear (with_bytes (k_bytes s - 256) s))
  | HClear => Some (with_pc HCheck (with_waking false s))
  | HMsgs [] => Some (with_pc HWant s)
  | HMsgs (c :: l) =>
      if memb c (k_run s) then Some (with_pc (HCall c l) (with_reqs (k_queue s) (remb c (k_run s)) [EDone c] s))
      else Some (with_pc HFail s)
  | HCall c l =>
      if k_cb s c then Some (with_pc (HReset c l) (with_reqs (k_queue s) (k_run s) [ECalled c] s))
      else Some (with_pc (HMsgs l) s)
  | HReset c l => Some (with_pc (HMsgs l) (with_cb c false [] s))
  | HWant =>
      match k_owner s with
      | Some _ => None
      | None => Some (with_pc HCheck (with_owner (Some None) s))
      end
  | HEnd | HFail => None
  end.

(** The next access of a thread inside queue, stop or terminate: curler.cpp
    152-162 and 182-200. *)
Definition thread_step (t : nat) (s : cst) : option cst :=
  match k_threads s t with
  | KOut => None
  | KLock c =>
      match k_owner s with
      | Some _ => None
      | None => Some (with_thread t (KTest true) (with_owner (Some (Some t)) (with_reqs (k_queue s ++ [c]) (k_run s) [EQueued c] s)))
      end
  | KTest b => if k_waking s then Some (with_thread t (if b then KUnlock else KOut) s) else Some (with_thread t (KSet b) s)
  | KSet b => Some (with_thread t (KWrite b) (with_waking true s))
  | KWrite b => Some (with_thread t (if b then KUnlock else KOut) (with_bytes (S (k_bytes s)) s))
  | KUnlock => Some (with_thread t KOut (with_owner None s))
  end.

(** What may happen next: a step of the handler, of another thread, or of
    libcurl. *)
Inductive cact :=
| AHandler (e : hev)
| ASet (c : nat)               (* setCallback, curl.hpp 184-187 *)
| AQueue (t c : nat)           (* queue is called, 181-187 *)
| AStop (t : nat)              (* 150-154 *)
| ATerm (t : nat)              (* 156-160 *)
| AThread (t : nat).

(** Auxiliary, no counterpart in the code: the thread is in none of the calls.
    *)
Definition is_out (k : kpc) : bool := match k with KOut => true | _ => false end.

(** One step; [None] when it cannot happen. *)
Definition cstep (conc : nat) (a : cact) (s : cst) : option cst :=
  match a with
  | AHandler e => handler_step conc e s
  | ASet c => Some (with_cb c true [ESet c] s)
  | AQueue t c => if is_out (k_threads s t) then Some (with_thread t (KLock c) s) else None
  | AStop t => if is_out (k_threads s t) then Some (with_thread t (KTest false) (with_stop s)) else None
  | ATerm t => if is_out (k_threads s t) then Some (with_thread t (KTest false) (with_term s)) else None
  | AThread t => thread_step t s
  end.

(** A sequence of steps; [None] when one of them cannot happen.  Auxiliary, no
    counterpart in the code: the execution. *)
Fixpoint cexec (conc : nat) (l : list cact) (s : cst) : option cst :=
  match l with
  | [] => Some s
  | a :: l => match cstep conc a s with Some s' => cexec conc l s' | None => None end
  end.
