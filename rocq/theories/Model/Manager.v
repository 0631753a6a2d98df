(** Model of the threads of [Manager_base] (src/manager.cpp 60-89, 254-418),
    of [Request_base::push] (include/fastcgi++/request.hpp 64-79) and of the
    locking in [Request<charT>::handler] (src/request.cpp 56-169).

    Any number of threads run in any order.  Each executes, one step at a
    time, the code that its program counter names; a step is at most one
    operation on a shared object.  Left to the environment: what application
    code does while it handles a message (it may push messages to any
    request), when connections close, when signals arrive.  Not modelled:
    [start] after a [stop] and the leaf locks taken and released inside one
    step ([m_messagesMutex], and [m_tasksMutex] in [push], [stop] and
    [terminate], where nothing else is done while it is held). *)
From Coq Require Import List NArith Bool Arith.
From Verif Require Import Model.Base Model.RequestMap.
Import ListNotations.

(** Auxiliary, no counterpart in the code: a function changed at one point. *)
Definition fupd {A : Type} (f : nat -> A) (i : nat) (x : A) : nat -> A :=
  fun j => if Nat.eqb j i then x else f j.

Section Manager.
(** Messages, and which of them are BEGIN_REQUEST records
    (manager.cpp 380-384). *)
Variable M : Type.
Variable begins : M -> bool.

(** Where a thread is.  [id] is the task taken from the queue, [o] the request
    object found for it. *)
Inductive bpc :=
| BOther                          (* code outside of the manager *)
(* Manager_base::handler *)
| HStart                          (* 259, 323: before tasksLock is (re)gained *)
| HRead                           (* 260, 331: before requestsReadLock *)
| HCond                           (* 262 *)
| HInner                          (* 265 *)
| HPopped (id : rid)              (* 271-275 *)
| HLocal                          (* 272: localHandler() *)
| HFind (id : rid)                (* 276-281 *)
| HFound (id : rid) (o : option nat) (* 282, 308: requestsReadLock.unlock() *)
| HRet (id : rid) (o : nat) (held : bool) (* 287; held: request->handler() returned a lock *)
| HDrop (id : rid) (o : nat)      (* 293-294 *)
| HWant (id : rid) (o : nat)      (* 295 *)
| HErase1 (id : rid) (o : nat)    (* 296 *)
| HErase2 (id : rid) (o : nat)    (* 297 *)
| HErase3                         (* 298 *)
| HKeep1 (id : rid) (o : nat)     (* 302 *)
| HKeep2 (id : rid) (o : nat)     (* 303 *)
| HRelock                         (* 310 *)
| HRead2                          (* 313 *)
| HCond2                          (* 314-319 *)
| HWait                           (* 323, before waiting *)
| HWaiting                        (* 323, waiting *)
| HExit1                          (* 333: destructor of requestsReadLock *)
| HExit2                          (* 333: destructor of tasksLock *)
| HDone
(* Request<charT>::handler, called at 286 *)
| RLock (id : rid) (o : nat)      (* request.cpp 58, 110, 114, 145, 165 *)
| RCheck (id : rid) (o : nat)     (* 59-62 *)
| RGot (id : rid) (o : nat)       (* 63 *)
| RProc (id : rid) (o : nat).     (* 65-164: handling the message *)

(** Manager_base::push. *)
Inductive ppc :=
| PStart (id : rid) (m : M)       (* 337, 345 *)
| PLocal (id : rid) (m : M)       (* 342-343 *)
| PBadWant (sk : N)               (* 350 *)
| PBad (sk : N) (todo : list (rid * nat)) (* 351-368 *)
| PWant (id : rid) (m : M)        (* 376 *)
| PFind (id : rid) (m : M)        (* 377-409 *)
| PMsg (id : rid) (o : nat) (m : M) (* 413 *)
| PUnlock (id : rid)              (* 414: end of the scope of the lock *)
| PTasks (id : rid)               (* 415-417 *)
| PEnd.                           (* 369, 400, 410: unlock and return *)

(** What a thread is doing: its code, a call of [push] inside of it, and a
    call of [stop] ([false]) or [terminate] ([true]), perhaps from a signal
    handler, on top of both. *)
Record thread := mkThread { t_base : bpc; t_push : option ppc; t_sig : option bool }.

(** A request object (request.hpp 64-79) in its map node.  [o_mutex] and
    [o_msgs] are the threads that hold [mutex] and [m_messagesMutex]. *)
Record obj := mkObj {
  o_rid : rid;
  o_alive : bool;
  o_mutex : option nat;
  o_msgs : option nat;
  o_queue : list M
}.

(** History of what happened to requests; not part of the program. *)
Inductive event :=
| EPushed (o : nat) (m : M)       (* push put m in the queue of o *)
| ETaken (o : nat) (m : M)        (* the handler took m from the queue of o *)
| EEnded (o : nat)                (* handler() erased o *)
| ELost (o : nat) (sk : N).       (* push() erased o because sk was lost *)

(** More such history. *)
Inductive fact :=
| NBegun (id : rid) (m : M) (o : nat) (* push created o for id because of m *)
| NComplete (o : nat)             (* the handler of o found the request complete *)
| NLocalIn (m : M) (sk : N)       (* push put a management record in m_messages *)
| NLocalOut (m : M) (sk : N).     (* localHandler() took it *)

Record state := mkSt {
  s_threads : nat -> thread;
  s_waiters : list nat;           (* threads waiting on m_wake *)
  s_tasks : list rid;             (* m_tasks *)
  s_tasksLock : option nat;       (* m_tasksMutex *)
  s_writer : option nat;          (* m_requestsMutex, exclusive *)
  s_readers : list nat;           (* m_requestsMutex, shared *)
  s_requests : @rmap nat;         (* m_requests *)
  s_objs : nat -> obj;            (* all requests there ever were *)
  s_next : nat;                   (* the number of the next one *)
  s_local : list (M * N);         (* m_messages *)
  s_terminate : bool;
  s_stop : bool;
  s_invalid : list N;             (* sockets whose m_valid is false *)
  s_log : list event;
  s_hist : list fact
}.

(** Auxiliary, no counterpart in the code: updates of one part of the state.
    *)
Definition set_threads v s := mkSt v (s_waiters s) (s_tasks s) (s_tasksLock s) (s_writer s) (s_readers s)
  (s_requests s) (s_objs s) (s_next s) (s_local s) (s_terminate s) (s_stop s) (s_invalid s) (s_log s) (s_hist s).
Definition set_waiters v s := mkSt (s_threads s) v (s_tasks s) (s_tasksLock s) (s_writer s) (s_readers s)
  (s_requests s) (s_objs s) (s_next s) (s_local s) (s_terminate s) (s_stop s) (s_invalid s) (s_log s) (s_hist s).
Definition set_tasks v s := mkSt (s_threads s) (s_waiters s) v (s_tasksLock s) (s_writer s) (s_readers s)
  (s_requests s) (s_objs s) (s_next s) (s_local s) (s_terminate s) (s_stop s) (s_invalid s) (s_log s) (s_hist s).
Definition set_tasksLock v s := mkSt (s_threads s) (s_waiters s) (s_tasks s) v (s_writer s) (s_readers s)
  (s_requests s) (s_objs s) (s_next s) (s_local s) (s_terminate s) (s_stop s) (s_invalid s) (s_log s) (s_hist s).
Definition set_writer v s := mkSt (s_threads s) (s_waiters s) (s_tasks s) (s_tasksLock s) v (s_readers s)
  (s_requests s) (s_objs s) (s_next s) (s_local s) (s_terminate s) (s_stop s) (s_invalid s) (s_log s) (s_hist s).
Definition set_readers v s := mkSt (s_threads s) (s_waiters s) (s_tasks s) (s_tasksLock s) (s_writer s) v
  (s_requests s) (s_objs s) (s_next s) (s_local s) (s_terminate s) (s_stop s) (s_invalid s) (s_log s) (s_hist s).
Definition set_requests v s := mkSt (s_threads s) (s_waiters s) (s_tasks s) (s_tasksLock s) (s_writer s) (s_readers s)
  v (s_objs s) (s_next s) (s_local s) (s_terminate s) (s_stop s) (s_invalid s) (s_log s) (s_hist s).
Definition set_objs v s := mkSt (s_threads s) (s_waiters s) (s_tasks s) (s_tasksLock s) (s_writer s) (s_readers s)
  (s_requests s) v (s_next s) (s_local s) (s_terminate s) (s_stop s) (s_invalid s) (s_log s) (s_hist s).
Definition set_next v s := mkSt (s_threads s) (s_waiters s) (s_tasks s) (s_tasksLock s) (s_writer s) (s_readers s)
  (s_requests s) (s_objs s) v (s_local s) (s_terminate s) (s_stop s) (s_invalid s) (s_log s) (s_hist s).
Definition set_local v s := mkSt (s_threads s) (s_waiters s) (s_tasks s) (s_tasksLock s) (s_writer s) (s_readers s)
  (s_requests s) (s_objs s) (s_next s) v (s_terminate s) (s_stop s) (s_invalid s) (s_log s) (s_hist s).
Definition set_flag (k : bool) s := mkSt (s_threads s) (s_waiters s) (s_tasks s) (s_tasksLock s) (s_writer s) (s_readers s)
  (s_requests s) (s_objs s) (s_next s) (s_local s) (if k then true else s_terminate s) (if k then s_stop s else true)
  (s_invalid s) (s_log s) (s_hist s).
Definition set_invalid v s := mkSt (s_threads s) (s_waiters s) (s_tasks s) (s_tasksLock s) (s_writer s) (s_readers s)
  (s_requests s) (s_objs s) (s_next s) (s_local s) (s_terminate s) (s_stop s) v (s_log s) (s_hist s).
Definition log e s := mkSt (s_threads s) (s_waiters s) (s_tasks s) (s_tasksLock s) (s_writer s) (s_readers s)
  (s_requests s) (s_objs s) (s_next s) (s_local s) (s_terminate s) (s_stop s) (s_invalid s) (s_log s ++ [e]) (s_hist s).
Definition note h s := mkSt (s_threads s) (s_waiters s) (s_tasks s) (s_tasksLock s) (s_writer s) (s_readers s)
  (s_requests s) (s_objs s) (s_next s) (s_local s) (s_terminate s) (s_stop s) (s_invalid s) (s_log s) (s_hist s ++ [h]).

(** Thread [t] goes on at [b]; at [p] in [push]; with [k] of its signal. *)
Definition goto (t : nat) (b : bpc) (s : state) : state :=
  set_threads (fupd (s_threads s) t (mkThread b (t_push (s_threads s t)) (t_sig (s_threads s t)))) s.
Definition goto_push (t : nat) (p : option ppc) (s : state) : state :=
  set_threads (fupd (s_threads s) t (mkThread (t_base (s_threads s t)) p (t_sig (s_threads s t)))) s.
Definition goto_sig (t : nat) (k : option bool) (s : state) : state :=
  set_threads (fupd (s_threads s) t (mkThread (t_base (s_threads s t)) (t_push (s_threads s t)) k)) s.

(** Locks.  [None]: the thread has to wait. *)
Definition lock_tasks (t : nat) (s : state) : option state :=
  match s_tasksLock s with None => Some (set_tasksLock (Some t) s) | Some _ => None end.
Definition unlock_tasks (s : state) : state := set_tasksLock None s.
Definition lock_read (t : nat) (s : state) : option state :=
  match s_writer s with None => Some (set_readers (t :: s_readers s) s) | Some _ => None end.
Definition unlock_read (t : nat) (s : state) : state :=
  set_readers (remove Nat.eq_dec t (s_readers s)) s.
Definition lock_write (t : nat) (s : state) : option state :=
  match s_writer s, s_readers s with None, [] => Some (set_writer (Some t) s) | _, _ => None end.
Definition unlock_write (s : state) : state := set_writer None s.

(** Auxiliary, no counterpart in the code: the mutex of one request taken or
    released. *)
Definition set_mutex (o : nat) (v : option nat) (s : state) : state :=
  let x := s_objs s o in
  set_objs (fupd (s_objs s) o (mkObj (o_rid x) (o_alive x) v (o_msgs x) (o_queue x))) s.
Definition set_msgs (o : nat) (v : option nat) (s : state) : state :=
  let x := s_objs s o in
  set_objs (fupd (s_objs s) o (mkObj (o_rid x) (o_alive x) (o_mutex x) v (o_queue x))) s.
Definition set_queue (o : nat) (v : list M) (s : state) : state :=
  let x := s_objs s o in
  set_objs (fupd (s_objs s) o (mkObj (o_rid x) (o_alive x) (o_mutex x) (o_msgs x) v)) s.
(** Erasing the map node of [k], whose request is [o], destroys [o]. *)
Definition erase (k : rid) (o : nat) (s : state) : state :=
  let x := s_objs s o in
  set_objs (fupd (s_objs s) o (mkObj (o_rid x) false (o_mutex x) (o_msgs x) (o_queue x)))
    (set_requests (map_erase k (s_requests s)) s).
(** 391-399: [emplace] and [makeRequest]. *)
Definition create (k : rid) (s : state) : state :=
  set_next (S (s_next s))
    (set_objs (fupd (s_objs s) (s_next s) (mkObj k true None None []))
      (set_requests (map_emplace k (s_next s) (s_requests s)) s)).

(** [std::condition_variable]: a thread that is notified has to regain the
    lock.  [w] is the thread that [notify_one] picks. *)
Definition wakeup (w : nat) (s : state) : state :=
  goto w HStart (set_waiters (remove Nat.eq_dec w (s_waiters s)) s).
Definition notify_one (w : nat) (s : state) : option state :=
  match s_waiters s with
  | [] => Some s
  | ws => if existsb (Nat.eqb w) ws then Some (wakeup w s) else None
  end.
Definition notify_all (s : state) : state := fold_right wakeup s (s_waiters s).

(** 262 and, negated, 314. *)
Definition running (s : state) : bool :=
  negb (s_terminate s)
  && negb (s_stop s && match s_requests s with [] => true | _ => false end).

(** sockets.hpp 231-237, Socket::valid. *)
Definition valid (sk : N) (s : state) : bool := negb (existsb (N.eqb sk) (s_invalid s)).

(** Auxiliary, no counterpart in the code: sequencing of steps that may be
    impossible. *)
Definition bindo {A B : Type} (x : option A) (f : A -> option B) : option B :=
  match x with Some a => f a | None => None end.

(** The object is still there; else the step has no meaning. *)
Definition touch (o : nat) (s : state) (r : option state) : option state :=
  if o_alive (s_objs s o) then r else None.

(** manager.cpp 254-333 and request.cpp 56-169. *)
Definition base_step (t : nat) (b : bpc) (s : state) : option state :=
  match b with
  | BOther | HWaiting | HDone | RProc _ _ => None
  | HStart => bindo (lock_tasks t s) (fun s => Some (goto t HRead s))
  | HRead => bindo (lock_read t s) (fun s => Some (goto t HCond s))
  | HCond => if running s then Some (goto t HInner (unlock_read t s)) else Some (goto t HExit1 s)
  | HInner =>
      match s_tasks s with
      | [] => Some (goto t HRead2 s)
      | id :: r => Some (goto t (HPopped id) (unlock_tasks (set_tasks r s)))
      end
  | HPopped id =>
      if N.eqb (r_id id) 0 then Some (goto t HLocal s)
      else bindo (lock_read t s) (fun s => Some (goto t (HFind id) s))
  | HLocal =>
      (* 144-152: taking the front of an empty queue has no meaning *)
      match s_local s with [] => None | (m, sk) :: l => Some (goto t HRelock (note (NLocalOut m sk) (set_local l s))) end
  | HFind id =>
      match map_find id (s_requests s) with
      | None => Some (goto t (HFound id None) s)
      | Some o =>
          touch o s
            match o_mutex (s_objs s o) with
            | None => Some (goto t (HFound id (Some o)) (set_mutex o (Some t) s))
            | Some _ => Some (goto t (HFound id None) s)
            end
      end
  | HFound id x =>
      Some (goto t (match x with Some o => RLock id o | None => HRelock end) (unlock_read t s))
  | RLock id o =>
      touch o s
        match o_msgs (s_objs s o) with
        | None => Some (goto t (RCheck id o) (set_msgs o (Some t) s))
        | Some _ => None
        end
  | RCheck id o =>
      touch o s
        match o_queue (s_objs s o) with
        | [] => Some (goto t (HRet id o true) s)
        | m :: q => Some (goto t (RGot id o) (log (ETaken o m) (set_queue o q s)))
        end
  | RGot id o => touch o s (Some (goto t (RProc id o) (set_msgs o None s)))
  | HRet id o held =>
      if negb held || negb (valid (r_socket id) s)
      then Some (goto t (if held then HDrop id o else HWant id o) s)
      else Some (goto t (HKeep1 id o) s)
  | HDrop id o => touch o s (Some (goto t (HWant id o) (set_msgs o None s)))
  | HWant id o => bindo (lock_write t s) (fun s => Some (goto t (HErase1 id o) s))
  | HErase1 id o => touch o s (Some (goto t (HErase2 id o) (set_mutex o None s)))
  | HErase2 id o => touch o s (Some (goto t HErase3 (log (EEnded o) (erase id o s))))
  | HErase3 => Some (goto t HRelock (unlock_write s))
  | HKeep1 id o => touch o s (Some (goto t (HKeep2 id o) (set_mutex o None s)))
  | HKeep2 id o => touch o s (Some (goto t HRelock (set_msgs o None s)))
  | HRelock => bindo (lock_tasks t s) (fun s => Some (goto t HInner s))
  | HRead2 => bindo (lock_read t s) (fun s => Some (goto t HCond2 s))
  | HCond2 =>
      if running s then Some (goto t HWait (unlock_read t s))
      else Some (goto t HExit1 (notify_all s))
  | HWait => Some (goto t HWaiting (set_waiters (t :: s_waiters s) (unlock_tasks s)))
  | HExit1 => Some (goto t HExit2 (unlock_read t s))
  | HExit2 => Some (goto t HDone (unlock_tasks s))
  end.

(** manager.cpp 335-418; [badFcgiId] is 0xffff (protocol.hpp 60).  The request found by [equal_range] cannot be locked
    by another thread between 357 and 361, since that takes the lock held
    here, so locking, unlocking and erasing are one step. *)
Definition push_step (t w : nat) (p : ppc) (s : state) : option state :=
  match p with
  | PStart id m =>
      if N.eqb (r_id id) 0 then Some (goto_push t (Some (PLocal id m)) s)
      else if N.eqb (r_id id) 65535 then Some (goto_push t (Some (PBadWant (r_socket id))) s)
      else Some (goto_push t (Some (PWant id m)) s)
  | PLocal id m =>
      Some (goto_push t (Some (PTasks id)) (note (NLocalIn m (r_socket id)) (set_local (s_local s ++ [(m, r_socket id)]) s)))
  | PBadWant sk =>
      bindo (lock_write t s) (fun s =>
        Some (goto_push t (Some (PBad sk (map_equal_range sk (s_requests s)))) s))
  | PBad sk [] => Some (goto_push t (Some PEnd) s)
  | PBad sk ((k, o) :: todo) =>
      touch o s
        match o_mutex (s_objs s o) with
        | None => Some (goto_push t (Some (PBad sk todo)) (log (ELost o sk) (erase k o s)))
        | Some _ => Some (goto_push t (Some (PBad sk todo)) s)
        end
  | PWant id m => bindo (lock_write t s) (fun s => Some (goto_push t (Some (PFind id m)) s))
  | PFind id m =>
      match map_find id (s_requests s) with
      | None =>
          if begins m then Some (goto_push t (Some PEnd) (note (NBegun id m (s_next s)) (create id s)))
          else Some (goto_push t (Some PEnd) s)
      | Some o => Some (goto_push t (Some (PMsg id o m)) s)
      end
  | PMsg id o m =>
      touch o s
        match o_msgs (s_objs s o) with
        | None => Some (goto_push t (Some (PUnlock id)) (log (EPushed o m) (set_queue o (o_queue (s_objs s o) ++ [m]) s)))
        | Some _ => None
        end
  | PUnlock id => Some (goto_push t (Some (PTasks id)) (unlock_write s))
  | PTasks id =>
      match s_tasksLock s with
      | Some _ => None
      | None =>
          bindo (notify_one w (set_tasks (s_tasks s ++ [id]) s)) (fun s => Some (goto_push t None s))
      end
  | PEnd => Some (goto_push t None (unlock_write s))
  end.

(** 60-74: [terminate] and [stop]. *)
Definition sig_step (t : nat) (k : bool) (s : state) : option state :=
  match s_tasksLock s with
  | Some _ => None
  | None => Some (goto_sig t None (notify_all (set_flag k s)))
  end.

(** What may happen next. *)
Inductive action :=
| ARun (w : nat)                  (* the next step of the thread's code *)
| AReturn (complete : bool)       (* application code is done with a message *)
| APush (id : rid) (m : M)        (* application code calls push *)
| ASpurious                       (* waiting ends for no reason *)
| ASignal (k : bool)              (* a call of stop or terminate *)
| ASpawn                          (* the thread starts to run handler() *)
| AClose (sk : N).                (* a connection becomes invalid *)

Definition step (t : nat) (a : action) (s : state) : option state :=
  let th := s_threads s t in
  match a with
  | ARun w =>
      match t_sig th with
      | Some k => sig_step t k s
      | None =>
          match t_push th with
          | Some p => push_step t w p s
          | None => base_step t (t_base th) s
          end
      end
  | AReturn complete =>
      match t_sig th, t_push th, t_base th with
      | None, None, RProc id o =>
          touch o s (Some (if complete then goto t (HRet id o false) (note (NComplete o) s) else goto t (RLock id o) s))
      | _, _, _ => None
      end
  | APush id m =>
      match t_sig th, t_push th, t_base th with
      | None, None, BOther => Some (goto_push t (Some (PStart id m)) s)
      | None, None, RProc _ _ => Some (goto_push t (Some (PStart id m)) s)
      | _, _, _ => None
      end
  | ASpurious =>
      match t_base th with
      | HWaiting => Some (wakeup t s)
      | _ => None
      end
  | ASignal k =>
      match t_sig th with None => Some (goto_sig t (Some k) s) | Some _ => None end
  | ASpawn =>
      match t_push th, t_base th with
      | None, BOther => Some (goto t HStart s)
      | _, _ => None
      end
  | AClose sk => Some (set_invalid (sk :: s_invalid s) s)
  end.

(** Executions. *)
Fixpoint exec (l : list (nat * action)) (s : state) : option state :=
  match l with
  | [] => Some s
  | (t, a) :: l => bindo (step t a s) (exec l)
  end.

(** A started manager without requests; all threads are outside of it. *)
Definition st_init : state :=
  mkSt (fun _ => mkThread BOther None None) [] [] None None [] []
    (fun _ => mkObj (mkRid 0 0) false None None []) 0 [] false false [] [] [].
End Manager.

Arguments PStart {M}. Arguments PLocal {M}. Arguments PBadWant {M}. Arguments PBad {M}. Arguments PWant {M}.
Arguments PFind {M}. Arguments PMsg {M}. Arguments PUnlock {M}. Arguments PTasks {M}. Arguments PEnd {M}.
Arguments mkThread {M}. Arguments t_base {M}. Arguments t_push {M}. Arguments t_sig {M}.
Arguments mkObj {M}. Arguments o_rid {M}. Arguments o_alive {M}. Arguments o_mutex {M}. Arguments o_msgs {M}. Arguments o_queue {M}.
Arguments EPushed {M}. Arguments ETaken {M}. Arguments EEnded {M}. Arguments ELost {M}.
Arguments mkSt {M}. Arguments s_threads {M}. Arguments s_waiters {M}. Arguments s_tasks {M}. Arguments s_tasksLock {M}.
Arguments s_writer {M}. Arguments s_readers {M}. Arguments s_requests {M}. Arguments s_objs {M}. Arguments s_next {M}.
Arguments s_local {M}. Arguments s_terminate {M}. Arguments s_stop {M}. Arguments s_invalid {M}. Arguments s_log {M}. Arguments s_hist {M}.
Arguments NBegun {M}. Arguments NComplete {M}. Arguments NLocalIn {M}. Arguments NLocalOut {M}.
Arguments ARun {M}. Arguments AReturn {M}. Arguments APush {M}. Arguments ASpurious {M}. Arguments ASignal {M}.
Arguments ASpawn {M}. Arguments AClose {M}.
Arguments step {M}. Arguments exec {M}. Arguments running {M}. Arguments valid {M}.
