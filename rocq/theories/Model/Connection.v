(** Model of the SQL connection thread, src/connection.cpp, as a transition
    system: the handler thread, and [queue], [stop], [terminate] and [start]
    called by others, interleaved at every access to what they share.

    Simplified: libpq and the server are external, their answers are in
    [qenv]; poll reports only what is in it (the branch 131-138 is not
    modelled) and the wake-up socket only as readable.  The flags and the
    container sizes others read without the mutex (45, 277) are taken as read
    at one moment.  Logging is not suppressed, so that FAIL_LOG ends the
    process (log.hpp 91-98).  A callback that calls [queue] counts as another
    thread.  What is in a query besides its results object and callback is in
    Model/Sql.v. *)
From Coq Require Import List Bool Arith.
Import ListNotations.

(** Query, connection.hpp 51-64; [y_id] is the number of the call of [queue]. *)
Record query := mkQ { y_id : nat; y_obj : option nat; y_cb : bool }.

(** Conn, 164-169.  [n_query] is the query in flight, [None] when idle;
    [n_rest]: PQflush has not got rid of everything. *)
Record conn := mkN { n_query : option query; n_rest : bool }.

(** Where the handler thread is; lines of connection.cpp. *)
Inductive qpc :=
| QClear1 (last : bool)        (* connection.cpp 346-351, called at 44 or at 204 *)
| QClear2 (last : bool)        (* 352-353 *)
| QTop                         (* 45-48 *)
| QConnect                     (* 292 *)
| QSend (l : list nat)         (* 51-105: these connections are still to be looked at *)
| QPoll                        (* 109 *)
| QEnd                         (* 205 *)
| QExit                        (* FAIL_LOG *)
| QUndef.                      (* undefined behaviour *)

(** What can be observed, oldest first. *)
Inductive qev :=
| VQueued (q : query)          (* [queue] puts it in, and returns true *)
| VSent (k : nat) (q : query)  (* it is sent on connection [k] *)
| VGot (k : nat) (q : query) (r : nat)   (* a result for it *)
| VDone (k : nat) (q : query)  (* there are no more *)
| VCalled (q : query)          (* its callback is called *)
| VBack (k : nat) (q : query)  (* put back because the connection is lost *)
| VFailed (q : query)          (* it could not be sent *)
| VCut (k : nat) (q : query)   (* its connection is closed by killAll *)
| VCleared (l : list query).   (* the queue is cleared by killAll *)

Record qst := mkQS {
  z_pc : qpc;
  z_conns : list (nat * conn); (* m_connections *)
  z_queue : list query;        (* m_queue *)
  z_asked : list query;        (* calls of [queue] between 277 and 282 *)
  z_next : nat;                (* calls of [queue] *)
  z_waking : nat;              (* calls of [stop] and [terminate] that have yet to write *)
  z_bytes : nat;               (* bytes in the wake-up socket *)
  z_res : nat -> option nat;   (* m_res of the results objects *)
  z_stop : bool;
  z_term : bool;
  z_log : list qev
}.

(** Auxiliary, no counterpart in the code: the state before the handler
    starts, connection.hpp 145-225. *)
Definition q_init : qst := mkQS (QClear1 false) [] [] [] 0 0 0 (fun _ => None) false false [].

(** Auxiliary, no counterpart in the code: updates of one part of the state.
    *)
Definition set_pc (v : qpc) (s : qst) : qst :=
  mkQS v (z_conns s) (z_queue s) (z_asked s) (z_next s) (z_waking s) (z_bytes s) (z_res s) (z_stop s) (z_term s) (z_log s).
Definition set_conns (v : list (nat * conn)) (s : qst) : qst :=
  mkQS (z_pc s) v (z_queue s) (z_asked s) (z_next s) (z_waking s) (z_bytes s) (z_res s) (z_stop s) (z_term s) (z_log s).
Definition set_queue (v : list query) (s : qst) : qst :=
  mkQS (z_pc s) (z_conns s) v (z_asked s) (z_next s) (z_waking s) (z_bytes s) (z_res s) (z_stop s) (z_term s) (z_log s).
Definition set_bytes (v : nat) (s : qst) : qst :=
  mkQS (z_pc s) (z_conns s) (z_queue s) (z_asked s) (z_next s) (z_waking s) v (z_res s) (z_stop s) (z_term s) (z_log s).
Definition set_res (v : nat -> option nat) (s : qst) : qst :=
  mkQS (z_pc s) (z_conns s) (z_queue s) (z_asked s) (z_next s) (z_waking s) (z_bytes s) v (z_stop s) (z_term s) (z_log s).
Definition note (e : list qev) (s : qst) : qst :=
  mkQS (z_pc s) (z_conns s) (z_queue s) (z_asked s) (z_next s) (z_waking s) (z_bytes s) (z_res s) (z_stop s) (z_term s) (z_log s ++ e).

(** std::map, ordered by its keys. *)
Fixpoint lookup (k : nat) (l : list (nat * conn)) : option conn :=
  match l with [] => None | (k', c) :: l => if k =? k' then Some c else lookup k l end.
Fixpoint insert (k : nat) (c : conn) (l : list (nat * conn)) : list (nat * conn) :=
  match l with
  | [] => [(k, c)]
  | (k', c') :: l => if k =? k' then (k, c) :: l else if k <? k' then (k, c) :: (k', c') :: l else (k', c') :: insert k c l
  end.
Fixpoint erase (k : nat) (l : list (nat * conn)) : list (nat * conn) :=
  match l with [] => [] | (k', c) :: l => if k =? k' then l else (k', c) :: erase k l end.

(** connected, connection.hpp 156-159. *)
Definition connected (conc : nat) (s : qst) : bool := length (z_conns s) =? conc.

(** What libpq and the kernel do at one step of the handler. *)
Inductive qenv :=
| ENone
| ELogin (k : option nat)      (* 294-328: a connection with this socket, or none *)
| EDispatch (ok rest : bool)   (* 71-101: PQsendQueryParams, and whether PQflush leaves something *)
| EWake                        (* 112 *)
| ETimeout                     (* poll returns nothing *)
| EEvent (k : nat) (i rdhup hup err : bool) (ok : bool) (rest : bool) (results : list nat) (complete : bool).
    (* 130: an event on a connection, what PQconsumeInput and PQflush say, the
       results PQgetResult then gives and whether a null comes behind them *)

(** 173-180 for one result: [None] when there is no results object. *)
Definition keep (q : query) (r : nat) (res : nat -> option nat) : option (nat -> option nat) :=
  match y_obj q with
  | None => None
  | Some o => Some (match res o with None => fun x => if x =? o then Some r else res x | Some _ => res end)
  end.

(** 155-181. *)
Fixpoint take (k : nat) (q : query) (l : list nat) (s : qst) : option qst :=
  match l with
  | [] => Some s
  | r :: l =>
      match keep q r (z_res s) with
      | None => None
      | Some res => take k q l (note [VGot k q r] (set_res res s))
      end
  end.

(** kill, 332-342. *)
Definition kill (k : nat) (c : conn) (s : qst) : qst :=
  let s := match n_query c with
           | None => s
           | Some q => note [VBack k q] (set_queue (q :: z_queue s) s)
           end in
  set_conns (erase k (z_conns s)) s.

(** 186-200. *)
Definition hung (k : nat) (c : conn) (rdhup hup err : bool) (s : qst) : qst :=
  if rdhup || hup || err then set_pc QTop (kill k c s) else set_pc QExit s.

(** connection.cpp 158-171: the query is over, its callback is called. *)
Definition done (k : nat) (q : query) (s : qst) : qst :=
  note (VDone k q :: if y_cb q then [VCalled q] else []) (set_conns (insert k (mkN None false) (z_conns s)) s).

(** 130-201. *)
Definition event (k : nat) (c : conn) (i rdhup hup err ok rest : bool) (results : list nat) (complete : bool) (s : qst) : qst :=
  if i then
    match n_query c with
    | None => hung k c rdhup hup err s
    | Some q =>
        if ok then
          match take k q results (set_conns (insert k (mkN (Some q) rest) (z_conns s)) s) with
          | None => set_pc QUndef s
          | Some s => set_pc QTop (if complete then done k q s else s)
          end
        else hung k c rdhup hup err s
    end
  else hung k c rdhup hup err s.

(** The queries in flight. *)
Fixpoint flying (l : list (nat * conn)) : list (nat * query) :=
  match l with
  | [] => []
  | (k, c) :: l => match n_query c with Some q => (k, q) :: flying l | None => flying l end
  end.

(** A step of the handler; [None]: not something it, libpq or the kernel
    could do. *)
Definition hstep (conc : nat) (e : qenv) (s : qst) : option qst :=
  match z_pc s, e with
  | QClear1 last, ENone => Some (set_pc (QClear2 last) (note (map (fun x => VCut (fst x) (snd x)) (flying (z_conns s))) (set_conns [] s)))
  | QClear2 last, ENone => Some (set_pc (if last then QEnd else QTop) (note [VCleared (z_queue s)] (set_queue [] s)))
  | QTop, ENone =>
      if z_term s || (z_stop s && match z_queue s with [] => true | _ => false end) then Some (set_pc (QClear1 true) s)
      else if connected conc s then Some (set_pc (QSend (map fst (z_conns s))) s)
      else Some (set_pc QConnect s)
  | QConnect, ELogin None => Some (set_pc (QSend (map fst (z_conns s))) s)
  | QConnect, ELogin (Some k) =>
      match lookup k (z_conns s) with
      | Some _ => None
      | None =>
          let s := set_conns (insert k (mkN None false) (z_conns s)) s in
          Some (if connected conc s then set_pc (QSend (map fst (z_conns s))) s else s)
      end
  | QSend [], ENone => Some (set_pc QPoll s)
  | QSend (k :: l), EDispatch ok rest =>
      match lookup k (z_conns s) with
      | None => None
      | Some c =>
          match n_query c with
          | Some _ => Some (set_pc (QSend l) s)
          | None =>
              match z_queue s with
              | [] => Some (set_pc QPoll s)
              | q :: r =>
                  if ok then Some (set_pc (QSend l) (note [VSent k q] (set_conns (insert k (mkN (Some q) rest) (z_conns s)) (set_queue r s))))
                  else Some (set_pc QUndef (note [VFailed q] (kill k c (set_queue r s))))   (* ++connection follows erase *)
              end
          end
      end
  | QPoll, EWake => if z_bytes s =? 0 then None else Some (set_pc QTop (set_bytes (z_bytes s - 256) s))
  | QPoll, ETimeout => if connected conc s then None else Some (set_pc QTop s)
  | QPoll, EEvent k i rdhup hup err ok rest results complete =>
      match lookup k (z_conns s) with
      | None => None
      | Some c => if i || rdhup || hup || err then Some (event k c i rdhup hup err ok rest results complete s) else None
      end
  | _, _ => None
  end.

(** What may happen next: a step of the handler, or a call by another thread
    (connection.cpp 207-288). *)
Inductive qact :=
| AHand (e : qenv)
| AAsk (obj : option nat) (cb : bool)   (* queue is called, 277 *)
| APut (n : nat)               (* the [n]th such call goes on, 282-285 *)
| AQStop                       (* 209 *)
| AQTerm                       (* 215 *)
| AQWake                       (* 210, 216 *)
| AStart.                      (* join and start, 219-234; only when the handler has ended *)

Definition remove_nth {A} (n : nat) (l : list A) : list A := firstn n l ++ skipn (S n) l.

(** One step; [None] when it cannot happen.  Lines of connection.cpp as in the
    parts above. *)
Definition qstep (conc : nat) (a : qact) (s : qst) : option qst :=
  match a with
  | AHand e => hstep conc e s
  | AAsk obj cb =>
      if z_stop s || negb (connected conc s) then Some s
      else Some (mkQS (z_pc s) (z_conns s) (z_queue s) (z_asked s ++ [mkQ (z_next s) obj cb]) (S (z_next s)) (z_waking s) (z_bytes s)
                   (z_res s) (z_stop s) (z_term s) (z_log s))
  | APut n =>
      match nth_error (z_asked s) n with
      | None => None
      | Some q => Some (mkQS (z_pc s) (z_conns s) (z_queue s ++ [q]) (remove_nth n (z_asked s)) (z_next s) (z_waking s) (S (z_bytes s))
                          (z_res s) (z_stop s) (z_term s) (z_log s ++ [VQueued q]))
      end
  | AQStop => Some (mkQS (z_pc s) (z_conns s) (z_queue s) (z_asked s) (z_next s) (S (z_waking s)) (z_bytes s) (z_res s) true (z_term s) (z_log s))
  | AQTerm => Some (mkQS (z_pc s) (z_conns s) (z_queue s) (z_asked s) (z_next s) (S (z_waking s)) (z_bytes s) (z_res s) (z_stop s) true (z_log s))
  | AQWake =>
      match z_waking s with
      | O => None
      | S n => Some (mkQS (z_pc s) (z_conns s) (z_queue s) (z_asked s) (z_next s) n (S (z_bytes s)) (z_res s) (z_stop s) (z_term s) (z_log s))
      end
  | AStart =>
      match z_pc s with
      | QEnd => Some (mkQS (QClear1 false) (z_conns s) (z_queue s) (z_asked s) (z_next s) (z_waking s) (z_bytes s) (z_res s) false false (z_log s))
      | _ => None
      end
  end.

(** A sequence of steps; [None] when one of them cannot happen.  Auxiliary, no
    counterpart in the code: the execution. *)
Fixpoint qexec (conc : nat) (l : list qact) (s : qst) : option qst :=
  match l with
  | [] => Some s
  | a :: l => match qstep conc a s with Some s' => qexec conc l s' | None => None end
  end.
