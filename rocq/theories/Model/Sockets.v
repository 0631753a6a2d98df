(** Model of the socket table (src/sockets.cpp, include/fastcgi++/sockets.hpp):
    [Socket] and [SocketGroup] with the kernel's descriptors beside them, as a
    sequence of operations of the one thread that owns the group.  What the
    kernel answers is part of each operation.

    Outcomes: [Ok s r], [Exit] (FAIL_LOG ends the program), [Wrong] (a system
    call on a descriptor that is not, or no longer, the one meant) and [Not]
    (the kernel would not answer so).

    Not modelled: the statistics; the thread-safe part, [wake], which is in
    Model/Wake.v; the descriptor of epoll itself. *)
From Coq Require Import List NArith ZArith Bool Arith.
From Verif Require Import Model.Base.
Import ListNotations.

(** sockets.hpp 69-109: Socket::Data. *)
Record dat := mkDat { d_fd : N; d_valid : bool; d_closing : bool }.

(** What a descriptor is, as the kernel knows it.  [KConn d]: the connection
    that the [d]-th Socket::Data was made for. *)
Inductive kobj := KWakeEnd | KListener | KConn (d : nat).

(** sockets.hpp 390-430: SocketGroup, and the kernel's side. *)
Record grp := mkGrp {
  g_data : list dat;            (* all Socket::Data made so far *)
  g_map : list (N * nat);       (* m_sockets *)
  g_listeners : list N;         (* m_listeners *)
  g_accept : bool;              (* m_accept *)
  g_refresh : bool;             (* m_refreshListeners *)
  g_poll : list N;              (* kernel: what is in the epoll set *)
  g_open : list (N * kobj)      (* kernel: the open descriptors *)
}.

(** Auxiliary, no counterpart in the code: what an operation gives back; a
    call of exit or an operation on what does not exist is distinct. *)
Inductive res := RNone | RSock (d : nat) | RNum (n : Z).
Inductive out := Ok (s : grp) (r : res) | Exit | Wrong | Not.

(** Auxiliary, no counterpart in the code: updates of one part of the state.
    *)
Definition set_data l s := mkGrp l (g_map s) (g_listeners s) (g_accept s) (g_refresh s) (g_poll s) (g_open s).
Definition set_map l s := mkGrp (g_data s) l (g_listeners s) (g_accept s) (g_refresh s) (g_poll s) (g_open s).
Definition set_listeners l s := mkGrp (g_data s) (g_map s) l (g_accept s) (g_refresh s) (g_poll s) (g_open s).
Definition set_accept b s := mkGrp (g_data s) (g_map s) (g_listeners s) b (g_refresh s) (g_poll s) (g_open s).
Definition set_refresh b s := mkGrp (g_data s) (g_map s) (g_listeners s) (g_accept s) b (g_poll s) (g_open s).
Definition set_poll l s := mkGrp (g_data s) (g_map s) (g_listeners s) (g_accept s) (g_refresh s) l (g_open s).
Definition set_open l s := mkGrp (g_data s) (g_map s) (g_listeners s) (g_accept s) (g_refresh s) (g_poll s) l.

(** Auxiliary, no counterpart in the code: lists of numbers standing for sets.
    *)
Definition memN (x : N) (l : list N) : bool := existsb (N.eqb x) l.
Definition delN (x : N) (l : list N) : list N := filter (fun y => negb (N.eqb y x)) l.
Fixpoint findN {A} (x : N) (l : list (N * A)) : option A :=
  match l with [] => None | (y, a) :: l => if N.eqb y x then Some a else findN x l end.
Definition dropN {A} (x : N) (l : list (N * A)) : list (N * A) := filter (fun p => negb (N.eqb (fst p) x)) l.

(** The wake end, in the epoll set from the start (154-158). *)
Definition wake_fd : N := 4.
Definition g_init : grp := mkGrp [] [] [] true false [wake_fd] [(wake_fd, KWakeEnd)].

(** Auxiliary, no counterpart in the code: one element of a list changed. *)
Fixpoint upd {A} (n : nat) (f : A -> A) (l : list A) : list A :=
  match n, l with
  | _, [] => []
  | O, a :: l => f a :: l
  | S n, a :: l => a :: upd n f l
  end.
Definition invalidate (d : dat) : dat := mkDat (d_fd d) false (d_closing d).
Definition mark_closing (d : dat) : dat := mkDat (d_fd d) (d_valid d) true.

(** A system call on [fd] meant for the connection of [d]. *)
Definition owned (fd : N) (d : nat) (s : grp) : bool :=
  match findN fd (g_open s) with Some (KConn d') => Nat.eqb d' d | _ => false end.

(** shutdown, epoll_ctl DEL, close: 117-119, 133-135. *)
Definition shut (fd : N) (s : grp) : grp :=
  set_open (dropN fd (g_open s)) (set_poll (delN fd (g_poll s)) s).

(** 129-138: ~Socket of an original. *)
Definition destroy (d : nat) (s : grp) : option grp :=
  match nth_error (g_data s) d with
  | Some x =>
      if d_valid x
      then if owned (d_fd x) d s then Some (set_data (upd d invalidate (g_data s)) (shut (d_fd x) s)) else None
      else Some s
  | None => None
  end.

(** m_sockets.erase, which destroys the Socket in the map. *)
Definition map_erase (fd : N) (s : grp) : option grp :=
  match findN fd (g_map s) with
  | None => Some s
  | Some d => match destroy d s with Some s => Some (set_map (dropN fd (g_map s)) s) | None => None end
  end.

(** 113-127: Socket::close. *)
Definition close (d : nat) (s : grp) : option grp :=
  match nth_error (g_data s) d with
  | Some x =>
      if d_valid x
      then if owned (d_fd x) d s
           then map_erase (d_fd x) (set_data (upd d invalidate (g_data s)) (shut (d_fd x) s))
           else None
      else Some s
  | None => None
  end.

(** 44-57 and [m_sockets.emplace(fd, Socket(fd, *this))] (383-385, 461-463,
    594-596): a new connection on the new descriptor [fd]; [add]: whether the
    kernel takes it into the epoll set.  emplace does nothing when the key is
    there, and the Socket given to it is destroyed. *)
Definition adopt (fd : N) (add : bool) (s : grp) : option grp :=
  let d := length (g_data s) in
  let s := set_open ((fd, KConn d) :: g_open s) (set_data (g_data s ++ [mkDat fd true false]) s) in
  match (if add then Some (set_poll (fd :: g_poll s) s) else close d s) with
  | None => None
  | Some s =>
      match findN fd (g_map s) with
      | None => Some (set_map ((fd, d) :: g_map s) s)
      | Some _ => destroy d s
      end
  end.

(** poll.hpp 60-110: the events of a result. *)
Record flags := mkFl { f_in : bool; f_rdhup : bool; f_hup : bool; f_err : bool }.
Definition only_in (f : flags) : bool := f_in f && negb (f_rdhup f) && negb (f_hup f) && negb (f_err f).

(** What the kernel says in one turn of the loop in [poll]. *)
Inductive pev :=
| PNone                                   (* no event, or EINTR *)
| POn (fd : N) (f : flags).
(** accept and fcntl (568-590): the new descriptor, whether it could be made
    non-blocking, whether it could be added to the epoll set. *)
Inductive pacc := AFail | ANew (fd : N) (nonblock add : bool).

(** 568-603: createSocket. *)
Definition create_socket (a : pacc) (s : grp) : out :=
  match a with
  | AFail => Exit
  | ANew fd nonblock add =>
      match findN fd (g_open s) with
      | Some _ => Not
      | None =>
          if negb nonblock then Ok s RNone
          else if g_accept s
          then match adopt fd add s with Some s => Ok s RNone | None => Wrong end
          else Ok s RNone
      end
  end.

(** 471-481; [ok]: whether the kernel takes the listeners. *)
Definition refresh (ok : bool) (s : grp) : option grp :=
  if g_refresh s then
    if g_accept s && negb ok && negb (match g_listeners s with [] => true | _ => false end) then None
    else
      let p := filter (fun fd => negb (memN fd (g_listeners s))) (g_poll s) in
      Some (set_refresh false (set_poll (if g_accept s then g_listeners s ++ p else p) s))
  else Some s.

(** One turn of the loop in [poll] (467-553).  The result is [RSock d] when
    poll returns that socket. *)
Definition poll_turn (ok : bool) (e : pev) (a : pacc) (s : grp) : out :=
  if (length (g_listeners s) + length (g_map s) =? 0)%nat then Ok s RNone
  else match refresh ok s with
  | None => Exit
  | Some s =>
      match e with
      | PNone => Ok s RNone
      | POn fd f =>
          if negb (memN fd (g_poll s)) then Not
          else if memN fd (g_listeners s) then
            (if only_in f then create_socket a s else Exit)
          else if N.eqb fd wake_fd then
            (if only_in f then Ok s RNone
             else if f_hup f || f_rdhup f || f_err f then Exit else Ok s RNone)
          else match findN fd (g_map s) with
          | None =>   (* 523-530: not in m_sockets *)
              match findN fd (g_open s) with
              | Some _ => Ok (shut fd s) RNone
              | None => Wrong
              end
          | Some d =>
              if f_rdhup f || f_hup f || f_err f
              then Ok (set_data (upd d mark_closing (g_data s)) s) (RSock d)
              else if f_in f then Ok s (RSock d) else Exit
          end
      end
  end.

(** What ::read and ::send may answer. *)
Inductive kio := KCount (n : N) | KAgain | KError.

(** An operation on the group; lines of sockets.cpp. *)
Inductive gop :=
| OListen (fd : N)                 (* 194-366, when the system calls succeed *)
| OConnect (fd : N) (add : bool)   (* 368-465, when the system calls succeed *)
| OAccept (status : bool)          (* 610-618 *)
| OPoll (ok : bool) (e : pev) (a : pacc)
| ORead (d : nat) (k : kio)        (* 59-88 *)
| OWrite (d : nat) (k : kio)       (* 90-111 *)
| OClose (d : nat).

(** sockets.cpp 59-111: a failed read or write closes the socket and gives -1.
    *)
Definition closing_after (d : nat) (s : grp) : out :=
  match close d s with Some s => Ok s (RNum (-1)) | None => Wrong end.

(** One operation; lines of sockets.cpp as in [gop]. *)
Definition gstep (o : gop) (s : grp) : out :=
  match o with
  | OListen fd =>
      match findN fd (g_open s) with
      | Some _ => Not
      | None => Ok (set_refresh true (set_listeners (fd :: g_listeners s) (set_open ((fd, KListener) :: g_open s) s))) RNone
      end
  | OConnect fd add =>
      match findN fd (g_open s) with
      | Some _ => Not
      | None =>
          match adopt fd add s with
          | Some s => match findN fd (g_map s) with Some d => Ok s (RSock d) | None => Wrong end
          | None => Wrong
          end
      end
  | OAccept status =>
      if Bool.eqb status (g_accept s) then Ok s RNone else Ok (set_accept status (set_refresh true s)) RNone
  | OPoll ok e a => poll_turn ok e a s
  | ORead d k =>
      match nth_error (g_data s) d with
      | None => Not
      | Some x =>
          if negb (d_valid x) then Ok s (RNum (-1))
          else if negb (owned (d_fd x) d s) then Wrong
          else match k with
          | KError => closing_after d s
          | KAgain => Ok s (RNum 0)
          | KCount n => if N.eqb n 0 && d_closing x then closing_after d s else Ok s (RNum (Z.of_N n))
          end
      end
  | OWrite d k =>
      match nth_error (g_data s) d with
      | None => Not
      | Some x =>
          if negb (d_valid x) || d_closing x then Ok s (RNum (-1))
          else if negb (owned (d_fd x) d s) then Wrong
          else match k with
          | KError => closing_after d s
          | KAgain => Ok s (RNum 0)
          | KCount n => Ok s (RNum (Z.of_N n))
          end
      end
  | OClose d =>
      match nth_error (g_data s) d with
      | None => Not
      | Some _ => match close d s with Some s => Ok s RNone | None => Wrong end
      end
  end.

(** Auxiliary, no counterpart in the code: the operations one after another.
    *)
Fixpoint gexec (l : list gop) (s : grp) : out :=
  match l with
  | [] => Ok s RNone
  | o :: l => match gstep o s with Ok s _ => gexec l s | x => x end
  end.

(** 311-366 and 387-465: trying the addresses that getaddrinfo gave.  The
    candidates are numbered 0 .. n-1; [works i j] says whether the [j]-th
    attempt, on candidate [i], succeeds; the descriptor of a failed attempt is
    closed.  [TSpin]: still trying after [fuel] attempts. *)
Inductive tried := TGot (i : nat) | TNone | TSpin.

(** 348: [for(auto i=result; i!=nullptr; i=result->ai_next)]. *)
Fixpoint listen_try (works : nat -> nat -> bool) (n : nat) (fuel : nat) (i : option nat) (j : nat) : tried :=
  match fuel with
  | O => TSpin
  | S fuel =>
      match i with
      | None => TNone
      | Some i => if works i j then TGot i
                  else listen_try works n fuel (if 1 <? n then Some 1 else None) (S j)
      end
  end.

(** 432: [for(auto i=result; i!=nullptr; i=result->ai_next==i?nullptr:result->ai_next)]. *)
Fixpoint connect_try (works : nat -> nat -> bool) (n : nat) (fuel : nat) (i : option nat) (j : nat) : tried :=
  match fuel with
  | O => TSpin
  | S fuel =>
      match i with
      | None => TNone
      | Some i => if works i j then TGot i
                  else connect_try works n fuel
                         (if 1 <? n then (if Nat.eqb 1 i then None else Some 1) else None) (S j)
      end
  end.
(** getaddrinfo gives at least one candidate when it succeeds. *)
Definition listen_on works n fuel := listen_try works n fuel (if n =? 0 then None else Some 0) 0.
Definition connect_to works n fuel := connect_try works n fuel (if n =? 0 then None else Some 0) 0.

(** 160-170: ~SocketGroup, both ends of the wake pair (one is in the model) and
    the listeners; the names of the files are in Model/Listen.v.  Then the
    members: m_sockets is destroyed with the Sockets in it, while m_poll, which
    ~Socket uses, is still there (sockets.hpp 407-442). *)
Fixpoint end_sockets (l : list (N * nat)) (s : grp) : option grp :=
  match l with
  | [] => Some s
  | (_, d) :: l => match destroy d s with Some s => end_sockets l s | None => None end
  end.
Definition gend (s : grp) : option grp :=
  let s := set_open (filter (fun x => match snd x with KConn _ => true
                                      | KWakeEnd => negb (N.eqb (fst x) wake_fd)
                                      | KListener => negb (memN (fst x) (g_listeners s)) end) (g_open s)) s in
  match end_sockets (g_map s) s with
  | Some s => Some (set_map [] s)
  | None => None
  end.
