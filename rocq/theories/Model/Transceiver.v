(** Model of [Transceiver] (src/transceiver.cpp) over [Socket]
    (src/sockets.cpp 44-140), as a transition system: the I/O thread, any
    threads calling [send], and the network.

    Sockets are numbers: the identity of the shared [Socket::Data], which is
    what [Socket::operator<] and [operator==] compare (sockets.hpp 182-191).
    A number is never reused because every copy of a socket shares the data.

    Not modelled here: [m_stop]/[m_terminate] (Model/Manager.v), the wake
    socket (Model/Wake.v), the file descriptor registration (Model/Sockets.v),
    statistics. *)
From Coq Require Import String List NArith ZArith Bool Arith.
From Verif Require Import Model.Base Model.Endian Model.Protocol Model.Block.
Import ListNotations.

(** Auxiliary, no counterpart in the code: a function changed at one point. *)
Definition fset {A} (f : N -> A) (k : N) (a : A) : N -> A :=
  fun x => if N.eqb x k then a else f x.

(* ------------------------------------------------------------------ *)
(** * Sockets *)

(** [Socket::Data] (sockets.hpp 98-121) with its kernel side: [s_in] are the
    bytes that have arrived and were not read, [s_out] those the kernel has
    accepted.  [s_born] tells whether the socket was ever created. *)
Record sock := mkS {
  s_born : bool; s_valid : bool; s_closing : bool; s_in : list N; s_out : list obyte }.

(** What the kernel answers to a [::read] (any other error than EAGAIN is
    [KErr]) and to a [::send]. *)
Inductive kread := KGive (k : nat) | KAgain | KEof | KErr.
Inductive kwrite := WTake (k : nat) | WErr.

(** sockets.cpp 113-127; [m_sockets.erase] is in Model/Sockets.v. *)
Definition sock_close (s : sock) : sock := mkS (s_born s) false (s_closing s) (s_in s) (s_out s).

(** sockets.cpp 59-88: [None] is -1, otherwise the bytes stored at [buffer].
    [KGive k] yields at most [k] bytes, no more than asked for and no more than
    there are; when that is nothing the kernel says EAGAIN.  A read of zero
    bytes yields 0 whatever the state. *)
Definition sock_read (o : kread) (n : nat) (s : sock) : option (list N) * sock :=
  if negb (s_valid s) then (None, s)
  else
    let zero := if s_closing s then (None, sock_close s) else (Some [], s) in
    match n with
    | O => zero
    | _ =>
        match o with
        | KErr => (None, sock_close s)
        | KAgain => (Some [], s)
        | KEof => zero
        | KGive k =>
            let c := Nat.min k n in
            (Some (firstn c (s_in s)),
             mkS (s_born s) (s_valid s) (s_closing s) (skipn c (s_in s)) (s_out s))
        end
    end.

(** sockets.cpp 90-111: [None] is -1, otherwise the number of bytes taken. *)
Definition sock_write (o : kwrite) (data : list obyte) (s : sock) : option nat * sock :=
  if negb (s_valid s) || s_closing s then (None, s)
  else
    match o with
    | WErr => (None, sock_close s)
    | WTake k =>
        let c := Nat.min k (length data) in
        (Some c, mkS (s_born s) (s_valid s) (s_closing s) (s_in s) (s_out s ++ firstn c data))
    end.

(* ------------------------------------------------------------------ *)
(** * Transceiver *)

(** transceiver.hpp 172-190. *)
Record txrec := mkX { x_sock : N; x_data : list obyte; x_read : nat; x_kill : bool }.

(** What [m_sendMessage] is called with: a record (request id of the header,
    socket, the message data), or the notification of a closed connection
    ([badFcgiId], that is 0xffff, and an empty message). *)
Inductive msg :=
| MRecord (id : N) (s : N) (data : list obyte)
| MClosed (s : N).

(** Where the I/O thread is. *)
Inductive tpc :=
| AtPoll                       (* transceiver.cpp 82 *)
| AtRecv (s : option N)        (* 83, with what poll returned *)
| TxTop                        (* 36 *)
| TxHave (r : txrec)           (* 44, the record is out of the queue *)
| TxBack (r : txrec).          (* 52, to be put back *)

(** [t_bufs] is [m_receiveBuffers], total: a missing entry is the empty block
    that [operator[]] would insert. *)
Record trx := mkT {
  t_socks : N -> sock;
  t_bufs : N -> block;
  t_queue : list txrec;
  t_msgs : list msg;
  t_pc : tpc }.

(** Auxiliary, no counterpart in the code: the state before anything happens.
    *)
Definition t_init : trx :=
  mkT (fun _ => mkS false false false [] []) (fun _ => b_empty) [] [] AtPoll.

(** Determined bytes of a block's array, [None] if out of range or never
    written. *)
Fixpoint loads (l : list obyte) (n : nat) {struct n} : option (list N) :=
  match n with
  | O => Some []
  | S n' =>
      match l with
      | Some b :: l' => match loads l' n' with Some r => Some (b :: r) | None => None end
      | _ => None
      end
  end.

(** The fields of [Protocol::Header] (protocol.hpp 188-207) through a
    [reinterpret_cast]. *)
Definition h_fcgiId (b : block) : outcome N :=
  match loads (skipn 2 (b_data b)) 2 with
  | Some a => match from16 a with Some v => Val v | None => UB end
  | None => UB
  end.
Definition h_contentLength (b : block) : outcome N :=
  match loads (skipn 4 (b_data b)) 2 with
  | Some a => match from16 a with Some v => Val v | None => UB end
  | None => UB
  end.
Definition h_paddingLength (b : block) : outcome N :=
  match loads (skipn 6 (b_data b)) 1 with
  | Some [v] => Val v
  | _ => UB
  end.

(** transceiver.cpp 193-203. *)
Definition cleanupSocket (s : N) (st : trx) : trx :=
  mkT (fset (t_socks st) s (sock_close (t_socks st s)))
      (fset (t_bufs st) s b_empty)
      (t_queue st) (t_msgs st ++ [MClosed s]) (t_pc st).

(** The call [socket.read(buffer.begin()+buffer.size(),
    buffer.reserve()-buffer.size())] and the [size] update behind it.
    [None]: the read failed and the socket was cleaned up. *)
Definition read_more (o : kread) (s : N) (b : block) (st : trx)
  : outcome (option block * trx) :=
  let '(r, sk) := sock_read o (b_reserve b - b_size b) (t_socks st s) in
  let st1 := mkT (fset (t_socks st) s sk) (t_bufs st) (t_queue st) (t_msgs st) (t_pc st) in
  match r with
  | None => Val (None, cleanupSocket s st1)
  | Some bytes =>
      obind (b_store (b_size b) (known bytes) b) (fun b1 =>
      obind (b_setSize (b_size b + length bytes) b1) (fun b2 =>
      Val (Some b2, mkT (t_socks st1) (fset (t_bufs st1) s b2) (t_queue st1) (t_msgs st1) (t_pc st1))))
  end.

(** transceiver.cpp 157-190: the header is complete. *)
Definition receive_body (o : kread) (s : N) (b : block) (st : trx) : outcome trx :=
  obind
    (if (b_size b =? 8)%nat then
       obind (h_contentLength b) (fun cl =>
       obind (h_paddingLength b) (fun pl =>
       b_setReserve (8 + N.to_nat cl + N.to_nat pl) b))
     else Val b) (fun b1 =>
  obind (read_more o s b1 st) (fun '(r, st1) =>
  match r with
  | None => Val st1
  | Some b2 =>
      if (b_size b2 <? b_reserve b2)%nat then Val st1
      else
        obind (h_fcgiId b2) (fun id =>
        Val (mkT (t_socks st1) (fset (t_bufs st1) s b_empty) (t_queue st1)
               (t_msgs st1 ++ [MRecord id s (b_view b2)]) (t_pc st1)))
  end)).

(** transceiver.cpp 134-191.  [o1], [o2]: the kernel's answers to the (at
    most) two reads. *)
Definition receive (o1 o2 : kread) (s : N) (st : trx) : outcome trx :=
  if negb (s_valid (t_socks st s)) then Val st
  else
    let b := t_bufs st s in
    if (b_size b <? 8)%nat then
      obind (b_setReserve 8 b) (fun b1 =>
      obind (read_more o1 s b1 st) (fun '(r, st1) =>
      match r with
      | None => Val st1
      | Some b2 => if (b_size b2 <? 8)%nat then Val st1 else receive_body o2 s b2 st1
      end))
    else receive_body o2 s b st.

(** What can happen. *)
Inductive tev :=
| EAccept (s : N)                        (* a connection is made, inside poll *)
| EPeer (s : N) (bytes : list N)         (* bytes arrive *)
| ESend (s : N) (data : list obyte) (kill : bool)   (* any thread, 205-222 *)
| EPoll (r : option (N * bool))          (* poll returns; true: the peer has closed its side *)
| ERecv (o1 o2 : kread)
| EPop
| EWrite (o : kwrite)
| EBack
| EDone.

(** Auxiliary, no counterpart in the code: updates of one part of the state.
    *)
Definition set_pc (p : tpc) (st : trx) : trx :=
  mkT (t_socks st) (t_bufs st) (t_queue st) (t_msgs st) p.

(** Auxiliary, no counterpart in the code: one socket replaced. *)
Definition set_sock (s : N) (k : sock) (st : trx) : trx :=
  mkT (fset (t_socks st) s k) (t_bufs st) (t_queue st) (t_msgs st) (t_pc st).

(** One step; [None]: the event cannot happen in this state. *)
Definition tstep (e : tev) (st : trx) : option (outcome trx) :=
  match e, t_pc st with
  | EAccept s, AtPoll =>
      (* sockets.cpp 568-603 *)
      if s_born (t_socks st s) then None
      else Some (Val (set_sock s (mkS true true false [] []) st))
  | EPeer s bytes, _ =>
      let k := t_socks st s in
      if s_valid k then
        Some (Val (set_sock s (mkS (s_born k) (s_valid k) (s_closing k) (s_in k ++ bytes) (s_out k)) st))
      else None
  | ESend s data kill, _ =>
      if s_born (t_socks st s) then
        Some (Val (mkT (t_socks st) (t_bufs st) (t_queue st ++ [mkX s data 0 kill])
                     (t_msgs st) (t_pc st)))
      else None
  | EPoll None, AtPoll => Some (Val (set_pc (AtRecv None) st))
  | EPoll (Some (s, hup)), AtPoll =>
      (* sockets.cpp 522-548: the socket is found in m_sockets *)
      let k := t_socks st s in
      if s_valid k then
        Some (Val (set_pc (AtRecv (Some s))
          (set_sock s (mkS (s_born k) (s_valid k) (s_closing k || hup) (s_in k) (s_out k)) st)))
      else None
  | ERecv o1 o2, AtRecv None => Some (Val (set_pc TxTop st))
  | ERecv o1 o2, AtRecv (Some s) =>
      Some (obind (receive o1 o2 s st) (fun st' => Val (set_pc TxTop st')))
  | EPop, TxTop =>
      (* 36-42 *)
      match t_queue st with
      | [] => None
      | r :: q => Some (Val (mkT (t_socks st) (t_bufs st) q (t_msgs st) (TxHave r)))
      end
  | EWrite o, TxHave r =>
      (* 44-70 *)
      let s := x_sock r in
      let '(w, k) := sock_write o (skipn (x_read r) (x_data r)) (t_socks st s) in
      match w with
      | None => Some (Val (set_pc TxTop (set_sock s k st)))
      | Some c =>
          let read' := (x_read r + c)%nat in
          let r' := mkX s (x_data r) read' (x_kill r) in
          if negb (read' =? length (x_data r))%nat
          then Some (Val (set_pc (TxBack r') (set_sock s k st)))
          else if x_kill r
          then Some (Val (mkT (fset (t_socks st) s (sock_close k)) (fset (t_bufs st) s b_empty)
                            (t_queue st) (t_msgs st) TxTop))
          else Some (Val (set_pc TxTop (set_sock s k st)))
      end
  | EBack, TxBack r =>
      (* 52-57 *)
      Some (Val (mkT (t_socks st) (t_bufs st) (r :: t_queue st) (t_msgs st) AtPoll))
  | EDone, TxTop =>
      (* 36 and 72 *)
      match t_queue st with
      | [] => Some (Val (set_pc AtPoll st))
      | _ => None
      end
  | _, _ => None
  end.

(** Executions, as the list of events from the start. *)
Inductive texec : list tev -> trx -> Prop :=
| te_init : texec [] t_init
| te_step : forall tr e st st',
    texec tr st -> tstep e st = Some (Val st') -> texec (tr ++ [e]) st'.
