(** Model of the mail sender, src/mailer.cpp and include/fastcgi++/mailer.hpp,
    as a transition system: the handler thread, and [queue], [stop] and
    [terminate] called by others.  What the handler does with the mutex held is
    one step, and so is what it does in between with things no other thread
    touches.

    Simplified: the socket group holds at most the one connection, so
    SocketGroup::poll (src/sockets.cpp 467-553) gives back that connection, or
    [Socket()] when it is woken or holds none; what the network does is in
    [menv].  The length of the wait before a retry is not modelled.  An email
    is what Email_base::data gives (email.hpp 92-96); how its body gets into
    chunks is in Model/Chunks.v. *)
From Coq Require Import String List NArith Bool.
From Verif Require Import Model.Base.
Import ListNotations.

(** Email_base::Data, email.hpp 70-89. *)
Record mail := mkMail { m_body : list (list N); m_to : list N; m_from : list N }.

(** A Mail::Email as constructed: email.hpp 51-100. *)
Definition no_mail : mail := mkMail [] [] [].

(** Mailer::inEmail, mailer.hpp 164-167. *)
Definition in_mail (e : mail) : bool := match m_to e with [] => false | _ => true end.

(** Mailer::State, mailer.hpp 178-190. *)
Inductive mstate :=
| DISCONNECTED | CONNECTED | EHLO | EIGHTBIT | MAIL | RCPT | DATA | DUMP | QUIT | ERROR.

(** m_socket: default constructed, closed, or valid (sockets.hpp 231-234). *)
Inductive msock := SNull | SClosed | SOpen.

(** Where the handler is. *)
Inductive mpc :=
| MTop                         (* mailer.cpp 36, the mutex is held *)
| MWait                        (* 41 *)
| MRun                         (* 54-318, the mutex is released *)
| MEnd                         (* 322 *)
| MUndef.                      (* undefined behaviour *)

(** What can be observed, oldest first. *)
Inductive mlog :=
| LQueued (e : mail)
| LConnect                     (* a connection is made *)
| LRead (b : list N)           (* bytes are read from it *)
| LJunk (c : N)                (* the uninitialised variable of line 74 is examined *)
| LLine (l : list N)           (* a line of the server is acted on *)
| LSent (b : list N)           (* bytes are written to it *)
| LPurged (e : mail).          (* the email is given up as delivered *)

Record mst := mkMS {
  x_pc : mpc;
  x_state : mstate;
  x_sock : msock;
  x_line : list N;             (* m_line *)
  x_email : mail;              (* m_email *)
  x_queue : list mail;         (* m_queue *)
  x_stop : bool;
  x_term : bool;
  x_log : list mlog
}.

(** Auxiliary, no counterpart in the code: the state before the handler
    starts, mailer.hpp 117-196. *)
Definition m_init : mst := mkMS MTop DISCONNECTED SNull [] no_mail [] false false [].

(** Result of Socket::write, sockets.cpp 90-111: everything, only the first
    [n] bytes, or an error, which closes the socket. *)
Inductive wres := WAll | WShort (n : nat) | WErr.

(** The network during one run of 56-318. *)
Record menv := mkEnv {
  v_connect : bool;            (* whether a connection can be made *)
  v_mine : bool;               (* poll reports the connection, if there is one *)
  v_read : list N;             (* the bytes then read, one at a time *)
  v_lost : bool;               (* the read behind them gives -1 and not 0 *)
  v_junk : N;                  (* what is in [buffer] before anything is *)
  v_writes : list wres         (* results of the writes; [WAll] behind them *)
}.

(** A write of [b]: whether it was complete, what went out, the socket and the
    results left.  sockets.cpp 92: nothing is written to a closed socket. *)
Definition send (b : list N) (k : msock) (w : list wres) : bool * list mlog * msock * list wres :=
  match k with
  | SOpen =>
      match w with
      | [] => (true, [LSent b], SOpen, [])
      | WAll :: w' => (true, [LSent b], SOpen, w')
      | WShort n :: w' => (if Nat.ltb n (length b) then (false, [LSent (firstn n b)], SOpen, w') else (true, [LSent b], SOpen, w'))
      | WErr :: w' => (false, [], SClosed, w')
      end
  | _ => (false, [], k, w)
  end.

(** 237-247. *)
Fixpoint send_all (l : list (list N)) (k : msock) (w : list wres) : bool * list mlog * msock * list wres :=
  match l with
  | [] => (true, [], k, w)
  | b :: r =>
      match send b k w with
      | (true, e, k', w') => match send_all r k' w' with (ok, e', k'', w'') => (ok, e ++ e', k'', w'') end
      | (false, e, k', w') => (false, e, k', w')
      end
  end.

(** Socket::close, sockets.cpp 113-127. *)
Definition close (k : msock) : msock := match k with SOpen => SClosed | _ => k end.

(** [substr] compared with a literal, as at mailer.cpp 91 and 124-130. *)
Definition starts (p l : list N) : bool := list_eqb p (firstn (length p) l).

(** [size() >= 4] and [substr(0,3) == p] and [m_line[3] == c], as in 91, 124-130. *)
Definition code (p : string) (c : N) (l : list N) : bool := starts (lit p ++ [c]) l.
Definition space : N := 32.
Definition dash : N := 45.

(** The end of most cases: on success the next state, otherwise the socket is
    closed and the state is ERROR, e.g. 101-114. *)
Definition went (next : mstate) (r : bool * list mlog * msock * list wres) : mstate * msock * list mlog :=
  match r with (ok, ev, k, _) => if ok then (next, k, ev) else (ERROR, close k, ev) end.
Definition bad (k : msock) : mstate * msock * list mlog := (ERROR, close k, []).

(** The characters that end a line. *)
Definition lf : N := 10.
Definition cr : N := 13.

(** mailer.cpp 93-95, 152-155, 183-186: the commands with an argument. *)
Definition ehlo (origin : list N) : list N := lit "EHLO " ++ origin ++ [lf].
Definition mail_from (e : mail) : list N := lit "MAIL FROM: <" ++ m_from e ++ lit ">" ++ [lf].
Definition rcpt_to (e : mail) : list N := lit "RCPT TO: <" ++ m_to e ++ lit ">" ++ [lf].
Definition data_cmd : list N := lit "DATA" ++ [lf].
Definition dot_end : list N := [cr; lf] ++ lit "." ++ [cr; lf].
Definition quit_cmd : list N := lit "QUIT" ++ [lf].

(** 87-315: the new state and socket, what is sent, and whether purgeEmail is
    called (276, before anything is written). *)
Definition reply (origin : list N) (st : mstate) (l : list N) (e : mail) (k : msock) (w : list wres)
  : mstate * msock * list mlog * bool :=
  match st with
  | CONNECTED =>
      (if code "220" space l then went EHLO (send (ehlo origin) k w) else bad k, false)
  | EHLO =>
      if list_eqb l (lit "250-8BITMIME") then (EIGHTBIT, k, [], false)
      else if code "250" dash l then (EHLO, k, [], false)
      else (bad k, false)
  | EIGHTBIT =>
      if code "250" space l then (went MAIL (send (mail_from e) k w), false)
      else if code "250" dash l then (EIGHTBIT, k, [], false)
      else (bad k, false)
  | MAIL =>
      (if code "250" space l then went RCPT (send (rcpt_to e) k w) else bad k, false)
  | RCPT =>
      (if code "250" space l then went DATA (send data_cmd k w) else bad k, false)
  | DATA =>
      (if code "354" space l then
         went DUMP (match send_all (m_body e) k w with
                    | (true, ev, k', w') => match send dot_end k' w' with (ok, ev', k'', w'') => (ok, ev ++ ev', k'', w'') end
                    | r => r
                    end)
       else bad k, false)
  | DUMP =>
      if code "250" space l then (went QUIT (send quit_cmd k w), true) else (bad k, false)
  | QUIT => (if code "221" space l then DISCONNECTED else ERROR, close k, [], false)
  | ERROR | DISCONNECTED => (st, k, [], false)
  end.

(** 75-80: everything read goes into m_line but a final newline. *)
Definition reads_ok (b : list N) : bool := negb (existsb (N.eqb lf) (removelast b)).
Definition without_lf (b : list N) : list N := filter (fun c => negb (N.eqb c lf)) b.

(** 84-85: [None] when back() is called on an empty string. *)
Definition strip (l : list N) : option (list N) :=
  match rev l with
  | [] => None
  | c :: r => Some (if N.eqb c cr then rev r else l)
  end.

(** 72-318, with the state and socket 56-70 left behind.  [None]: not
    something the network could do. *)
Definition listen (origin : list N) (v : menv) (s : mst) : option mst :=
  let reads (k : msock) (b : list N) (ev : list mlog) : option mst :=
    let line := x_line s ++ without_lf b in
    let ev := ev ++ match b with [] => [LJunk (v_junk v)] | _ => [] end in
    if N.eqb (last b (v_junk v)) lf then
      match strip line with
      | None => Some (mkMS MUndef (x_state s) k line (x_email s) (x_queue s) (x_stop s) (x_term s) (x_log s ++ ev))
      | Some l =>
          match reply origin (x_state s) l (x_email s) k (v_writes v) with
          | (st, k', ev', purge) =>
              Some (mkMS MTop st k' [] (if purge then no_mail else x_email s) (x_queue s) (x_stop s) (x_term s)
                      (x_log s ++ ev ++ [LLine l] ++ (if purge then [LPurged (x_email s)] else []) ++ ev'))
          end
      end
    else Some (mkMS MTop (x_state s) k line (x_email s) (x_queue s) (x_stop s) (x_term s) (x_log s ++ ev)) in
  match x_sock s with
  | SNull => reads SNull [] []
  | SClosed => Some (mkMS MTop (x_state s) SClosed (x_line s) (x_email s) (x_queue s) (x_stop s) (x_term s) (x_log s))
  | SOpen =>
      if v_mine v then
        if reads_ok (v_read v)
        then reads (if negb (N.eqb (last (v_read v) 0%N) lf) && v_lost v then SClosed else SOpen) (v_read v) [LRead (v_read v)]
        else None
      else Some (mkMS MTop (x_state s) SOpen (x_line s) (x_email s) (x_queue s) (x_stop s) (x_term s) (x_log s))
  end.

(** 54-320. *)
Definition handle (origin : list N) (v : menv) (s : mst) : option mst :=
  if in_mail (x_email s) && negb (match x_sock s with SOpen => true | _ => false end) then
    if v_connect v
    then listen origin v (mkMS MRun CONNECTED SOpen [] (x_email s) (x_queue s) (x_stop s) (x_term s) (x_log s ++ [LConnect]))
    else Some (mkMS MTop ERROR SNull [] (x_email s) (x_queue s) (x_stop s) (x_term s) (x_log s))
  else listen origin v s.

(** The condition of 36 and 44. *)
Definition over (s : mst) : bool :=
  x_term s || (x_stop s && (match x_queue s with [] => true | _ => false end) && negb (in_mail (x_email s))).

(** 48-54. *)
Definition take (st : mstate) (s : mst) : mst :=
  match in_mail (x_email s), x_queue s with
  | false, e :: q => mkMS MRun st (x_sock s) (x_line s) e q (x_stop s) (x_term s) (x_log s)
  | _, _ => mkMS MRun st (x_sock s) (x_line s) (x_email s) (x_queue s) (x_stop s) (x_term s) (x_log s)
  end.

(** Auxiliary, no counterpart in the code: updates of one part of the state.
    *)
Definition at_pc (p : mpc) (s : mst) : mst :=
  mkMS p (x_state s) (x_sock s) (x_line s) (x_email s) (x_queue s) (x_stop s) (x_term s) (x_log s).

(** What may happen next: a step of the handler, with what the network does,
    or a call by another thread. *)
Inductive mact :=
| AGo                          (* the handler, where it needs nothing of the network *)
| ANet (v : menv)              (* the handler at [MRun] *)
| AMail (e : mail)             (* queue, 377-382 *)
| AMStop                       (* 324-330 *)
| AMTerm.                      (* 332-338 *)

Definition mstep (origin : list N) (a : mact) (s : mst) : option mst :=
  match a with
  | AGo =>
      match x_pc s with
      | MTop =>
          if over s then Some (at_pc MEnd s)
          else match x_state s with
               | ERROR => Some (at_pc MWait s)
               | _ => Some (take (x_state s) s)
               end
      | MWait =>
          if over s then Some (mkMS MEnd DISCONNECTED (x_sock s) (x_line s) (x_email s) (x_queue s) (x_stop s) (x_term s) (x_log s))
          else Some (take DISCONNECTED s)
      | _ => None
      end
  | ANet v => match x_pc s with MRun => handle origin v s | _ => None end
  | AMail e => Some (mkMS (x_pc s) (x_state s) (x_sock s) (x_line s) (x_email s) (x_queue s ++ [e]) (x_stop s) (x_term s) (x_log s ++ [LQueued e]))
  | AMStop => Some (mkMS (x_pc s) (x_state s) (x_sock s) (x_line s) (x_email s) (x_queue s) true (x_term s) (x_log s))
  | AMTerm => Some (mkMS (x_pc s) (x_state s) (x_sock s) (x_line s) (x_email s) (x_queue s) (x_stop s) true (x_log s))
  end.

(** A sequence of steps; [None] when one of them cannot happen.  Auxiliary, no
    counterpart in the code: the execution. *)
Fixpoint mexec (origin : list N) (l : list mact) (s : mst) : option mst :=
  match l with
  | [] => Some s
  | a :: l => match mstep origin a s with Some s' => mexec origin l s' | None => None end
  end.
