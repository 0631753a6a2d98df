(** Model of [Request] (src/request.cpp, include/fastcgi++/request.hpp). *)
From Coq Require Import String List NArith ZArith Bool.
From Verif Require Import Model.Base Model.Endian Model.Protocol Model.WebMaps Model.Streams
  Model.Environment Model.Multipart.
Import ListNotations.
Local Open Scope N_scope.

(** The character type of the request; [Wide]'s argument as in
    [emptyBuffer_wide]. *)
Inductive chars := Narrow | Wide (strict : bool).

(** FcgiStreambuf::emptyBuffer for the two character types: fcgistreambuf.cpp
    36-127. *)
Definition eb (k : chars) (type id : N) : wsb records -> outcome (bool * wsb records) :=
  match k with
  | Narrow => emptyBuffer_char type id
  | Wide strict => emptyBuffer_wide strict type id
  end.

(** [traits_type::eof()] as a character: webstreambuf.cpp 143-213. *)
Definition eof_of (k : chars) : N -> bool :=
  match k with Narrow => fun _ => false | Wide _ => fun c => c =? 0xffffffff end.

(** message.hpp 45-76: type and data block. *)
Record message := mkMsg { m_type : Z; m_data : list N }.

(** request.hpp 84-88, 300-330: what [configure] and the constructor fix. *)
Record config := mkCfg {
  c_id : N;
  c_role : N;
  c_kill : bool;
  c_maxPost : N
}.

(** A call of a virtual function of the application, with what it is given:
    [environment()], and [m_message] or the byte count. *)
Inductive call :=
| CResponse (e : env) (m : message)
| CIn (e : env) (bytes : N)
| CInProcessor (e : env)
| CError (e : env)
| CBigPost (e : env)
| CUnknownContent (e : env).

(** The application: user state [U]; a call yields the new user state, the
    environment it leaves behind (the accessor is not const), what it writes
    to [err] (true) and [out] (false), and its result (ignored for [void]
    functions).  [a_good] tells whether [out] and [err] are good when
    [complete] flushes them ([flush] on a bad stream does nothing).  What a
    call does elsewhere (other threads, the message callback) and exceptions
    are not modelled. *)
Record application (U : Type) := mkApp {
  a_call : call -> U -> U * env * list (bool * sop) * bool;
  a_good : U -> bool * bool
}.
Arguments mkApp {U}.
Arguments a_call {U}.
Arguments a_good {U}.

(** request.hpp 320-349.  [q_sent] is what was handed to [m_send], with the
    kill flag; [q_calls] and [q_ops] are the histories of the calls made and
    of what they wrote (not in the C++). *)
Record rq (U : Type) := mkRq {
  q_user : U;
  q_env : env;
  q_state : N;
  q_status : N;
  q_out : wsb records;
  q_err : wsb records;
  q_sent : list (list obyte * bool);
  q_calls : list call;
  q_ops : list (bool * sop)
}.
Arguments mkRq {U}.
Arguments q_user {U}.
Arguments q_env {U}.
Arguments q_state {U}.
Arguments q_status {U}.
Arguments q_out {U}.
Arguments q_err {U}.
Arguments q_sent {U}.
Arguments q_calls {U}.
Arguments q_ops {U}.

(** request.cpp 32-53, the END_REQUEST record; header.reserved and
    body.reserved are not written. *)
Definition end_record (id status : N) : list obyte :=
  header_bytes T_END_REQUEST id 8 0 ++ known (to32 0) ++ known [status] ++ repeat None 3.

(** request.cpp 171-217: the texts of the default error handlers. *)
Definition error_text (status : string) : list N :=
  lit "Status: " ++ lit status ++ [10]
  ++ lit "Content-Type: text/html; charset=utf-8" ++ [13; 10; 13; 10]
  ++ lit "<!DOCTYPE html><html lang='en'><head><title>" ++ lit status
  ++ lit "</title></head><body><h1>" ++ lit status ++ lit "</h1></body></html>".

(** request.cpp 171-217 and request.hpp 266-290: the functions an application
    does not override. *)
Definition default_call {U} (c : call) (u : U) : U * env * list (bool * sop) * bool :=
  match c with
  | CResponse e _ => (u, e, [], true)     (* pure virtual; unused *)
  | CIn e _ => (u, e, [], false)
  | CInProcessor e => (u, e, [], false)
  | CError e => (u, e, [(false, OpWrite (error_text "500 Internal Server Error"))], false)
  | CBigPost e => (u, e, [(false, OpWrite (error_text "413 Request Entity Too Large"))], false)
  | CUnknownContent e => (u, e, [(false, OpWrite (error_text "415 Unsupported Media Type"))], false)
  end.

(** request.hpp 85-96: a new request. *)
Definition rq_init {U} (u : U) : rq U :=
  mkRq u env_init T_PARAMS REQUEST_COMPLETE (fresh s_buffSize) (fresh s_buffSize) [] [] [].

Section Request.
Variable vts : list N -> list N -> list N.
Variable junk : nat -> list N.
Variable http_time : list N -> Z.
Variable k : chars.
Context {U : Type}.
Variable A : application U.
Variable cfg : config.

(** One stream operation on [err] or [out]; what the buffer sends goes to
    [m_send] with kill false (request.cpp 234-241).  Between operations the
    device of a buffer is empty. *)
Definition stream_do (x : bool * sop) (st : rq U) : run (rq U) :=
  let type := if fst x then T_ERR else T_OUT in
  match stream_op (eb k type (c_id cfg)) (eof_of k) type (c_id cfg) (snd x)
          (if fst x then q_err st else q_out st) with
  | Done w =>
      let sent := q_sent st ++ map (fun r => (r, false)) (w_dev w) in
      let w' := mkW (w_pend w) (w_cap w) (w_enc w) [] in
      Done (if fst x
            then mkRq (q_user st) (q_env st) (q_state st) (q_status st) (q_out st) w' sent (q_calls st) (q_ops st)
            else mkRq (q_user st) (q_env st) (q_state st) (q_status st) w' (q_err st) sent (q_calls st) (q_ops st))
  | Spin => Spin
  | Undef => Undef
  end.

(** Auxiliary, no counterpart in the code: the operations of the application
    on [out] ([false]) and [err], one after another. *)
Fixpoint stream_all (l : list (bool * sop)) (st : rq U) : run (rq U) :=
  match l with
  | [] => Done st
  | x :: l' => run_bind (stream_do x st) (stream_all l')
  end.

(** A call of the application. *)
Definition invoke (c : call) (st : rq U) : run (bool * rq U) :=
  let '(u, e, ops, b) := a_call A c (q_user st) in
  run_bind (stream_all ops (mkRq u e (q_state st) (q_status st) (q_out st) (q_err st) (q_sent st)
                                 (q_calls st ++ [c]) (q_ops st ++ ops)))
    (fun st' => Done (b, st')).

(** Auxiliary, no counterpart in the code: updates of one part of the request.
    *)
Definition set_state (s : N) (st : rq U) : rq U :=
  mkRq (q_user st) (q_env st) s (q_status st) (q_out st) (q_err st) (q_sent st) (q_calls st) (q_ops st).
Definition set_status (s : N) (st : rq U) : rq U :=
  mkRq (q_user st) (q_env st) (q_state st) s (q_out st) (q_err st) (q_sent st) (q_calls st) (q_ops st).
Definition set_env (e : env) (st : rq U) : rq U :=
  mkRq (q_user st) e (q_state st) (q_status st) (q_out st) (q_err st) (q_sent st) (q_calls st) (q_ops st).

(** request.cpp 32-53. *)
Definition complete (st : rq U) : run (rq U) :=
  let '(og, eg) := a_good A (q_user st) in
  run_bind (stream_all ((if og then [(false, OpFlush)] else []) ++
                        (if eg then [(true, OpFlush)] else [])) st)
    (fun st' => Done (mkRq (q_user st') (q_env st') (q_state st') (q_status st') (q_out st') (q_err st')
       (q_sent st' ++ [(end_record (c_id cfg) (q_status st'), c_kill cfg)]) (q_calls st') (q_ops st'))).

(** An error handler followed by [complete]. *)
Definition fail_with (c : call) (st : rq U) : run (bool * rq U) :=
  run_bind (invoke c st) (fun p => run_bind (complete (snd p)) (fun st' => Done (true, st'))).

(** request.cpp 157-164: [response]. *)
Definition respond (m : message) (st : rq U) : run (bool * rq U) :=
  run_bind (invoke (CResponse (q_env st) m) st) (fun p =>
    if fst p then run_bind (complete (snd p)) (fun st' => Done (true, st'))
    else Done (false, snd p)).

(** request.cpp 59-166, one iteration with the message taken from the queue:
    whether the request ended, and its state.  The header is read from the
    block and the content copied from it: [Undef] if it is shorter. *)
Definition step (m : message) (st : rq U) : run (bool * rq U) :=
  if (m_type m =? 0)%Z then
    let data := m_data m in
    match rd data 1, from16 (skipn 4 data), rd data 7 with
    | Some type, Some contentLength, Some _ =>
        if type =? T_ABORT_REQUEST then
          run_bind (complete st) (fun st' => Done (true, st'))
        else if negb (type =? q_state st) then fail_with (CError (q_env st)) st
        else if q_state st =? T_PARAMS then
          if negb ((c_role cfg =? ROLE_RESPONDER) || (c_role cfg =? ROLE_AUTHORIZER)) then
            fail_with (CError (q_env st)) (set_status UNKNOWN_ROLE st)
          else if contentLength =? 0 then
            if c_maxPost cfg <? e_contentLength (q_env st) then fail_with (CBigPost (q_env st)) st
            else Done (false, set_state T_IN st)
          else
            run_bind (fill vts junk http_time (length data + 5) data headerSize
                        (headerSize + contentLength) (q_env st))
              (fun e => Done (false, set_env e st))
        else if q_state st =? T_IN then
          if contentLength =? 0 then
            run_bind (invoke (CInProcessor (q_env st)) st) (fun p =>
              if fst p then
                respond m (set_state T_OUT (set_env (clearPostBuffer (q_env (snd p))) (snd p)))
              else
                run_bind (parsePostBuffer vts junk (q_env (snd p))) (fun r =>
                  let st' := set_env (snd r) (snd p) in
                  if fst r then respond m (set_state T_OUT (set_env (clearPostBuffer (q_env st')) st'))
                  else fail_with (CUnknownContent (q_env st')) st'))
          else if e_contentLength (q_env st) <?
                  N.of_nat (length (e_postBuffer (q_env st))) + contentLength then
            fail_with (CBigPost (q_env st)) st
          else if N.of_nat (length data) <? headerSize + contentLength then Undef
          else
            let bytes := slice data (N.to_nat headerSize) (N.to_nat (headerSize + contentLength)) in
            let st' := set_env (fillPostBuffer bytes (q_env st)) st in
            run_bind (invoke (CIn (q_env st') contentLength) st') (fun p => Done (false, snd p))
        else fail_with (CError (q_env st)) st
    | _, _, _ => Undef
    end
  else respond m st.

(** request.cpp 55-169: the messages in the queue, taken one by one until the
    request ends or none is left; whether it ended (the lock is returned
    unlocked), the messages left and the state. *)
Fixpoint handler (ms : list message) (st : rq U) : run (bool * list message * rq U) :=
  match ms with
  | [] => Done (false, [], st)
  | m :: ms' =>
      run_bind (step m st) (fun p =>
        if fst p then Done (true, ms', snd p) else handler ms' (snd p))
  end.

End Request.
