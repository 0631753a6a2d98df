(** Model of an HTTP client object over its life: Curl<charT>, src/curl.cpp and
    include/fastcgi++/curl.hpp, with the requests made of it one after another.
    The parts of one request are in Model/Curl.v.

    The object may have been copied: of the objects that share the buffers one,
    the original, can write to them, the others have no stream buffer.  What
    else is at the time of a transfer done to an object is left out (that is
    the user's to avoid), as is what libcurl does with the options it is given:
    a request is what they say.  The callback is in Model/Curler.v; the error
    buffer and the response code are libcurl's. *)
From Coq Require Import String List NArith ZArith Bool Arith.
From Verif Require Import Model.Base Model.WebMaps Model.Streams Model.Chunks Model.Curl Model.Sql.
Import ListNotations.

(** What libcurl (external) does with CURLOPT_SSL_VERIFYHOST 1: before 7.28.1
    it takes it as checking no more than that there is a name; before 7.66.0
    it refuses and leaves the option as it was; since then it is the same as 2. *)
Inductive curlver := CurlOld | CurlRefuses | CurlNew.
Definition set_host (v : curlver) (n old : N) : N :=
  if (n =? 1)%N then match v with CurlOld => 1 | CurlRefuses => old | CurlNew => 2 end%N else n.

(** A request as the options have it when libcurl makes it. *)
Record request := mkQ {
  q_url : option (list N);      (* CURLOPT_URL *)
  q_post : option N;            (* POST of that size, or GET *)
  q_headers : list (list N);    (* CURLOPT_HTTPHEADER *)
  q_peer : bool;                (* CURLOPT_SSL_VERIFYPEER *)
  q_host : N;                   (* CURLOPT_SSL_VERIFYHOST *)
  q_body : list (list N)        (* what the read callback gave, call by call *)
}.

(** What the program may do with the object: the public functions, curl.hpp
    179-279. *)
Inductive uop :=
| UUrl (s : list N) | UUrlW (s : list N)          (* setUrl *)
| UHeader (s : list N) | UHeaderW (s : list N)    (* addHeader *)
| UVerify (b : bool)                              (* verifySSL *)
| UText (original : bool) (o : cop)               (* the stream *)
| UPerform (original : bool) (offers : list N) (es : list rev_)  (* queued, and the transfer: what libcurl offers and brings *)
| UReset (original : bool).                       (* reset *)

Section Object.
Context {Dev : Type}.
Variable fuel : nat.
Variable ver : curlver.
Variable strict : bool.        (* the conversion to UTF-8, see Model/Streams.v *)
Variable eager : bool.         (* std::ostream::flush (external) also calls sync of a stream that is not good: libstdc++ before 12 *)
Variable empty : wsb Dev -> outcome (bool * wsb Dev).
Variable is_eof : N -> bool.
Variable body : wsb Dev -> list (list N).
Variable drain : list (list N) -> wsb Dev -> wsb Dev.  (* m_body when that is left *)
Variable alive : wsb Dev -> bool.                      (* the put area is there *)
Variable clear : wsb Dev -> wsb Dev.
Variable ev : rev_ -> resp -> rres.

(** The object, curl.hpp 95-177 and 248-250, and its easy handle in libcurl.
    *)
Record cobj := mkO {
  o_url : option (list N);
  o_headers : list (list N);    (* m_headers *)
  o_peer : bool;
  o_host : N;
  o_w : wsb Dev;                (* m_streamBuf *)
  o_good : bool;                (* the state of the original's stream *)
  o_resp : resp;
  o_log : list (request * resp) (* the requests made and what was there to see then *)
}.

(** [curl_easy_setopt] copies a string up to its zero. *)
Fixpoint cstr (s : list N) : list N :=
  match s with [] => [] | c :: r => if (c =? 0)%N then [] else c :: cstr r end.

(** Auxiliary, no counterpart in the code: updates of one part of the object.
    *)
Definition with_url (u : option (list N)) (o : cobj) : cobj :=
  mkO u (o_headers o) (o_peer o) (o_host o) (o_w o) (o_good o) (o_resp o) (o_log o).
Definition with_header (h : list N) (o : cobj) : cobj :=
  mkO (o_url o) (o_headers o ++ [h]) (o_peer o) (o_host o) (o_w o) (o_good o) (o_resp o) (o_log o).
Definition with_w (w : wsb Dev) (o : cobj) : cobj :=
  mkO (o_url o) (o_headers o) (o_peer o) (o_host o) w (o_good o) (o_resp o) (o_log o).

(** webstreambuf.cpp 41-58 and writing to a stream.  [dynamic_cast] of a null
    pointer is a null pointer, it does not throw. *)
Definition text (original : bool) (t : cop) (o : cobj) : run cobj :=
  if original then
    match t with
    | CEnc e => Done (with_w (mkW (w_pend (o_w o)) (w_cap (o_w o)) e (w_dev (o_w o))) o)
    | CFlush =>
        if o_good o || eager
        then match empty (o_w o) with UB => Undef | Val (_, w) => Done (with_w w o) end
        else Done o
    | _ =>
        if o_good o then
          if alive (o_w o)
          then match chunk_op empty is_eof fuel t (o_w o) with Done w => Done (with_w w o) | Spin => Spin | Undef => Undef end
          else Undef
        else Done o
    end
  else match t with CEnc _ => Undef | _ => Done o end.

(** curl.cpp 163-194: prepare, with 72-79: close; then the transfer.  The
    header list is set as an option when it is not empty; it only grows. *)
Definition perform (original : bool) (offers : list N) (es : list rev_) (o : cobj) : run cobj :=
  match empty (o_w o) with
  | UB => Undef
  | Val (_, w) =>
      let kind := prepare (body w) in
      match (match kind with Some _ => reads offers (body w, 0%N) | None => Done ([], (body w, 0%N)) end) with
      | Done (outs, rest) =>
          let q := mkQ (o_url o) kind (o_headers o) (o_peer o) (o_host o) outs in
          match respond ev es (o_resp o) with
          | RGood r | RShort r =>
              Done (mkO (o_url o) (o_headers o) (o_peer o) (o_host o) (drain (fst rest) w)
                        (if original then false else o_good o) r (o_log o ++ [(q, r)]))
          | _ => Undef
          end
      | Spin => Spin
      | Undef => Undef
      end
  end.

(** One call of the program; lines of curl.cpp as in the parts above. *)
Definition ustep (u : uop) (o : cobj) : run cobj :=
  match u with
  | UUrl s => Done (with_url (Some (cstr s)) o)                                             (* 99-103 *)
  | UUrlW s => Done (match to_bytes strict s with Some b => with_url (Some (cstr b)) o | None => o end)  (* 129-140 *)
  | UHeader s => Done (with_header (cstr s) o)                                              (* 142-146 *)
  | UHeaderW s => Done (match to_bytes strict s with Some b => with_header (cstr b) o | None => o end)   (* 148-159 *)
  | UVerify b =>                                                                            (* 113-127 *)
      Done (mkO (o_url o) (o_headers o) b (set_host ver (if b then 1 else 0) (o_host o)) (o_w o) (o_good o) (o_resp o) (o_log o))
  | UText original t => text original t o
  | UPerform original offers es => perform original offers es o
  | UReset original =>                                                                      (* 196-201, 62-69, 81-87 *)
      Done (mkO None (o_headers o) true 2 (clear (o_w o)) (original || o_good o) resp_init (o_log o))
  end.
Fixpoint urun (us : list uop) (o : cobj) : run cobj :=
  match us with
  | [] => Done o
  | u :: us' => match ustep u o with Done o' => urun us' o' | Spin => Spin | Undef => Undef end
  end.

(** A new object; libcurl checks peer and host unless told otherwise. *)
Definition o_new (w : wsb Dev) : cobj := mkO None [] true 2 w true resp_init [].
End Object.
Arguments cobj : clear implicits.

(** ** char: chunkstreambuf.cpp 35-60 (Model/Chunks.v).  [clear] leaves the
    encoding as it is. *)
Definition drain_chunk (left : list (list N)) (w : wsb cdev) : wsb cdev :=
  mkW (w_pend w) (w_cap w) (w_enc w)
    (match left with [] => mkC [] None | _ => mkC (removelast left) (Some (length (last left []))) end).
Definition alive_chunk (w : wsb cdev) : bool := match c_cur (w_dev w) with Some _ => true | None => false end.
Definition clear_chunk (w : wsb cdev) : wsb cdev := mkW [] (w_cap w) (w_enc w) (mkC [] (Some 0)).
Definition nrun (fuel : nat) (ver : curlver) (strict eager : bool) : list uop -> cobj cdev -> run (cobj cdev) :=
  urun fuel ver strict eager emptyBuffer_chunk (fun _ => false) chunk_body drain_chunk alive_chunk clear_chunk narrow_event.
Definition nnew : cobj cdev := o_new (chunk_fresh chunkCap).

(** ** wchar_t: chunkstreambuf.cpp 62-119. *)
Definition drain_wide (left : list (list N)) (w : wsb (list (list N))) : wsb (list (list N)) := mkW (w_pend w) (w_cap w) (w_enc w) left.
Definition clear_wide (w : wsb (list (list N))) : wsb (list (list N)) := mkW [] (w_cap w) (w_enc w) [].
Definition wrun (fuel : nat) (ver : curlver) (strict eager : bool) : list uop -> cobj (list (list N)) -> run (cobj (list (list N))) :=
  urun fuel ver strict eager (emptyBuffer_wchunk strict fuel) (fun c => N.eqb c 0xffffffff) (fun w => w_dev w) drain_wide
       (fun _ => true) clear_wide (wide_event strict).
Definition wnew : cobj (list (list N)) := o_new (mkW [] chunkCap E_NONE []).
