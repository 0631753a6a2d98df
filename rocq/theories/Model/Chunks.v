(** Model of the chunked stream buffers (src/chunkstreambuf.cpp,
    include/fastcgi++/chunkstreambuf.hpp) in which the body of an e-mail
    (src/email.cpp) or of an upload (src/curl.cpp) is collected, on top of
    [WebStreambuf] (Model/Streams.v). *)
From Coq Require Import List NArith Bool Arith.
From Verif Require Import Model.Base Model.WebMaps Model.Streams.
Import ListNotations.

(** Chunk::capacity, chunkstreambuf.hpp 54. *)
Definition chunkCap : nat := N.to_nat 4096.

(** ** ChunkStreamBuf<char>

    The put area is the memory of the last chunk.  [c_full]: the chunks before
    it; [c_cur]: the [size] of the last one, [None] when the list is empty
    (after it has been moved out of the buffer). *)
Record cdev := mkC { c_full : list (list N); c_cur : option nat }.

(** chunkstreambuf.cpp 35-38, 46-52. *)
Definition chunk_fresh (cap : nat) : wsb cdev := mkW [] cap E_NONE (mkC [] (Some 0)).

(** 54-60.  [m_body.back()] of an empty list is undefined. *)
Definition emptyBuffer_chunk (w : wsb cdev) : outcome (bool * wsb cdev) :=
  match c_cur (w_dev w) with
  | None => UB
  | Some _ =>
      if Nat.eqb (length (w_pend w)) (w_cap w)
      then Val (true, mkW [] (w_cap w) (w_enc w) (mkC (c_full (w_dev w) ++ [w_pend w]) (Some 0)))
      else Val (true, mkW (w_pend w) (w_cap w) (w_enc w) (mkC (c_full (w_dev w)) (Some (length (w_pend w)))))
  end.

(** What a reader of m_body sees: of each chunk, [size] bytes. *)
Definition chunk_body (w : wsb cdev) : list (list N) :=
  match c_cur (w_dev w) with
  | None => []
  | Some n => c_full (w_dev w) ++ [firstn n (w_pend w)]
  end.

(** Email_base::data (email.hpp 92-96): [close] (email.cpp 63-70), then the
    list is moved out. *)
Definition chunk_take (w : wsb cdev) : outcome (list (list N) * wsb cdev) :=
  match emptyBuffer_chunk w with
  | UB => UB
  | Val (_, w) => Val (chunk_body w, mkW (w_pend w) (w_cap w) (w_enc w) (mkC [] None))
  end.
(** ~ChunkStreamBuf, chunkstreambuf.hpp 88-91. *)
Definition chunk_destroy (w : wsb cdev) : outcome unit :=
  match emptyBuffer_chunk w with UB => UB | Val _ => Val tt end.

(** ** ChunkStreamBuf<wchar_t>

    The put area is m_buffer; the device is m_body, each chunk given by its
    [size] bytes. *)

(** 87-114: the conversion loop.  [conv.out] writes behind what is in the last
    chunk.  The result: whether it went well, the characters not converted
    when [count] was last set, the chunks.  [body] is all but the last chunk. *)
Fixpoint chunk_convert (strict : bool) (cap fuel : nat) (from : list N) (body : list (list N)) (last : list N)
  : run (bool * list N * list (list N)) :=
  match fuel with
  | O => Spin
  | S f =>
      let room := N.of_nat (cap - length last) in
      match ucs4_out strict from room room [] with
      | CvError => Done (false, from, body ++ [last])
      | CvOverrun => Undef
      | CvOk bytes => Done (true, [], body ++ [last ++ bytes])
      | CvPartial bytes rest => chunk_convert strict cap f rest (body ++ [last ++ bytes]) []
      end
  end.

(** 73-119.  On failure [pbump(-count)] takes back only what the last attempt
    was given. *)
Definition emptyBuffer_wchunk (strict : bool) (fuel : nat) (w : wsb (list (list N))) : outcome (bool * wsb (list (list N))) :=
  match w_pend w with
  | [] => Val (true, w)
  | _ =>
      let '(body, last) :=
        match rev (w_dev w) with
        | [] => ([], [])
        | l :: r => if Nat.eqb (length l) (w_cap w) then (w_dev w, []) else (rev r, l)
        end in
      match chunk_convert strict (w_cap w) fuel (w_pend w) body last with
      | Done (true, _, body') => Val (true, mkW [] (w_cap w) (w_enc w) body')
      | Done (false, rest, body') =>
          Val (false, mkW (firstn (length (w_pend w) - length rest) (w_pend w)) (w_cap w) (w_enc w) body')
      | _ => UB   (* an endless loop would show here *)
      end
  end.

(** ** What the user does: text is written, characters put, the encoding set,
    the stream flushed. *)
Inductive cop := CWrite (s : list N) | CPut (c : N) | CEnc (e : encoding) | CFlush.

Section Ops.
Context {Dev : Type}.
Variable emptyBuffer : wsb Dev -> outcome (bool * wsb Dev).
Variable is_eof : N -> bool.

(** What the application does with the stream, one operation: operator<<
    (webstreambuf.cpp 143-213), the manipulators (webstreambuf.cpp 41-58) and
    clear (chunkstreambuf.cpp 40-45, 67-72). *)
Definition chunk_op (fuel : nat) (o : cop) (w : wsb Dev) : run (wsb Dev) :=
  match o with
  | CWrite s => xsputn emptyBuffer fuel s w
  | CPut c =>
      match sputc emptyBuffer is_eof fuel c w with
      | Done (_, w') => Done w'
      | Spin => Spin
      | Undef => Undef
      end
  | CEnc e => Done (mkW (w_pend w) (w_cap w) e (w_dev w))
  | CFlush =>
      match emptyBuffer w with
      | UB => Undef
      | Val (_, w') => Done w'
      end
  end.

(** The operations one after another. Auxiliary, no counterpart in the code:
    the program of the application. *)
Fixpoint chunk_ops (fuel : nat) (os : list cop) (w : wsb Dev) : run (wsb Dev) :=
  match os with
  | [] => Done w
  | o :: os' =>
      match chunk_op fuel o w with
      | Done w' => chunk_ops fuel os' w'
      | Spin => Spin
      | Undef => Undef
      end
  end.
End Ops.

(** A stream of char, chunkstreambuf.cpp 35-60, with the operations done on a
    new one. *)
Definition char_chunks (fuel : nat) (os : list cop) : run (wsb cdev) :=
  chunk_ops emptyBuffer_chunk (fun _ => false) fuel os (chunk_fresh chunkCap).

(** A stream of wchar_t, chunkstreambuf.cpp 62-119, with the operations done
    on a new one. *)
Definition wide_chunks (strict : bool) (fuel : nat) (os : list cop) : run (wsb (list (list N))) :=
  chunk_ops (emptyBuffer_wchunk strict fuel) (fun c => N.eqb c 0xffffffff) fuel os (mkW [] chunkCap E_NONE []).
