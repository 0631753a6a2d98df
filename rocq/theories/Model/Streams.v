(** Model of the output stream buffers: [WebStreambuf]
    (src/webstreambuf.cpp 143-213, include/fastcgi++/webstreambuf.hpp 190-240)
    and [FcgiStreambuf] (src/fcgistreambuf.cpp 36-194). *)
From Coq Require Import String List NArith ZArith Bool.
From Verif Require Import Model.Base Model.WebMaps Model.Protocol.
Import ListNotations.
Local Open Scope N_scope.

(* ------------------------------------------------------------------ *)
(** * WebStreambuf *)

(** State of a stream buffer: the put area [pbase, pptr) as a list, the size
    of the put area [epptr - pbase], the encoding, and whatever
    [emptyBuffer] writes to. *)
Record wsb (Dev : Type) := mkW {
  w_pend : list N;
  w_cap : nat;
  w_enc : encoding;
  w_dev : Dev
}.
Arguments mkW {Dev}.
Arguments w_pend {Dev}.
Arguments w_cap {Dev}.
Arguments w_enc {Dev}.
Arguments w_dev {Dev}.

Section Web.
Context {Dev : Type}.

(** The virtual [emptyBuffer]. *)
Variable emptyBuffer : wsb Dev -> outcome (bool * wsb Dev).

(** [traits::eq_int_type(to_int_type(c), eof())]: never for [char]
    ([to_int_type] yields 0..255); for [wchar_t] the value 0xffffffff. *)
Variable is_eof : N -> bool.

(** webstreambuf.cpp 170-193, the inner loop of [xsputn] for an encoding: the
    characters left over and the new content of the put area. *)
Fixpoint put_mapped (table : list (N * list N)) (s : list N) (pend : list N) (cap : nat)
  : list N * list N :=
  match s with
  | [] => ([], pend)
  | c :: s' =>
      let writeSpace := (cap - length pend)%nat in
      match map_find table c with
      | None =>
          if Nat.ltb writeSpace 1 then (s, pend)
          else put_mapped table s' (pend ++ [c]) cap
      | Some m =>
          if Nat.ltb writeSpace (length m) then (s, pend)
          else put_mapped table s' (pend ++ m) cap
      end
  end.

(** webstreambuf.cpp 152-193: one pass over the put area. *)
Definition put_pass (s : list N) (w : wsb Dev) : list N * wsb Dev :=
  match w_enc w with
  | E_NONE =>
      let actual := Nat.min (length s) (w_cap w - length (w_pend w)) in
      (skipn actual s, mkW (w_pend w ++ firstn actual s) (w_cap w) (w_enc w) (w_dev w))
  | e =>
      let '(s', pend') := put_mapped (enc_table e) s (w_pend w) (w_cap w) in
      (s', mkW pend' (w_cap w) (w_enc w) (w_dev w))
  end.

(** webstreambuf.cpp 143-201.  [sync] is [emptyBuffer()?0:-1]
    (webstreambuf.hpp 227-230) and its result is ignored here as in the
    C++. *)
Fixpoint xsputn (fuel : nat) (s : list N) (w : wsb Dev) : run (wsb Dev) :=
  match fuel with
  | O => Spin
  | S f =>
      let '(s', w') := put_pass s w in
      match s' with
      | [] => Done w'
      | _ =>
          match emptyBuffer w' with
          | UB => Undef
          | Val (_, w'') => xsputn f s' w''
          end
      end
  end.

(** [std::basic_streambuf::sputc] with [overflow] (webstreambuf.cpp 203-213).
    [overflow] calls [sputc] again; after a successful [emptyBuffer] of the
    buffers of this library there is room, if there were not the recursion
    would not end, hence the fuel. *)
Fixpoint sputc (fuel : nat) (c : N) (w : wsb Dev) : run (bool * wsb Dev) :=
  if Nat.ltb (length (w_pend w)) (w_cap w) then
    Done (true, mkW (w_pend w ++ [c]) (w_cap w) (w_enc w) (w_dev w))
  else
    match fuel with
    | O => Spin
    | S f =>
        match emptyBuffer w with
        | UB => Undef
        | Val (false, w') => Done (false, w')
        | Val (true, w') =>
            if is_eof c then Done (true, w') else sputc f c w'
        end
    end.

End Web.

(* ------------------------------------------------------------------ *)
(** * FcgiStreambuf *)

(** What has been handed to [send]: the records, oldest first. *)
Definition records := list (list obyte).

(** The record built by fcgistreambuf.cpp 101-121 and 138-160: [size] is
    [record.size()], [content] what is copied behind the header; the rest of
    the block is not written. *)
Definition stream_record (type id : N) (size : N) (content : list N) : list obyte :=
  let cl := N.of_nat (length content) in
  let padding := size - cl - headerSize in
  header_bytes type id cl padding ++ known content ++ repeat None (N.to_nat padding).

(** fcgistreambuf.cpp 99-123 ([emptyBuffer<char>]) and 137-161
    ([dump(data, size)]): the same loop.  [fuel] bounds the iterations; the
    length of the data is enough because each takes at least one byte.
    [maxLen] is 0xffff. *)
Fixpoint send_loop (maxLen : nat) (fuel : nat) (type id : N) (data : list N) (out : records)
  : run records :=
  match data with
  | [] => Done out
  | _ =>
      match fuel with
      | O => Spin
      | S f =>
          let count := N.of_nat (length data) in
          let content := firstn maxLen data in
          send_loop maxLen f type id (skipn maxLen data)
            (out ++ [stream_record type id (getRecordSize count) content])
      end
  end.

(** The largest content of a record: fcgistreambuf.cpp 107, 144 and 168. *)
Definition maxContent : nat := N.to_nat 0xffff.

(** Auxiliary, no counterpart in the code: a loop that does not end counts as
    undefined. *)
Definition run_outcome {A} (r : run A) : outcome A :=
  match r with Done a => Val a | _ => UB end.

(** fcgistreambuf.cpp 90-127.  An endless loop would show as [UB] here. *)
Definition emptyBuffer_char (type id : N) (w : wsb records) : outcome (bool * wsb records) :=
  match send_loop maxContent (length (w_pend w)) type id (w_pend w) (w_dev w) with
  | Done out => Val (true, mkW [] (w_cap w) (w_enc w) out)
  | _ => UB
  end.

(** ** UTF-8 conversion: libstdc++'s [codecvt_utf8<wchar_t>::do_out]
    (external; libstdc++ src/c++11/codecvt.cc, [ucs4_out] and
    [write_utf8_code_point]).  [strict] tells whether surrogates are refused,
    which depends on the libstdc++ version. *)
Definition utf8_write (c : N) : list N :=
  if c <? 0x80 then [c]
  else if c <=? 0x7ff then [N.shiftr c 6 + 0xc0; N.land c 0x3f + 0x80]
  else if c <=? 0xffff then
    [N.shiftr c 12 + 0xe0; N.land (N.shiftr c 6) 0x3f + 0x80; N.land c 0x3f + 0x80]
  else
    [N.shiftr c 18 + 0xf0; N.land (N.shiftr c 12) 0x3f + 0x80;
     N.land (N.shiftr c 6) 0x3f + 0x80; N.land c 0x3f + 0x80].

(** libstdc++ codecvt.cc: the code points codecvt_utf8 does not write; whether
    surrogates are among them depends on the version ([strict]). *)
Definition refused (strict : bool) (c : N) : bool :=
  (0x10ffff <? c) || (strict && (0xd800 <=? c) && (c <=? 0xdfff)).

(** Result of [codecvt_utf8::out] (libstdc++). *)
Inductive conv :=
| CvOk (bytes : list N)
| CvPartial (bytes rest : list N)
| CvError
| CvOverrun.      (* a write outside the block *)

(** [room] is [to_end - to_next] as a 64 bit [size_t]; [limit] is the real
    number of bytes left in the block. *)
Fixpoint ucs4_out (strict : bool) (from : list N) (room : N) (limit : N) (acc : list N) : conv :=
  match from with
  | [] => CvOk acc
  | c :: from' =>
      if refused strict c then CvError
      else
        let b := utf8_write c in
        let n := N.of_nat (length b) in
        if room <? n then CvPartial acc from
        else if limit <? n then CvOverrun
        else ucs4_out strict from' (trunc 64 (room + 2 ^ 64 - n)) (limit - n) (acc ++ b)
  end.

(** fcgistreambuf.cpp 36-88.  [record.end()] is [record.begin()] because the
    size of the fresh block is 0, so [to_end - to] is -8 wrapped to 64 bits.
    The block has [getRecordSize(count*4)] bytes, 4 being
    [converter.max_length()]. *)
Fixpoint empty_wide (strict : bool) (fuel : nat) (type id : N) (pend : list N) (out : records)
  : outcome (bool * records) :=
  match pend with
  | [] => Val (true, out)
  | _ =>
      match fuel with
      | O => UB
      | S f =>
          let count := N.of_nat (length pend) in
          let reserve := getRecordSize (count * 4) in
          match ucs4_out strict pend (2 ^ 64 - headerSize) (reserve - headerSize) [] with
          | CvError => Val (false, out)
          | CvOverrun => UB
          | CvOk bytes =>
              Val (true, out ++ [stream_record type id
                (getRecordSize (trunc 16 (N.of_nat (length bytes)))) bytes])
          | CvPartial bytes rest =>
              empty_wide strict f type id rest (out ++ [stream_record type id
                (getRecordSize (trunc 16 (N.of_nat (length bytes)))) bytes])
          end
      end
  end.

(** On failure [pbump(-count)] empties the put area (62); on success [setp]
    does (85). *)
Definition emptyBuffer_wide (strict : bool) (type id : N) (w : wsb records)
  : outcome (bool * wsb records) :=
  match empty_wide strict (length (w_pend w)) type id (w_pend w) (w_dev w) with
  | Val (b, out) => Val (b, mkW [] (w_cap w) (w_enc w) out)
  | UB => UB
  end.

(** dump(stream), fcgistreambuf.cpp 164-194.  [reads] are the results of the
    successive [stream.read] calls (each at most 0xffff bytes); running out of
    them means a read of zero bytes. *)
Fixpoint dump_reads (type id : N) (reads : list (list N)) (out : records) : records :=
  match reads with
  | [] => out
  | r :: reads' =>
      match r with
      | [] => out
      | _ => dump_reads type id reads'
               (out ++ [stream_record type id (getRecordSize (N.of_nat (length r))) r])
      end
  end.

(** FcgiStreambuf::s_buffSize, fcgistreambuf.hpp 122. *)
Definition s_buffSize : nat := N.to_nat 8192.

(** The operations a request can perform on its [out] or [err] buffer. *)
Inductive sop :=
| OpWrite (s : list N)                (* sputn *)
| OpPut (c : N)                       (* sputc *)
| OpEnc (e : encoding)                (* << Encoding::... *)
| OpDump (data : list N)              (* dump(data, size) *)
| OpDumpStream (reads : list (list N))
| OpFlush.                            (* pubsync *)

Section Ops.
Variable emptyBuffer : wsb records -> outcome (bool * wsb records).
Variable is_eof : N -> bool.
Variables type id : N.

(** One operation of the application on the stream: operator<<
    (webstreambuf.cpp 143-213), the manipulators (41-58), and dump
    (fcgistreambuf.cpp 130-194). *)
Definition stream_op (o : sop) (w : wsb records) : run (wsb records) :=
  match o with
  | OpWrite s => xsputn emptyBuffer (length s + 2) s w
  | OpPut c =>
      match sputc emptyBuffer is_eof 2 c w with
      | Done (_, w') => Done w'
      | Spin => Spin
      | Undef => Undef
      end
  | OpEnc e => Done (mkW (w_pend w) (w_cap w) e (w_dev w))
  | OpDump data =>
      match emptyBuffer w with
      | UB => Undef
      | Val (_, w') =>
          match send_loop maxContent (length data) type id data (w_dev w') with
          | Done out => Done (mkW (w_pend w') (w_cap w') (w_enc w') out)
          | Spin => Spin
          | Undef => Undef
          end
      end
  | OpDumpStream reads =>
      match emptyBuffer w with
      | UB => Undef
      | Val (_, w') =>
          Done (mkW (w_pend w') (w_cap w') (w_enc w') (dump_reads type id reads (w_dev w')))
      end
  | OpFlush =>
      match emptyBuffer w with
      | UB => Undef
      | Val (_, w') => Done w'
      end
  end.

(** Auxiliary, no counterpart in the code: the operations one after another.
    *)
Fixpoint stream_ops (os : list sop) (w : wsb records) : run (wsb records) :=
  match os with
  | [] => Done w
  | o :: os' =>
      match stream_op o w with
      | Done w' => stream_ops os' w'
      | Spin => Spin
      | Undef => Undef
      end
  end.
End Ops.

(** A fresh buffer, fcgistreambuf.hpp 52-55 and webstreambuf.hpp 238-240. *)
Definition fresh (cap : nat) : wsb records := mkW [] cap E_NONE [].

(** A new stream of char and the operations done on it. *)
Definition char_ops (type id : N) (os : list sop) : run (wsb records) :=
  stream_ops (emptyBuffer_char type id) (fun _ => false) type id os (fresh s_buffSize).

(** A new stream of wchar_t and the operations done on it. *)
Definition wide_ops (strict : bool) (type id : N) (os : list sop) : run (wsb records) :=
  stream_ops (emptyBuffer_wide strict type id) (fun c => c =? 0xffffffff) type id os
    (fresh s_buffSize).
