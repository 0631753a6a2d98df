(** Model of a single request of the HTTP client: src/curl.cpp,
    include/fastcgi++/curl.hpp.  libcurl itself is external: it calls the
    callbacks in any order the statements allow.

    The other options, the request headers, copies and several requests of one
    object are in Model/CurlObject.v.  Not modelled: the move constructor. *)
From Coq Require Import String List NArith ZArith Bool Arith.
From Verif Require Import Model.Base Model.WebMaps Model.Streams Model.Chunks.
Import ListNotations.

(** * Sending: the body is collected in a ChunkStreamBuf (Model/Chunks.v) *)

(** Curl_base::prepare, curl.cpp 163-177, after [close] has flushed the buffer
    (74-80): [None] is a GET, [Some n] a POST with CURLOPT_POSTFIELDSIZE [n].
    [long] is taken as unbounded: 2^63 bytes do not fit in memory. *)
Definition prepare (chunks : list (list N)) : option N :=
  let size := fold_left (fun n c => (n + N.of_nat (length c))%N) chunks 0%N in
  if (0 <? size)%N then Some size else None.

(** Curl_base::readCallback, 216-249: one call of the loop 225-246.
    [unsigned] arithmetic is modulo 2^32.  Each chunk is given by its [size]
    bytes; reading behind them is undefined here. *)
Fixpoint read_loop (fuel : nat) (chunks : list (list N)) (rc ws : N) (out : list N)
  : run (list N * (list (list N) * N)) :=
  match fuel with
  | O => Spin
  | S f =>
      match chunks with
      | [] => Done (out, (chunks, rc))
      | c :: cs =>
          if (ws =? 0)%N then Done (out, (chunks, rc))
          else
            let size := N.of_nat (length c) in
            let actual := N.min ws (trunc 32 (size + 2 ^ 32 - rc)) in
            if (size <? rc + actual)%N then Undef
            else
              let out' := out ++ slice c (N.to_nat rc) (N.to_nat (rc + actual)) in
              let rc' := trunc 32 (rc + actual) in
              let ws' := trunc 32 (ws + 2 ^ 32 - actual) in
              if (size <=? rc')%N then read_loop f cs 0 ws' out'
              else read_loop f chunks rc' ws' out'
      end
  end.

(** [offer] is [size*items], stored in an [unsigned] (223). *)
Definition readCallback (offer : N) (st : list (list N) * N) : run (list N * (list (list N) * N)) :=
  read_loop (length (fst st) + 2) (fst st) (snd st) (trunc 32 offer) [].

(** Successive calls: what each handed out, and what is left. *)
Fixpoint reads (offers : list N) (st : list (list N) * N) : run (list (list N) * (list (list N) * N)) :=
  match offers with
  | [] => Done ([], st)
  | n :: r =>
      match readCallback n st with
      | Done (out, st') =>
          match reads r st' with
          | Done (outs, st'') => Done (out :: outs, st'')
          | Spin => Spin
          | Undef => Undef
          end
      | Spin => Spin
      | Undef => Undef
      end
  end.

(** ~ChunkStreamBuf<char> (chunkstreambuf.hpp 88-91, chunkstreambuf.cpp 56)
    when the chunks [left] have not been read out: [back()] of an empty list
    is undefined. *)
Definition narrow_destroy (left : list (list N)) : outcome unit :=
  match left with [] => UB | _ => Val tt end.

(** * Receiving *)

(** m_responseData ([None]: null; a byte never written is [None]),
    m_responseDataSize, m_responseDataReserve and m_responseHeaders, the
    latter in order of insertion with distinct keys. *)
Record resp := mkR {
  r_mem : option (list (option N));
  r_size : nat;
  r_reserve : nat;
  r_headers : list (list N * list N)
}.
(** curl.hpp 149-153. *)
Definition resp_init : resp := mkR None 0 0 [].

(** Auxiliary, no counterpart in the code: the memory of the response,
    curl.hpp 166-172. *)
Definition r_cells (r : resp) : list (option N) := match r_mem r with Some m => m | None => [] end.

(** What [data] and [dataSize] give to the user: curl.hpp 270-279. *)
Definition r_data (r : resp) : outcome (list (option N)) :=
  if r_size r <=? length (r_cells r) then Val (firstn (r_size r) (r_cells r)) else UB.

(** 269-280, 296-308: the buffer grows to hold [n] more elements. *)
Definition grow (n : nat) (r : resp) : outcome resp :=
  if r_reserve r <? r_size r + n
  then
    if r_size r <=? length (r_cells r)
    then Val (mkR (Some (firstn (r_size r) (r_cells r) ++ repeat None n)) (r_size r) (r_size r + n) (r_headers r))
    else UB
  else Val r.

(** Writing [v] behind what has been received: 282-285. *)
Definition store (v : list N) (r : resp) : outcome resp :=
  if r_size r + length v <=? length (r_cells r)
  then Val (mkR (match r_mem r with
                 | None => None
                 | Some m => Some (firstn (r_size r) m ++ map Some v ++ skipn (r_size r + length v) m)
                 end) (r_size r + length v) (r_reserve r) (r_headers r))
  else UB.

(** StreamBuf<char>::injectResponse, 263-289.  It always returns the size it
    was given. *)
Definition injectResponse (data : list N) (r : resp) : outcome resp :=
  obind (grow (length data) r) (store data).

(** ** UTF-8 decoding: libstdc++'s [codecvt_utf8<wchar_t>::do_in] (external;
    src/c++11/codecvt.cc, [ucs4_in] and [read_utf8_code_point]).  [strict]:
    see Model/Streams.v. *)
Inductive mb := MbChar (c : N) (rest : list N) | MbIncomplete | MbInvalid.

(** libstdc++ codecvt.cc: a continuation byte of UTF-8. *)
Definition continuation (b : N) : bool := (N.land b 0xc0 =? 0x80)%N.

(** libstdc++ codecvt.cc, [read_utf8_code_point], used by codecvt_utf8 at
    http.cpp 39-53 and curl.cpp 291-336, 401-429. *)
Definition read_code_point (strict : bool) (from : list N) : mb :=
  match from with
  | [] => MbIncomplete
  | c1 :: r1 =>
      if (c1 <? 0x80)%N then MbChar c1 r1
      else if (c1 <? 0xc2)%N then MbInvalid
      else if (c1 <? 0xe0)%N then
        match r1 with
        | [] => MbIncomplete
        | c2 :: r2 =>
            if negb (continuation c2) then MbInvalid
            else MbChar (N.shiftl c1 6 + c2 - 0x3080)%N r2
        end
      else if (c1 <? 0xf0)%N then
        match r1 with
        | c2 :: c3 :: r3 =>
            if negb (continuation c2) then MbInvalid
            else if (c1 =? 0xe0)%N && (c2 <? 0xa0)%N then MbInvalid
            else if strict && (c1 =? 0xed)%N && (0xa0 <=? c2)%N then MbInvalid
            else if negb (continuation c3) then MbInvalid
            else MbChar (N.shiftl c1 12 + N.shiftl c2 6 + c3 - 0xe2080)%N r3
        | _ => MbIncomplete
        end
      else if (c1 <? 0xf5)%N then
        match r1 with
        | c2 :: c3 :: c4 :: r4 =>
            if negb (continuation c2) then MbInvalid
            else if (c1 =? 0xf0)%N && (c2 <? 0x90)%N then MbInvalid
            else if (c1 =? 0xf4)%N && (0x90 <=? c2)%N then MbInvalid
            else if negb (continuation c3) then MbInvalid
            else if negb (continuation c4) then MbInvalid
            else MbChar (N.shiftl c1 18 + N.shiftl c2 12 + N.shiftl c3 6 + c4 - 0x3c82080)%N r4
        | _ => MbIncomplete
        end
      else MbInvalid
  end.

(** Result of [codecvt_utf8::in] (libstdc++). *)
Inductive cvin := InOk (u : list N) | InPartial (u rest : list N) | InError.

(** [room]: the space at [to].  A character takes at least a byte: the length
    of [from] is fuel enough. *)
Fixpoint ucs4_in (strict : bool) (fuel : nat) (from : list N) (room : nat) (acc : list N) : cvin :=
  match from with
  | [] => InOk acc
  | _ =>
      match fuel, room with
      | O, _ => InError
      | _, O => InPartial acc from
      | S f, S room' =>
          match read_code_point strict from with
          | MbIncomplete => InPartial acc from
          | MbInvalid => InError
          | MbChar c rest => ucs4_in strict f rest room' (acc ++ [c])
          end
      end
  end.

(** StreamBuf<wchar_t>::injectResponse, 291-337: the new state and the number
    of bytes it says it consumed.  On an error nothing is kept; the elements
    [converter.in] wrote before it are behind m_responseDataSize and are left
    out. *)
Definition injectResponseW (strict : bool) (data : list N) (r : resp) : outcome (resp * nat) :=
  obind (grow (length data) r) (fun r =>
    match ucs4_in strict (length data) data (r_reserve r - r_size r) [] with
    | InError => Val (r, length data)
    | InOk u => obind (store u r) (fun r => Val (r, length data))
    | InPartial u rest => obind (store u r) (fun r => Val (r, length data - length rest))
    end).

(** ** Headers *)

(** The characters trimmed: 358-361, 365-368. *)
Definition hspace (c : N) : bool := (c =? 32)%N || (c =? 10)%N || (c =? 13)%N || (c =? 9)%N.

(** std::find, 350; the length of the line when there is none. *)
Fixpoint find_from (c : N) (l : list N) : nat :=
  match l with
  | [] => 0
  | x :: r => if (x =? c)%N then 0 else S (find_from c r)
  end.

(** 357-362 and 364-369: loops over positions in the line.  [e] is
    [bufferEnd] after [--bufferEnd], which may be in front of [colon]. *)
Fixpoint skip_front (fuel : nat) (line : list N) (i : nat) : run nat :=
  match fuel with
  | O => Spin
  | S f =>
      if i <? length line
      then match rd line i with
           | None => Undef
           | Some c => if hspace c then skip_front f line (S i) else Done i
           end
      else Done i
  end.
Fixpoint skip_back (fuel : nat) (line : list N) (i : nat) (e : Z) : run Z :=
  match fuel with
  | O => Spin
  | S f =>
      if (Z.of_nat i <=? e)%Z
      then match (if (e <? 0)%Z then None else rd line (Z.to_nat e)) with
           | None => Undef
           | Some c => if hspace c then skip_back f line i (e - 1) else Done e
           end
      else Done e
  end.

(** headerCallback, 339-378: what is passed to injectHeader, if anything. *)
Definition headerCallback (line : list N) : run (option (list N * list N)) :=
  let colon := find_from 58 line in
  if colon =? length line then Done None
  else
    match skip_front (length line + 1) line (S colon) with
    | Spin => Spin
    | Undef => Undef
    | Done start =>
        match skip_back (length line + 1) line start (Z.of_nat (length line) - 1) with
        | Spin => Spin
        | Undef => Undef
        | Done e => Done (Some (slice line 0 colon, slice line start (Z.to_nat (e + 1))))
        end
    end.

(** std::stoi (external): strtol in base 10; [None] when it throws. *)
Definition isspace (c : N) : bool := (c =? 32)%N || ((9 <=? c)%N && (c <=? 13)%N).
Definition isdigit (c : N) : bool := (48 <=? c)%N && (c <=? 57)%N.
Fixpoint stoi_digits (l : list N) (v : Z) : Z :=
  match l with
  | c :: r => if isdigit c then stoi_digits r (10 * v + (Z.of_N c - 48)) else v
  | [] => v
  end.
Definition stoi_sign (l : list N) : Z * list N :=
  match l with
  | c :: r => if (c =? 45)%N then (-1, r)%Z else if (c =? 43)%N then (1, r)%Z else (1, l)%Z
  | [] => (1, [])%Z
  end.
Fixpoint stoi_skip (l : list N) : list N :=
  match l with c :: r => if isspace c then stoi_skip r else l | [] => [] end.
Definition stoi (l : list N) : option Z :=
  let (sg, d) := stoi_sign (stoi_skip l) in
  match d with
  | c :: _ =>
      if isdigit c
      then let v := (sg * stoi_digits d 0)%Z in
           if (v <? - 2 ^ 31)%Z || (2 ^ 31 - 1 <? v)%Z then None else Some v
      else None
  | [] => None
  end.

(** 388, 411. *)
Definition is_content_length (key : list N) : bool :=
  list_eqb key (lit "Content-Length") || list_eqb key (lit "content-length").

(** std::map::emplace: an existing key keeps its value. *)
Definition emplace (h : list N * list N) (l : list (list N * list N)) : list (list N * list N) :=
  if existsb (fun x => list_eqb (fst x) (fst h)) l then l else l ++ [h].

(** injectHeader, 380-397 and, for the converted strings, 407-419.  [None]: an
    exception leaves it, from [stoi] or from [new] (a negative number becomes
    a size that cannot be allocated).  It passes through the C code of libcurl
    and ends the process.  The failure of [new] for large sizes is left out. *)
Definition injectHeader (h : list N * list N) (r : resp) : option resp :=
  let add r := mkR (r_mem r) (r_size r) (r_reserve r) (emplace h (r_headers r)) in
  if is_content_length (fst h)
  then match stoi (snd h) with
       | None => None
       | Some v => if (v <? 0)%Z then None
                   else Some (add (mkR (Some (repeat None (Z.to_nat v))) (r_size r) (Z.to_nat v) (r_headers r)))
       end
  else Some (add r).

(** [wstring_convert::from_bytes], external: libstdc++'s bits/locale_conv.h,
    [__do_str_codecvt].  Its buffer is large enough, so that a partial
    conversion means that the last character is incomplete; that is no error
    and the character is dropped.  [None]: it throws. *)
Definition from_bytes (strict : bool) (b : list N) : option (list N) :=
  match ucs4_in strict (length b) b (length b) [] with
  | InOk u => Some u
  | InPartial u _ => Some u
  | InError => None
  end.
(** 399-425: [from_bytes] of the two parts; if either fails the header is
    left out. *)
Definition injectHeaderW (strict : bool) (h : list N * list N) (r : resp) : option resp :=
  match from_bytes strict (fst h), from_bytes strict (snd h) with
  | Some k, Some v => injectHeader (k, v) r
  | _, _ => Some r
  end.

(** ** A response as libcurl presents it *)
Inductive rev_ := RHeader (line : list N) | RData (bytes : list N).

(** Auxiliary, no counterpart in the code: the outcome of taking in a
    response. *)
Inductive rres :=
| RGood (r : resp)
| RShort (r : resp)      (* a callback consumed less than it was given: libcurl
                            ends the transfer with CURLE_WRITE_ERROR *)
| RThrow                 (* an exception left a callback *)
| RUndef.

(** curl.cpp 339-379: libcurl calls headerCallback with a line. *)
Definition header_event (inject : list N * list N -> resp -> option resp) (line : list N) (r : resp) : rres :=
  match headerCallback line with
  | Done None => RGood r
  | Done (Some h) => match inject h r with Some r' => RGood r' | None => RThrow end
  | _ => RUndef
  end.

(** One call by libcurl of a callback of Curl<char>: curl.cpp 251-289 and
    339-399. *)
Definition narrow_event (e : rev_) (r : resp) : rres :=
  match e with
  | RHeader line => header_event injectHeader line r
  | RData d => match injectResponse d r with Val r' => RGood r' | UB => RUndef end
  end.
Definition wide_event (strict : bool) (e : rev_) (r : resp) : rres :=
  match e with
  | RHeader line => header_event (injectHeaderW strict) line r
  | RData d =>
      match injectResponseW strict d r with
      | Val (r', n) => if n =? length d then RGood r' else RShort r'
      | UB => RUndef
      end
  end.

(** Auxiliary, no counterpart in the code: the calls libcurl makes, one after
    another. *)
Fixpoint respond (ev : rev_ -> resp -> rres) (es : list rev_) (r : resp) : rres :=
  match es with
  | [] => RGood r
  | e :: es' => match ev e r with RGood r' => respond ev es' r' | x => x end
  end.
