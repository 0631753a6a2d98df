(** Model of the text codecs of src/http.cpp and include/fastcgi++/http.hpp. *)
From Coq Require Import String List NArith ZArith Bool.
From Verif Require Import Model.Base Model.WebMaps.
Import ListNotations.
Local Open Scope N_scope.

(** Memory write: [None] when outside the object. *)
Fixpoint wr {A} (mem : list A) (i : nat) (v : A) : option (list A) :=
  match mem, i with
  | [], _ => None
  | _ :: m, O => Some (v :: m)
  | x :: m, S i' =>
      match wr m i' v with None => None | Some m' => Some (x :: m') end
  end.

(* ------------------------------------------------------------------ *)
(** * percentEscapedToRealBytes, http.cpp 119-167 *)

Inductive pstate := P_NORMAL | P_FIRST | P_SECOND.

(** http.cpp 131-166.  [src] is the range [start, end) (every iteration reads
    [*start] with [start != end], so it is consumed as a list); [dst] is the
    object [destination] points into and [d] the offset of [destination].
    [char] is seen as unsigned: the comparisons of http.cpp 147, 149, 156 and
    158 have the same truth value for signed [char]. *)
Fixpoint percent (st : pstate) (src : list N) (dst : list N) (d : nat)
  : outcome (list N * nat) :=
  match src with
  | [] => Val (dst, d)
  | c :: src' =>
      match st with
      | P_NORMAL =>
          if c =? 0x25 then
            match wr dst d 0 with
            | None => UB
            | Some dst' => percent P_FIRST src' dst' d
            end
          else
            match wr dst d (if c =? 0x2b then 0x20 else c) with
            | None => UB
            | Some dst' => percent P_NORMAL src' dst' (S d)
            end
      | P_FIRST =>
          let low := N.lor c 0x20 in
          if (0x61 <=? low) && (low <=? 0x66) then
            match wr dst d (trunc 8 (N.shiftl (low - 0x57) 4)) with
            | None => UB
            | Some dst' => percent P_SECOND src' dst' d
            end
          else if (0x30 <=? c) && (c <=? 0x39) then
            match wr dst d (trunc 8 (N.shiftl (N.land c 0x0f) 4)) with
            | None => UB
            | Some dst' => percent P_SECOND src' dst' d
            end
          else percent P_SECOND src' dst d
      | P_SECOND =>
          let low := N.lor c 0x20 in
          let digit :=
            if (0x61 <=? low) && (low <=? 0x66) then Some (low - 0x57)
            else if (0x30 <=? c) && (c <=? 0x39) then Some (N.land c 0x0f)
            else None in
          match digit with
          | None => percent P_NORMAL src' dst (S d)
          | Some v =>
              match nth_error dst d with
              | None => UB
              | Some old =>
                  match wr dst d (N.lor old v) with
                  | None => UB
                  | Some dst' => percent P_NORMAL src' dst' (S d)
                  end
              end
          end
      end
  end.

(** The call: decode [src] into the start of buffer [dst]; the result is the
    buffer and the number of bytes produced (the returned pointer). *)
Definition percentEscapedToRealBytes (src dst : list N) : outcome (list N * nat) :=
  percent P_NORMAL src dst O.

(* ------------------------------------------------------------------ *)
(** * decodeUrlEncoded, http.cpp 714-767 *)

Section DecodeUrl.

(** [vecToString(bytes, old)]: the string after the call.  For [char]
    (http.hpp 305-311) this is [bytes]; for [wchar_t] (http.cpp 39-53) it is
    the UTF-8 decoding, or the old string when decoding throws. *)
Variable vts : list N -> list N -> list N.

(** State of the loop 734-766.  [nameEnd != dataEnd] is used by the C++ as a
    flag: [nameEnd] is either [dataEnd] or a pointer into the fresh [buffer],
    which is a different object, so the flag is modelled by [u_inValue]. *)
Record ustate := mkU {
  u_data : nat;          (* data, offset from the start *)
  u_inValue : bool;      (* nameEnd != dataEnd *)
  u_nameStart : nat;
  u_valueStart : nat;
  u_name : list N;       (* name *)
  u_value : list N;      (* value *)
  u_buffer : list N;     (* *buffer *)
  u_out : list (list N * list N) (* insertions into output, in order *)
}.

(** [std::equal(fieldSeparator, fieldSeparatorEnd, data)] together with the
    bound check of 738-739. *)
Definition sep_at (sep src : list N) (data : nat) : bool :=
  Nat.leb (data + length sep) (length src)
  && list_eqb sep (slice src data (data + length sep)).

(** One iteration of 734-766.  After [std::move] the strings are empty
    (libstdc++; the standard says valid but unspecified). *)
Definition url_step (sep src : list N) (s : ustate) : outcome ustate :=
  let dataEnd := length src in
  if u_inValue s then
    if Nat.eqb (u_data s) dataEnd || sep_at sep src (u_data s) then
      match percentEscapedToRealBytes (slice src (u_valueStart s) (u_data s)) (u_buffer s) with
      | UB => UB
      | Val (buf, n) =>
          let value := vts (firstn n buf) (u_value s) in
          Val (mkU (u_data s + length sep) false (u_data s + length sep)
                   (u_valueStart s) [] [] buf
                   (u_out s ++ [(u_name s, value)]))
      end
    else Val (mkU (S (u_data s)) true (u_nameStart s) (u_valueStart s)
                  (u_name s) (u_value s) (u_buffer s) (u_out s))
  else
    if negb (Nat.eqb (u_data s) dataEnd) then
      match rd src (u_data s) with
      | None => UB
      | Some c =>
          if c =? 0x3d then
            match percentEscapedToRealBytes (slice src (u_nameStart s) (u_data s)) (u_buffer s) with
            | UB => UB
            | Val (buf, n) =>
                let name := vts (firstn n buf) (u_name s) in
                Val (mkU (S (u_data s)) true (u_nameStart s) (S (u_data s))
                         name (u_value s) buf (u_out s))
            end
          else Val (mkU (S (u_data s)) false (u_nameStart s) (u_valueStart s)
                        (u_name s) (u_value s) (u_buffer s) (u_out s))
      end
    else Val (mkU (S (u_data s)) false (u_nameStart s) (u_valueStart s)
                  (u_name s) (u_value s) (u_buffer s) (u_out s)).

(** http.cpp 734-766: the loop of decodeUrlEncoded. *)
Fixpoint url_loop (fuel : nat) (sep src : list N) (s : ustate) : run ustate :=
  if Nat.leb (u_data s) (length src) then
    match fuel with
    | O => Spin
    | S f =>
        match url_step sep src s with
        | UB => Undef
        | Val s' => url_loop f sep src s'
        end
    end
  else Done s.

(** http.cpp 714-767.  [junk] is the indeterminate content of the freshly
    allocated buffer (722).  The result is the sequence of insertions made
    into the output multimap; C++11 keeps equal keys in insertion order. *)
Definition decodeUrlEncoded (fuel : nat) (junk sep src : list N)
  : run (list (list N * list N)) :=
  match url_loop fuel sep src (mkU O false O O [] [] junk []) with
  | Done s => Done (u_out s)
  | Spin => Spin
  | Undef => Undef
  end.

End DecodeUrl.

(* ------------------------------------------------------------------ *)
(** * base64, http.hpp 605-681 and http.cpp 769-775 *)

Definition base64Characters : list N :=
  lit "ABCDEFGHIJKLMNOPQRSTUVWXYZabcdefghijklmnopqrstuvwxyz0123456789+/".

(** http.hpp 659-667, [while(bitPos!=-8)]. *)
Fixpoint enc_inner (fuel : nat) (src : list N) (buffer bitPos padded : Z)
  : run (list N * Z * Z) :=
  if (bitPos =? -8)%Z then Done (src, buffer, padded) else
  match fuel with
  | O => Spin
  | S f =>
      match src with
      | b :: src' =>
          enc_inner f src' (Z.lor buffer (Z.shiftl (Z.of_N b) bitPos)) (bitPos - 8) padded
      | [] => enc_inner f [] buffer (bitPos - 8) (padded + 6)
      end
  end.

(** http.hpp 652-678, the [for] loop.  The output iterator is an appending
    one ([std::ostream_iterator] or a pointer into a large enough buffer). *)
Fixpoint enc_loop (fuel : nat) (src : list N) (buffer bitPos padded : Z) (out : list N)
  : run (list N) :=
  if negb (match src with [] => true | _ => false end) || (-6 <? bitPos)%Z then
    match fuel with
    | O => Spin
    | S f =>
        let body (src : list N) (buffer bitPos padded : Z) :=
          if (padded =? bitPos)%Z then
            enc_loop f src buffer (bitPos - 6) (padded - 6) (out ++ [0x3d])
          else
            match nth_error base64Characters
                    (Z.to_nat (Z.land (Z.shiftr buffer bitPos) 0x3f)) with
            | None => Undef
            | Some c => enc_loop f src buffer (bitPos - 6) padded (out ++ [c])
            end in
        if (bitPos =? -6)%Z then
          match enc_inner 3 src 0 16 (-6) with
          | Done (src', buffer', padded') => body src' buffer' 18%Z padded'
          | Spin => Spin
          | Undef => Undef
          end
        else body src buffer bitPos padded
    end
  else Done out.

(** http.hpp 649-681. *)
Definition base64Encode (fuel : nat) (src : list N) : run (list N) :=
  enc_loop fuel src 0 (-6) 0 [].

(** The value of one character, http.hpp 621-627.  [inl v]: a digit;
    [inr true]: the padding character; [inr false]: any other character.  For
    [char] inputs above 127 the C++ value is negative, for [wchar_t] it is the
    code point; neither is in any of the ranges. *)
Definition b64value (c : N) : Z + bool :=
  let value := Z.of_N c in
  if ((0x41 <=? value) && (value <=? 0x5a))%Z then inl (value - 0x41)%Z
  else if ((0x61 <=? value) && (value <=? 0x7a))%Z then inl (value - (0x61 - 26))%Z
  else if ((0x30 <=? value) && (value <=? 0x39))%Z then inl (value - (0x30 - 52))%Z
  else if (value =? 0x2b)%Z then inl 62%Z
  else if (value =? 0x2f)%Z then inl 63%Z
  else inr (value =? 0x3d)%Z.

(** Result of the inner loop 617-631. *)
Inductive dinner :=
| DFail                                     (* return destination *)
| DGo (src : list N) (buffer padStart : Z)
| DSpin.

(** http.hpp 617-631: the inner loop of base64Decode. *)
Fixpoint dec_inner (fuel : nat) (src : list N) (buffer bitPos padStart : Z) : dinner :=
  if (bitPos =? -6)%Z then DGo src buffer padStart else
  match fuel with
  | O => DSpin
  | S f =>
      match src with
      | [] => DFail
      | c :: src' =>
          match b64value c with
          | inl v =>
              dec_inner f src' (Z.lor buffer (Z.shiftl v bitPos)) (bitPos - 6) padStart
          | inr true => DGo src' buffer bitPos
          | inr false => DFail
          end
      end
  end.

(** http.hpp 610-646.  [dst] is the memory behind [destination] (indeterminate
    bytes are [None]) and [d] the offset of [dest]; the result is the memory
    and the offset of the returned iterator. *)
Fixpoint dec_loop (fuel : nat) (src : list N) (buffer bitPos padStart : Z)
    (dst : list (option N)) (d : nat) : run (list (option N) * nat) :=
  if negb (match src with [] => true | _ => false end) || (-6 <? bitPos)%Z then
    match fuel with
    | O => Spin
    | S f =>
        let body (src : list N) (buffer bitPos padStart : Z) :=
          match wr dst d (Some (Z.to_N (Z.land (Z.shiftr buffer bitPos) 0xff))) with
          | None => Undef
          | Some dst' =>
              let bitPos := (bitPos - 8)%Z in
              if (bitPos <=? padStart)%Z then
                if negb (Z.quot (padStart - bitPos) 6 =? 0)%Z then Done (dst', d)
                else Done (dst', S d)
              else dec_loop f src buffer bitPos padStart dst' (S d)
          end in
        if (bitPos =? -8)%Z then
          match dec_inner 4 src 0 18 (-9) with
          | DFail => Done (dst, O)
          | DGo src' buffer' padStart' => body src' buffer' 16%Z padStart'
          | DSpin => Spin
          end
        else body src buffer bitPos padStart
    end
  else Done (dst, d).

(** http.hpp 605-647. *)
Definition base64Decode (fuel : nat) (src : list N) (dst : list (option N))
  : run (list (option N) * nat) :=
  dec_loop fuel src 0 (-8) 0 dst O.

(* ------------------------------------------------------------------ *)
(** * SessionId, http.hpp 427-503 and http.cpp 673-695 *)

Definition sid_size : nat := 15.
Definition sid_stringLength : nat := 20.

(** http.cpp 687-695: the 15 data bytes after construction from a string. *)
Definition sessionIdOfString (fuel : nat) (s : list N) : run (list (option N)) :=
  match base64Decode fuel (firstn (Nat.min sid_stringLength (length s)) s)
          (repeat None sid_size) with
  | Done (dst, _) => Done dst
  | Spin => Spin
  | Undef => Undef
  end.

(** http.hpp 494-503. *)
Definition sessionIdPrint (fuel : nat) (id : list N) : run (list N) :=
  base64Encode fuel id.

(* ------------------------------------------------------------------ *)
(** * atoi, http.cpp 63-77 *)

(** The digit loop 73-74: [*start] is read before [start<end] is tested.
    [w] is the width of [intT]; signed overflow is undefined. *)
Fixpoint atoi_loop (fuel : nat) (w : Z) (mem : list N) (start end_ : nat) (result : Z)
  : run Z :=
  match rd mem start with
  | None => Undef
  | Some c =>
      if (0x30 <=? c) && (c <=? 0x39) && Nat.ltb start end_ then
        match fuel with
        | O => Spin
        | S f =>
            let r := (result * 10 + Z.of_N (N.land c 0x0f))%Z in
            if (2 ^ (w - 1) <=? r)%Z then Undef
            else atoi_loop f w mem (S start) end_ r
        end
      else Done result
  end.

(** http.cpp 55-77. *)
Definition atoi (fuel : nat) (w : Z) (mem : list N) (start end_ : nat) : run Z :=
  match rd mem start with
  | None => Undef
  | Some c =>
      let neg := c =? 0x2d in
      let start' := if neg then S start else start in
      match atoi_loop fuel w mem start' end_ 0 with
      | Done r => Done (if neg then - r else r)%Z
      | x => x
      end
  end.
