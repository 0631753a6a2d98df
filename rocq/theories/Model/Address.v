(** Model of [Address] (src/address.cpp, include/fastcgi++/address.hpp).  An
    address is the list of its 16 bytes. *)
From Coq Require Import String List NArith ZArith Bool Arith.
From Verif Require Import Model.Base Model.WebMaps Model.HttpCodec.
Import ListNotations.
Local Open Scope N_scope.

(* ------------------------------------------------------------------ *)
(** * Comparison and masking *)

(** address.hpp 120-126. *)
Definition addr_eqb (a b : list N) : bool := list_eqb a b.

(** [std::memcmp(a, b, n) < 0], address.hpp 128-131: the first differing byte
    decides, compared as unsigned. *)
Fixpoint memcmp_lt (a b : list N) : bool :=
  match a, b with
  | x :: a', y :: b' => if x <? y then true else if y <? x then false else memcmp_lt a' b'
  | _, _ => false
  end.
Definition addr_ltb (a b : list N) : bool := memcmp_lt a b.

(** Eight bytes read as a [uint64_t] and written back.  The byte order is the
    machine's; little endian here, the result of [&] does not depend on it. *)
Fixpoint le_value (l : list N) : N :=
  match l with [] => 0 | b :: l' => b + 256 * le_value l' end.
Fixpoint le_bytes (n : nat) (v : N) : list N :=
  match n with O => [] | S n' => v mod 256 :: le_bytes n' (v / 256) end.

(** address.cpp 36-45 (and address.hpp 138-144, which calls it on a copy). *)
Definition addr_and (a b : list N) : list N :=
  le_bytes 8 (N.land (le_value (firstn 8 a)) (le_value (firstn 8 b)))
  ++ le_bytes 8 (N.land (le_value (skipn 8 a)) (le_value (skipn 8 b))).

(** address.cpp 515-522. *)
Definition addr_bool (a : list N) : bool := negb (list_eqb a (repeat 0 16)).

(* ------------------------------------------------------------------ *)
(** * Parsing: assign *)

Definition asize : nat := 16.

(** address.cpp 90-95 and 118-119: the offset of a hexadecimal digit. *)
Definition hex_offset (c : N) : option N :=
  if (0x30 <=? c) && (c <=? 0x39) then Some 0x30
  else if (0x41 <=? c) && (c <=? 0x46) then Some (0x41 - 10)
  else if (0x61 <=? c) && (c <=? 0x66) then Some (0x61 - 10)
  else None.

(** [chunk <<= 4; chunk |= *read-offset;] on [uint16_t], 141-142. *)
Definition chunk_push (chunk c offset : N) : N :=
  N.lor (trunc 16 (N.shiftl chunk 4)) (c - offset).

(** 115-122 (and 420-427): the first octet of a dotted quad, from the nibbles
    of [chunk]. *)
Definition quad_first (chunk : N) : N :=
  let step '(v, c) :=
    (trunc 8 (v * 10 + N.shiftr (N.land c 0x0f00) 8), trunc 16 (N.shiftl c 4)) in
  fst (step (step (step (0, chunk)))).

(** Result of the loop: error flag, [write], [pad] (16 is [m_data.end()]) and
    [m_data]. *)
Definition ares : Type := bool * nat * nat * list N.

(** [std::find(read, end, '.')]. *)
Fixpoint find_dot (fuel : nat) (mem : list N) (r end_ : nat) : run nat :=
  if Nat.leb end_ r then Done r else
  match rd mem r with
  | None => Undef
  | Some c =>
      if c =? 0x2e then Done r else
      match fuel with O => Spin | S f => find_dot f mem (S r) end_ end
  end.

(** 125-136: the remaining octets; [n] iterations are left. *)
Fixpoint quad_rest (n : nat) (mem : list N) (r end_ write pad : nat) (data : list N)
  {struct n} : run ares :=
  match n with
  | O => Done (false, write, pad, data)
  | S n' =>
      if Nat.leb end_ r then Done (false, write, pad, data) else
      match find_dot (length mem) mem r end_ with
      | Spin => Spin
      | Undef => Undef
      | Done point =>
          if Nat.ltb point (end_ - 1) then
            let r' := S point in
            match atoi (length mem) 32 mem r' end_ with
            | Spin => Spin
            | Undef => Undef
            | Done v =>
                match wr data write (Z.to_N (v mod 256)) with
                | None => Undef
                | Some data' => quad_rest n' mem r' end_ (S write) pad data'
                end
            end
          else Done (true, write, pad, data)
      end
  end.

(** 96-137, at a '.' at [r]. *)
Definition quad (mem : list N) (r end_ write pad : nat) (chunk : N) (data : list N) : run ares :=
  let go write pad data :=
    match wr data write (quad_first chunk) with
    | None => Undef
    | Some data' => quad_rest 3 mem r end_ (S write) pad data'
    end in
  if Nat.eqb write 0 then
    match wr data 0 0xff with
    | None => Undef
    | Some d1 => match wr d1 1 0xff with None => Undef | Some d2 => go 2%nat 0%nat d2 end
    end
  else if Nat.ltb 12 write then Done (true, write, pad, data)
  else go write pad data.

(** The loop 65-143, [r] being [read] after the increment of line 67.  [mem]
    is the memory [start] points to; the text is its first [end_] elements. *)
Fixpoint a_loop (fuel : nat) (mem : list N) (end_ r write pad : nat) (chunk : N) (data : list N)
  : run ares :=
  match fuel with
  | O => Spin
  | S f =>
      match (if Nat.leb end_ r then Some None else option_map Some (rd mem r)) with
      | None => Undef
      | Some cur =>
          let sep := match cur with None => true | Some c => c =? 0x3a end in
          if sep then
            match (if Nat.eqb r 0 then Some 0x3a else rd mem (r - 1)) with
            | None => Undef
            | Some prev =>
                if prev =? 0x3a then
                  if negb (Nat.eqb pad asize) && negb (Nat.eqb pad write)
                  then Done (true, write, pad, data)
                  else a_loop f mem end_ (S r) write write chunk data
                else
                  match wr data write (N.shiftr (N.land chunk 0xff00) 8) with
                  | None => Undef
                  | Some d1 =>
                      match wr d1 (S write) (N.land chunk 0x00ff) with
                      | None => Undef
                      | Some d2 =>
                          let write' := (write + 2)%nat in
                          if Nat.leb asize write' || Nat.leb end_ r
                          then Done (Nat.leb end_ r && Nat.ltb write' asize && Nat.eqb pad asize,
                                     write', pad, d2)
                          else a_loop f mem end_ (S r) write' pad 0 d2
                      end
                  end
            end
          else
            match cur with
            | None => Undef
            | Some c =>
                match hex_offset c with
                | Some o => a_loop f mem end_ (S r) write pad (chunk_push chunk c o) data
                | None =>
                    if c =? 0x2e then quad mem r end_ write pad chunk data
                    else Done (true, write, pad, data)
                end
            end
      end
  end.

(** 145-167: on error all zero, otherwise the gap is opened.  [std::copy] on
    overlapping ranges is undefined by the standard; it is modelled by what it
    does for bytes in libstdc++ ([memmove]). *)
Definition a_finish (res : ares) : list N :=
  let '(error, write, pad, data) := res in
  if (error : bool) then repeat 0 asize
  else if negb (Nat.eqb pad asize) then
    if Nat.eqb pad write then firstn write data ++ repeat 0 (asize - write)
    else firstn pad data ++ repeat 0 (asize - write) ++ slice data pad write
  else data.

(** address.cpp 53-168.  [data] is the old [m_data]; the text is the first
    [end_] elements of [mem]. *)
Definition assign (fuel : nat) (mem : list N) (end_ : nat) (data : list N) : run (list N) :=
  match a_loop fuel mem end_ 0 0 asize 0 data with
  | Done r => Done (a_finish r)
  | Spin => Spin
  | Undef => Undef
  end.

(* ------------------------------------------------------------------ *)
(** * Printing: operator<< *)

(** The eight 16 bit groups, first byte most significant. *)
Fixpoint groups (a : list N) : list N :=
  match a with
  | x :: y :: a' => x * 256 + y :: groups a'
  | _ => []
  end.

(** State of the search for the zero run, address.cpp 200-241: [subStart],
    [subEnd] ([None] is the null pointer), the candidates and [inZero]. *)
Definition subp : Type := option (nat * nat).

(** address.cpp 222-226 and 233-237: the candidate replaces the run found so
    far when it is longer. *)
Definition sub_better (s : subp) (c0 c1 : nat) : subp :=
  let d := match s with None => 0%nat | Some (x, y) => (y - x)%nat end in
  if Nat.ltb d (c1 - c0) then Some (c0, (c1 - 1)%nat) else s.

(** address.cpp 199-240: the longest run of zero words. *)
Fixpoint zero_run (i : nat) (zs : list bool) (s : subp) (cand : option (nat * nat)) : subp :=
  match zs with
  | [] => match cand with Some (c0, c1) => sub_better s c0 c1 | None => s end
  | true :: zs' =>
      let '(c0, c1) := match cand with Some c => c | None => (i, i) end in
      zero_run (S i) zs' s (Some (c0, S c1))
  | false :: zs' =>
      match cand with
      | Some (c0, c1) => zero_run (S i) zs' (sub_better s c0 c1) None
      | None => zero_run (S i) zs' s None
      end
  end.

(** Output of [std::num_put] for an [unsigned long] in base 10 or 16 with
    default flags otherwise (no showbase, no uppercase, no thousands
    separator).  [n] bounds the number of digits. *)
Definition digit_char (d : N) : N := if d <? 10 then 0x30 + d else 0x61 + (d - 10).

(** [num_put] for an unsigned number in the base of the stream, as used at
    address.cpp 255-302: no padding and no grouping (the C locale). *)
Fixpoint numeral (base : N) (n : nat) (v : N) : list N :=
  match n with
  | O => []
  | S n' =>
      if v <? base then [digit_char v]
      else numeral base n' (v / base) ++ [digit_char (v mod base)]
  end.

(** 274-314: the loop over the groups. *)
Fixpoint print_groups (i : nat) (gs : list N) (s : subp) : list N :=
  match gs with
  | [] => []
  | g :: gs' =>
      let inside := match s with None => false | Some (x, y) => Nat.leb x i && Nat.leb i y end in
      let here :=
        if inside then
          (if match s with Some (x, _) => Nat.eqb i x && Nat.eqb i 0 | None => false end
           then [0x3a] else [])
          ++ (if match s with Some (_, y) => Nat.eqb i y | None => false end then [0x3a] else [])
        else numeral 16 4 g ++ (if Nat.ltb i 7 then [0x3a] else [])
      in here ++ print_groups (S i) gs' s
  end.

(** 260-270, without the trailing '.'. *)
Fixpoint print_quad (bs : list N) : list N :=
  match bs with
  | [] => []
  | [b] => numeral 10 3 b
  | b :: bs' => numeral 10 3 b ++ [0x2e] ++ print_quad bs'
  end.

(** address.cpp 178-350 for a good stream with field width zero and default
    flags: the characters put into [buffer]. *)
Definition print (a : list N) : list N :=
  let gs := groups a in
  let s := zero_run 0 (map (fun g => g =? 0) gs) None None in
  match s with
  | Some (0%nat, 4%nat) =>
      if nth 5 gs 0 =? 0xffff
      then lit "::" ++ numeral 16 4 0xffff ++ lit ":" ++ print_quad (skipn 12 a)
      else print_groups 0 gs s
  | _ => print_groups 0 gs s
  end.

(** 317-321: [n] characters, those of the text and then the fill. *)
Fixpoint sink_left (n : nat) (fill : N) (t : list N) : list N :=
  match n, t with
  | O, _ => []
  | S n, c :: t => c :: sink_left n fill t
  | S n, [] => fill :: sink_left n fill []
  end.
(** 323-327: until the text is out, first [i] times the fill. *)
Fixpoint sink_right (i : nat) (fill : N) (t : list N) : list N :=
  match t, i with
  | [], _ => []
  | _, S i => fill :: sink_right i fill t
  | _, O => t
  end.
(** 188-189, 314-327: field width and fill.  [i] of 323 is negative if the text
    is wider than the field; 0 does the same. *)
Definition print_padded (left : bool) (fill : N) (width : nat) (a : list N) : list N :=
  let t := print a in
  if left then sink_left (Nat.max width (length t)) fill t else sink_right (width - length t) fill t.

(* ------------------------------------------------------------------ *)
(** * Parsing from a stream: operator>> *)

(** White space of the classic locale, skipped by the sentry (378). *)
Definition is_space (c : N) : bool := ((9 <=? c) && (c <=? 13)) || (c =? 32).
Fixpoint skip_ws (l : list N) : list N :=
  match l with c :: l' => if is_space c then skip_ws l' else l | [] => [] end.

(** [num_get::get] for [unsigned int], decimal, classic locale: an optional
    sign and digits.  Result: rest of the input, value, failure. *)
Fixpoint get_digits (l : list N) (v : N) (any : bool) : list N * N * bool :=
  match l with
  | c :: l' =>
      if (0x30 <=? c) && (c <=? 0x39) then get_digits l' (v * 10 + (c - 0x30)) true
      else (l, v, any)
  | [] => ([], v, any)
  end.

(** [num_get] for an unsigned number as used by operator>>, address.cpp
    430-436: sign, digits, and whether it failed. *)
Definition get_uint (l : list N) : list N * N * bool :=
  let '(neg, l1) :=
    match l with
    | c :: l' => if c =? 0x2d then (true, l') else if c =? 0x2b then (false, l') else (false, l)
    | [] => (false, [])
    end in
  let '(l2, v, any) := get_digits l1 0 false in
  if negb any then (l2, 0, true)
  else if 2 ^ 32 <=? v then (l2, 2 ^ 32 - 1, true)
  else (l2, if neg then (2 ^ 32 - v) mod 2 ^ 32 else v, false).

(** Result of the loop: failure, remaining input, [write], [pad] ([None] is
    null) and [buffer]. *)
Definition xres : Type := bool * list N * nat * option nat * list N.

(** 430-446. *)
Fixpoint x_quad_rest (n : nat) (inp : list N) (fail : bool) (write : nat) (pad : option nat)
    (buf : list N) {struct n} : run xres :=
  match n with
  | O => Done (fail, inp, write, pad, buf)
  | S n' =>
      match inp with
      | c :: inp' =>
          if c =? 0x2e then
            let '(inp2, v, bad) := get_uint inp' in
            match wr buf write (v mod 256) with
            | None => Undef
            | Some buf' => x_quad_rest n' inp2 (fail || bad) (S write) pad buf'
            end
          else Done (true, inp, write, pad, buf)
      | [] => Done (true, inp, write, pad, buf)
      end
  end.

(** 402-447. *)
Definition x_quad (inp : list N) (write : nat) (pad : option nat) (chunk : N) (buf : list N)
  : run xres :=
  let go write pad buf :=
    match wr buf write (quad_first chunk) with
    | None => Undef
    | Some buf' => x_quad_rest 3 inp false (S write) pad buf'
    end in
  if Nat.eqb write 0 then
    match wr buf 0 0xff with
    | None => Undef
    | Some d1 => match wr d1 1 0xff with None => Undef | Some d2 => go 2%nat (Some 0%nat) d2 end
    end
  else if Nat.ltb 12 write then Done (true, inp, write, pad, buf)
  else go write pad buf.

(** The loop 390-481.  The end of the input reads as a character that is
    none of those looked for ([traits::eof()] converted, libstdc++).
    [lastColon]: [!lastChar || lastChar == ':'] (no input character is NUL). *)
Fixpoint x_loop (fuel : nat) (count : N) (inp : list N) (lastColon : bool) (write : nat)
    (pad : option nat) (chunk : N) (buf : list N) : run xres :=
  match fuel with
  | O => Spin
  | S f =>
      let count' := trunc 8 (count + 1) in
      if 40 <? count' then Done (true, inp, write, pad, buf) else
      let cur := match inp with c :: _ => c | [] => 0xff end in
      match hex_offset cur with
      | Some o => x_loop f count' (tl inp) false write pad (chunk_push chunk cur o) buf
      | None =>
          if cur =? 0x2e then x_quad inp write pad chunk buf
          else if (cur =? 0x3a) && lastColon then
            if match pad with Some p => negb (Nat.eqb p write) | None => false end
            then Done (true, inp, write, pad, buf)
            else x_loop f count' (tl inp) true write (Some write) chunk buf
          else
            match wr buf write (N.shiftr (N.land chunk 0xff00) 8) with
            | None => Undef
            | Some d1 =>
                match wr d1 (S write) (N.land chunk 0x00ff) with
                | None => Undef
                | Some d2 =>
                    let write' := (write + 2)%nat in
                    if Nat.leb asize write' then Done (false, inp, write', pad, d2)
                    else if negb (cur =? 0x3a)
                    then Done (match pad with None => true | Some _ => false end, inp, write', pad, d2)
                    else x_loop f count' (tl inp) true write' pad 0 d2
                end
            end
      end
  end.

(** address.cpp 360-513 on a good stream with default flags.  [junk] is the
    indeterminate content of [buffer].  [None]: failbit is set and the address
    unchanged; otherwise the new address.  With it the remaining input. *)
Definition extract (fuel : nat) (inp junk : list N) : run (option (list N) * list N) :=
  match x_loop fuel 0 (skip_ws inp) true 0 None 0 junk with
  | Spin => Spin
  | Undef => Undef
  | Done (true, rest, _, _, _) => Done (None, rest)
  | Done (false, rest, write, pad, buf) =>
      Done (Some (a_finish (false, write, match pad with Some p => p | None => asize end, buf)), rest)
  end.
