(** Model of reading an [Address] (operator>>, src/address.cpp 360-513) from a
    stream with any locale.  Model/Address.v has the same for the locale "C". *)
From Coq Require Import String List NArith ZArith Bool Arith.
From Verif Require Import Model.Base Model.HttpCodec Model.Address.
Import ListNotations.
Local Open Scope N_scope.

(** What [num_get] takes from the locale of the stream: whether digits are
    grouped at all, [thousands_sep()], and which sequences of group lengths
    [__verify_grouping] (libstdc++) accepts.  [decimal_point()] ends a number
    like any other character that is not a digit. *)
Record digits := mkDigits {
  d_grouped : bool;
  d_sep : N;
  d_verify : list nat -> bool }.

(** libstdc++ locale_facets.tcc, [num_get::_M_extract_int], the loops over the
    digits in base 10.  [pos]: digits since the last separator; [found]: the
    lengths of the groups before.  Result: rest of the input, value, [pos],
    [found] and whether a separator came without digits before it. *)
Fixpoint loc_digits (d : digits) (l : list N) (v : N) (pos : nat) (found : list nat)
  : list N * N * nat * list nat * bool :=
  match l with
  | [] => ([], v, pos, found, false)
  | c :: l' =>
      if d_grouped d && (c =? d_sep d) then
        if Nat.eqb pos 0 then (l, v, pos, found, true)
        else loc_digits d l' v 0 (found ++ [pos])
      else if (0x30 <=? c) && (c <=? 0x39) then loc_digits d l' (v * 10 + (c - 0x30)) (S pos) found
      else (l, v, pos, found, false)
  end.

(** [num_get::get] for [unsigned int], as [get_uint]; a sign that is the
    separator is none. *)
Definition loc_uint (d : digits) (l : list N) : list N * N * bool :=
  let '(neg, l1) :=
    match l with
    | c :: l' =>
        if d_grouped d && (c =? d_sep d) then (false, l)
        else if c =? 0x2d then (true, l') else if c =? 0x2b then (false, l') else (false, l)
    | [] => (false, [])
    end in
  let '(l2, v, pos, found, bad) := loc_digits d l1 0 0 [] in
  let wrong := match found with [] => false | _ => negb (d_verify d (found ++ [pos])) end in
  if bad || (Nat.eqb pos 0 && match found with [] => true | _ => false end) then (l2, 0, true)
  else if 2 ^ 32 <=? v then (l2, 2 ^ 32 - 1, true)
  else (l2, if neg then (2 ^ 32 - v) mod 2 ^ 32 else v, wrong).

(** address.cpp 421-438, as [x_quad_rest]. *)
Fixpoint loc_quad_rest (d : digits) (n : nat) (inp : list N) (fail : bool) (write : nat) (pad : option nat)
    (buf : list N) {struct n} : run xres :=
  match n with
  | O => Done (fail, inp, write, pad, buf)
  | S n' =>
      match inp with
      | c :: inp' =>
          if c =? 0x2e then
            let '(inp2, v, bad) := loc_uint d inp' in
            match wr buf write (v mod 256) with
            | None => Undef
            | Some buf' => loc_quad_rest d n' inp2 (fail || bad) (S write) pad buf'
            end
          else Done (true, inp, write, pad, buf)
      | [] => Done (true, inp, write, pad, buf)
      end
  end.

(** address.cpp 396-440, as [x_quad]. *)
Definition loc_quad (d : digits) (inp : list N) (write : nat) (pad : option nat) (chunk : N) (buf : list N)
  : run xres :=
  let go write pad buf :=
    match wr buf write (quad_first chunk) with
    | None => Undef
    | Some buf' => loc_quad_rest d 3 inp false (S write) pad buf'
    end in
  if Nat.eqb write 0 then
    match wr buf 0 0xff with
    | None => Undef
    | Some d1 => match wr d1 1 0xff with None => Undef | Some d2 => go 2%nat (Some 0%nat) d2 end
    end
  else if Nat.ltb 12 write then Done (true, inp, write, pad, buf)
  else go write pad buf.

(** address.cpp 384-473, as [x_loop]. *)
Fixpoint loc_loop (d : digits) (fuel : nat) (count : N) (inp : list N) (lastColon : bool) (write : nat)
    (pad : option nat) (chunk : N) (buf : list N) : run xres :=
  match fuel with
  | O => Spin
  | S f =>
      let count' := trunc 8 (count + 1) in
      if 40 <? count' then Done (true, inp, write, pad, buf) else
      let cur := match inp with c :: _ => c | [] => 0xff end in
      match hex_offset cur with
      | Some o => loc_loop d f count' (tl inp) false write pad (chunk_push chunk cur o) buf
      | None =>
          if cur =? 0x2e then loc_quad d inp write pad chunk buf
          else if (cur =? 0x3a) && lastColon then
            if match pad with Some p => negb (Nat.eqb p write) | None => false end
            then Done (true, inp, write, pad, buf)
            else loc_loop d f count' (tl inp) true write (Some write) chunk buf
          else
            match wr buf write (N.shiftr (N.land chunk 0xff00) 8) with
            | None => Undef
            | Some d1 =>
                match wr d1 (S write) (N.land chunk 0x00ff) with
                | None => Undef
                | Some d2 =>
                    let write' := (write + 2)%nat in
                    if Nat.leb asize write' then Done (false, inp, write', pad, d2)
                    else if negb (cur =? 0x3a)
                    then Done (match pad with None => true | Some _ => false end, inp, write', pad, d2)
                    else loc_loop d f count' (tl inp) true write' pad 0 d2
                end
            end
      end
  end.

(** address.cpp 360-513, as [extract].  White space is that of the locale "C". *)
Definition loc_extract (d : digits) (fuel : nat) (inp junk : list N) : run (option (list N) * list N) :=
  match loc_loop d fuel 0 (skip_ws inp) true 0 None 0 junk with
  | Spin => Spin
  | Undef => Undef
  | Done (true, rest, _, _, _) => Done (None, rest)
  | Done (false, rest, write, pad, buf) =>
      Done (Some (a_finish (false, write, match pad with Some p => p | None => asize end, buf)), rest)
  end.

(** libstdc++ locale_facets.cc, [__verify_grouping] for a grouping of threes:
    every group but the first has three digits, the first at most three. *)
Definition threes (l : list nat) : bool :=
  match l with
  | [] => true
  | x :: l => Nat.leb x 3 && forallb (Nat.eqb 3) l
  end.
