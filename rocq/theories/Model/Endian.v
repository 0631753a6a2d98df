(** Model of [BigEndian] (include/fastcgi++/endian.hpp). *)
From Coq Require Import List NArith ZArith.
From Verif Require Import Model.Base.
Import ListNotations.
Local Open Scope N_scope.

(** endian.hpp 77-81, [to] for [uint16_t]. *)
Definition to16 (v : N) : list N :=
  [ trunc 8 (N.shiftr (N.land v 0xff00) 8);
    trunc 8 (N.shiftr (N.land v 0x00ff) 0) ].

(** endian.hpp 82-88, [to] for [uint32_t]. *)
Definition to32 (v : N) : list N :=
  [ trunc 8 (N.shiftr (N.land v 0xff000000) 24);
    trunc 8 (N.shiftr (N.land v 0x00ff0000) 16);
    trunc 8 (N.shiftr (N.land v 0x0000ff00) 8);
    trunc 8 (N.shiftr (N.land v 0x000000ff) 0) ].

(** endian.hpp 89-99, [to] for [uint64_t]. *)
Definition to64 (v : N) : list N :=
  [ trunc 8 (N.shiftr (N.land v 0xff00000000000000) 56);
    trunc 8 (N.shiftr (N.land v 0x00ff000000000000) 48);
    trunc 8 (N.shiftr (N.land v 0x0000ff0000000000) 40);
    trunc 8 (N.shiftr (N.land v 0x000000ff00000000) 32);
    trunc 8 (N.shiftr (N.land v 0x00000000ff000000) 24);
    trunc 8 (N.shiftr (N.land v 0x0000000000ff0000) 16);
    trunc 8 (N.shiftr (N.land v 0x000000000000ff00) 8);
    trunc 8 (N.shiftr (N.land v 0x00000000000000ff) 0) ].

(** endian.hpp 44-51, [from] for [uint16_t].  [None]: the array is too short
    (the C++ would read past it). *)
Definition from16 (arr : list N) : option N :=
  match arr with
  | a0 :: a1 :: _ =>
      Some (trunc 16 (N.lor (N.shiftl a0 8) (N.shiftl a1 0)))
  | _ => None
  end.

(** endian.hpp 52-61, [from] for [uint32_t]. *)
Definition from32 (arr : list N) : option N :=
  match arr with
  | a0 :: a1 :: a2 :: a3 :: _ =>
      Some (trunc 32
        (N.lor (N.lor (N.lor (trunc 32 (N.shiftl a0 24))
                             (trunc 32 (N.shiftl a1 16)))
                      (trunc 32 (N.shiftl a2 8)))
               (trunc 32 (N.shiftl a3 0))))
  | _ => None
  end.

(** endian.hpp 62-75, [from] for [uint64_t]. *)
Definition from64 (arr : list N) : option N :=
  match arr with
  | a0 :: a1 :: a2 :: a3 :: a4 :: a5 :: a6 :: a7 :: _ =>
      Some (trunc 64
        (N.lor (N.lor (N.lor (N.lor (N.lor (N.lor (N.lor
           (trunc 64 (N.shiftl a0 56))
           (trunc 64 (N.shiftl a1 48)))
           (trunc 64 (N.shiftl a2 40)))
           (trunc 64 (N.shiftl a3 32)))
           (trunc 64 (N.shiftl a4 24)))
           (trunc 64 (N.shiftl a5 16)))
           (trunc 64 (N.shiftl a6 8)))
           (trunc 64 (N.shiftl a7 0))))
  | _ => None
  end.

(** The union of [BaseType] and a signed [T] of [w] bits (endian.hpp 143-147
    and 180-185): two's complement reinterpretation. *)
Definition to_base (w : N) (z : Z) : N := Z.to_N (z mod 2 ^ Z.of_N w)%Z.

(** endian.hpp 135-206, the conversion between the type and its base: the
    unsigned base read as a signed number of [w] bits, two's complement. *)
Definition of_base (w : N) (v : N) : Z :=
  if N.ltb v (2 ^ (w - 1)) then Z.of_N v else (Z.of_N v - 2 ^ Z.of_N w)%Z.

(** endian.hpp 141-148 and 178-186 for signed types. *)
Definition set_i16 (z : Z) : list N := to16 (to_base 16 z).
Definition set_i32 (z : Z) : list N := to32 (to_base 32 z).
Definition set_i64 (z : Z) : list N := to64 (to_base 64 z).
Definition read_i16 (a : list N) : option Z := option_map (of_base 16) (from16 a).
Definition read_i32 (a : list N) : option Z := option_map (of_base 32) (from32 a).
Definition read_i64 (a : list N) : option Z := option_map (of_base 64) (from64 a).
