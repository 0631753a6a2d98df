(** Model of SQL parameters and results: src/parameters.cpp, src/results.cpp,
    include/fastcgi++/sql/parameters.hpp, results.hpp and include/sqlTraits.hpp.

    Simplified: a DATE is its day number since 1970-01-01 (std::chrono's
    conversion of calendar dates to and from day numbers is external) and a
    TIMESTAMPTZ its number of microseconds since then; REAL and
    DOUBLE_PRECISION are their bit patterns.  A result holds, as libpq gives
    them, the type and size of each column and the bytes of each field; memory
    runs out nowhere. *)
From Coq Require Import List NArith ZArith Bool.
From Verif Require Import Model.Base Model.Endian Model.Streams Model.Curl.
Import ListNotations.
Local Open Scope N_scope.

(** ** Types *)

(** The types of types.hpp 44-58 an array may have as elements, but texts. *)
Inductive num := SMALLINT | INTEGER | BIGINT | REAL | DOUBLE_PRECISION.

(** sizeof(Numeric). *)
Definition width (n : num) : N :=
  match n with SMALLINT => 2 | INTEGER | REAL => 4 | BIGINT | DOUBLE_PRECISION => 8 end.

(** Traits<...>::oid, sqlTraits.hpp, with the values of PostgreSQL's
    catalog/pg_type.h. *)
Definition num_oid (n : num) : N :=
  match n with SMALLINT => 21 | INTEGER => 23 | BIGINT => 20 | REAL => 700 | DOUBLE_PRECISION => 701 end.
Definition arr_oid (n : num) : N :=
  match n with SMALLINT => 1005 | INTEGER => 1007 | BIGINT => 1016 | REAL => 1021 | DOUBLE_PRECISION => 1022 end.
Definition text_oid : N := 25.
Definition text_arr_oid : N := 1009.

(** The types a parameter or column may have. *)
Inductive sqlty :=
| BOOL | NUM (n : num) | TEXT | WTEXT | BYTEA | TIMESTAMPTZ | DATE | INET | ARRAY (n : num) | ARRAY_TEXT | ARRAY_WTEXT.

(** The numbers of the types in PostgreSQL's catalog/pg_type.h, as named in
    sqlTraits.hpp. *)
Definition oid (t : sqlty) : N :=
  match t with
  | BOOL => 16 | NUM n => num_oid n | TEXT => text_oid | WTEXT => text_oid | BYTEA => 17
  | TIMESTAMPTZ => 1184 | DATE => 1082 | INET => 869
  | ARRAY n => arr_oid n | ARRAY_TEXT => text_arr_oid | ARRAY_WTEXT => text_arr_oid
  end.

(** Their values. *)
Definition val (t : sqlty) : Type :=
  match t with
  | BOOL => bool
  | NUM _ | TIMESTAMPTZ | DATE => Z
  | TEXT | WTEXT | BYTEA | INET => list N
  | ARRAY _ => list Z
  | ARRAY_TEXT | ARRAY_WTEXT => list (list N)
  end.

(** A value of a default constructed row, results.hpp 231.  A number or an
    address then is of value zero (std::tuple's default constructor value
    initialises); so is a DATE, though that is no date. *)
Definition default (t : sqlty) : val t :=
  match t with
  | BOOL => false
  | NUM _ | TIMESTAMPTZ | DATE => 0%Z
  | TEXT | WTEXT | BYTEA => []
  | INET => repeat 0 16
  | ARRAY _ => []
  | ARRAY_TEXT | ARRAY_WTEXT => []
  end.

(** ** BigEndian<Numeric>, endian.hpp 141-186 *)

Definition be_set (n : num) (z : Z) : list N :=
  match n with
  | SMALLINT => set_i16 z | INTEGER => set_i32 z | BIGINT => set_i64 z
  | REAL => to32 (Z.to_N z) | DOUBLE_PRECISION => to64 (Z.to_N z)
  end.
Definition be_read (n : num) (b : list N) : option Z :=
  match n with
  | SMALLINT => read_i16 b | INTEGER => read_i32 b | BIGINT => read_i64 b
  | REAL => option_map Z.of_N (from32 b) | DOUBLE_PRECISION => option_map Z.of_N (from64 b)
  end.

(** ** Parameters *)

(** What [new char[n]] gives: [None] is an undetermined byte. *)
Definition mem := list (option N).

(** Writing bytes at an offset. *)
Definition put (off : N) (b : list N) (m : mem) : outcome mem :=
  if off + N.of_nat (length b) <=? N.of_nat (length m)
  then Val (firstn (N.to_nat off) m ++ map Some b ++ skipn (N.to_nat off + length b) m)
  else UB.

(** ARRAY_SIZE is BigEndian<int32_t>, types.hpp 59; an unsigned is converted. *)
Definition put32 (off v : N) (m : mem) : outcome mem := put off (to32 (trunc 32 v)) m.

(** parameters.cpp 73-90 and 129-145. *)
Definition header (size eoid dim : N) : outcome mem :=
  let m := repeat None (N.to_nat size) in
  obind (put32 0 1 m) (fun m => obind (put32 4 0 m) (fun m => obind (put32 8 eoid m) (fun m =>
  obind (put32 12 dim m) (fun m => put32 16 1 m)))).

(** parameters.cpp 69-91; [size] is an unsigned. *)
Definition resize (n : num) (size : N) : outcome mem :=
  header (trunc 32 (4 * trunc 32 (5 + size) + size * width n)) (num_oid n) size.

(** 99-110, from index [i]. *)
Fixpoint put_nums (n : num) (i : N) (l : list Z) (m : mem) : outcome mem :=
  match l with
  | [] => Val m
  | z :: l =>
      let p := 20 + i * (4 + width n) in
      obind (put32 p (width n) m) (fun m => obind (put (p + 4) (be_set n z) m) (fun m => put_nums n (i + 1) l m))
  end.

(** 93-113. *)
Definition array_num (n : num) (l : list Z) : outcome mem :=
  obind (resize n (trunc 32 (N.of_nat (length l)))) (put_nums n 0 l).

(** 125-127. *)
Definition data_size (l : list (list N)) : N :=
  fold_left (fun s x => trunc 32 (s + N.of_nat (length x))) l 0.

(** 148-155. *)
Fixpoint put_texts (p : N) (l : list (list N)) (m : mem) : outcome mem :=
  match l with
  | [] => Val m
  | x :: l =>
      obind (put32 p (N.of_nat (length x)) m) (fun m => obind (put (p + 4) x m) (fun m =>
      put_texts (p + 4 + N.of_nat (length x)) l m))
  end.

(** 121-156. *)
Definition array_text (l : list (list N)) : outcome mem :=
  obind (header (trunc 32 (4 * (5 + N.of_nat (length l)) + data_size l)) text_oid (N.of_nat (length l))) (put_texts 20 l).

(** [wstring_convert::to_bytes], external: libstdc++ converts with
    [ucs4_out], enlarging its buffer as needed.  [None]: it throws. *)
Definition to_bytes (strict : bool) (s : list N) : option (list N) :=
  if existsb (refused strict) s then None else Some (flat_map utf8_write s).

(** parameters.cpp 38-50. *)
Definition convert_text (strict : bool) (s : list N) : list N :=
  match to_bytes strict s with Some b => b | None => [] end.

(** 172-188. *)
Fixpoint convert_texts (strict : bool) (l : list (list N)) : list (list N) :=
  match l with
  | [] => []
  | s :: l => match to_bytes strict s with Some b => b :: convert_texts strict l | None => [] end
  end.

(** sys_days{January/1/2000}, in microseconds and in days. *)
Definition epoch_us : Z := 946684800000000.
Definition epoch_days : Z := 10957.
Definition is_i64 (z : Z) : bool := ((- 2 ^ 63 <=? z) && (z <? 2 ^ 63))%Z.

(** data() and size() of Parameter<T>(x), parameters.hpp 49-342. *)
Definition param (strict : bool) (t : sqlty) : val t -> outcome mem :=
  match t return val t -> outcome mem with
  | BOOL => fun b : bool => Val [Some (if b then 1 else 0)]
  | NUM n => fun z => Val (map Some (be_set n z))
  | TEXT => fun s => Val (map Some s)
  | BYTEA => fun s => Val (map Some s)
  | WTEXT => fun s => Val (map Some (convert_text strict s))
  | TIMESTAMPTZ => fun z => if is_i64 (z - epoch_us) then Val (map Some (set_i64 (z - epoch_us))) else UB
  | DATE => fun z => Val (map Some (set_i32 (z - epoch_days)))
  | INET => fun a => Val (map Some ([3; 128; 0; 16] ++ a))
  | ARRAY n => fun l => array_num n l
  | ARRAY_TEXT => fun l => array_text l
  | ARRAY_WTEXT => fun l => array_text (convert_texts strict l)
  end.

(** Reading [n] determined bytes. *)
Fixpoint all_some (m : mem) : option (list N) :=
  match m with
  | [] => Some []
  | Some b :: m => match all_some m with Some l => Some (b :: l) | None => None end
  | None :: _ => None
  end.
Definition get (off n : N) (m : mem) : option (list N) :=
  if off + n <=? N.of_nat (length m) then all_some (firstn (N.to_nat n) (skipn (N.to_nat off) m)) else None.

(** Parameter<ARRAY<Numeric>>::operator[], parameters.hpp 264-269, read. *)
Definition num_at (n : num) (m : mem) (i : N) : outcome Z :=
  match get (24 + i * (4 + width n)) (width n) m with
  | Some b => match be_read n b with Some z => Val z | None => UB end
  | None => UB
  end.
(** The same, assigned to. *)
Definition set_at (n : num) (m : mem) (i : N) (z : Z) : outcome mem := put (24 + i * (4 + width n)) (be_set n z) m.

(** Parameter<ARRAY<TEXT>>::operator[], parameters.cpp 158-170; [x] texts are
    still passed over.  TEXT(ptr, length) throws when the length is negative;
    the caller then has no value. *)
Fixpoint text_at (m : mem) (p : N) (x : nat) : outcome (list N) :=
  match get p 4 m with
  | None => UB
  | Some b =>
      match read_i32 b with
      | None => UB
      | Some len =>
          if (len <? 0)%Z then UB else
          match x with
          | O => match get (p + 4) (Z.to_N len) m with Some t => Val t | None => UB end
          | S x => text_at m (p + 4 + Z.to_N len) x
          end
      end
  end.

(** ** Parameters_base and Parameters, 345-529: what is given to
    PQsendQueryParams for each parameter.  [None]: a null pointer.  m_sizes
    holds ints. *)
Record sent := mkSent { q_oid : N; q_raw : option mem; q_size : Z; q_format : Z }.

(** data() of a BYTEA made from an empty one, a vector that has never held
    anything, is a null pointer (libstdc++; the standard allows it). *)
Definition null_data (t : sqlty) (m : mem) : bool := match t, m with BYTEA, [] => true | _, _ => false end.
(** A parameter and whether setNull was called for it. *)
Definition build1 (strict : bool) (p : {t : sqlty & val t} * bool) : outcome sent :=
  obind (param strict (projT1 (fst p)) (projT2 (fst p))) (fun m =>
    Val (mkSent (oid (projT1 (fst p))) (if snd p || null_data (projT1 (fst p)) m then None else Some m)
           (of_base 32 (trunc 32 (N.of_nat (length m)))) 1)).
Fixpoint build (strict : bool) (l : list ({t : sqlty & val t} * bool)) : outcome (list sent) :=
  match l with
  | [] => Val []
  | p :: l => obind (build1 strict p) (fun s => obind (build strict l) (fun r => Val (s :: r)))
  end.

(** ** Results *)

(** A field: its bytes, or NULL. *)
Definition cell := option (list N).
(** What PQgetvalue points to: the bytes and a NUL; for NULL a single NUL. *)
Definition value (c : cell) : list N := match c with Some b => b ++ [0] | None => [0] end.
Definition cell_length (c : cell) : nat := match c with Some b => length b | None => O end.

(** What becomes of the variable a field is read into. *)
Inductive got (A : Type) := Got (a : A) | Throws | Undefined.
Arguments Got {A}. Arguments Throws {A}. Arguments Undefined {A}.

(** Auxiliary, no counterpart in the code: the 32-bit number at an offset, in
    network order. *)
Definition read32 (m : list N) (off : nat) : option Z := read_i32 (skipn off m).

(** results.cpp 225-250 and the like: the number of elements, or [None] when
    the function returns early; the whole is [None] when it reads too far. *)
Definition array_head (eoid : N) (m : list N) : option (option Z) :=
  match read32 m 0 with
  | None => None
  | Some ndim =>
      if negb (ndim =? 1)%Z then Some None else
      match read32 m 4 with
      | None => None
      | Some hasNull =>
          if negb (hasNull =? 0)%Z then Some None else
          match read32 m 8 with
          | None => None
          | Some elementType =>
              if negb (to_base 32 elementType =? eoid) then Some None else
              match read32 m 12 with None => None | Some size => Some (Some size) end
          end
      end
  end.

(** 257-272: [k] elements from index [i]. *)
Fixpoint field_nums (n : num) (m : list N) (k : nat) (i : nat) : option (list Z) :=
  match k with
  | O => Some []
  | S k =>
      let p := (20 + i * (4 + N.to_nat (width n)))%nat in
      match read32 m p with
      | None => None
      | Some len =>
          if (len =? Z.of_N (width n))%Z then
            match be_read n (skipn (p + 4) m) with
            | None => None
            | Some z => match field_nums n m k (S i) with Some l => Some (z :: l) | None => None end
            end
          else field_nums n m k (S i)
      end
  end.

(** 210-273. *)
Definition field_array (n : num) (c : cell) (old : list Z) : got (list Z) :=
  let m := value c in
  match array_head (num_oid n) m with
  | None => Undefined
  | Some None => Got old
  | Some (Some size) =>
      if (size <? 0)%Z then Throws
      else match field_nums n m (Z.to_nat size) 0 with Some l => Got l | None => Undefined end
  end.

(** 357-364, at [p]. *)
Fixpoint field_texts (m : list N) (k : nat) (p : nat) : got (list (list N)) :=
  match k with
  | O => Got []
  | S k =>
      match read32 m p with
      | None => Undefined
      | Some len =>
          if (len <? 0)%Z then Throws
          else if Nat.leb (p + 4 + Z.to_nat len) (length m) then
            match field_texts m k (p + 4 + Z.to_nat len) with
            | Got l => Got (firstn (Z.to_nat len) (skipn (p + 4) m) :: l)
            | r => r
            end
          else Undefined
      end
  end.

(** 315-365. *)
Definition field_array_text (c : cell) (old : list (list N)) : got (list (list N)) :=
  let m := value c in
  match array_head text_oid m with
  | None => Undefined
  | Some None => Got old
  | Some (Some size) => if (size <? 0)%Z then Throws else field_texts m (Z.to_nat size) 20
  end.

(** 413-421, ended by a text that cannot be converted. *)
Fixpoint field_wtexts (strict : bool) (m : list N) (k : nat) (p : nat) : got (list (list N)) :=
  match k with
  | O => Got []
  | S k =>
      match read32 m p with
      | None => Undefined
      | Some len =>
          if (len <? 0)%Z then Undefined
          else if Nat.leb (p + 4 + Z.to_nat len) (length m) then
            match from_bytes strict (firstn (Z.to_nat len) (skipn (p + 4) m)) with
            | None => Got []
            | Some s =>
                match field_wtexts strict m k (p + 4 + Z.to_nat len) with
                | Got l => Got (s :: l)
                | r => r
                end
            end
          else Undefined
      end
  end.

(** 368-427. *)
Definition field_array_wtext (strict : bool) (c : cell) (old : list (list N)) : got (list (list N)) :=
  let m := value c in
  match array_head text_oid m with
  | None => Undefined
  | Some None => Got old
  | Some (Some size) => if (size <? 0)%Z then Throws else field_wtexts strict m (Z.to_nat size) 20
  end.

(** Auxiliary, no counterpart in the code: reading outside of the value is
    undefined behaviour. *)
Definition got_of {A} (x : option A) : got A := match x with Some a => Got a | None => Undefined end.

(** The day numbers of -32767-01-01 and 32767-12-31, the first and the last
    day std::chrono::year_month_day has; others are unspecified. *)
Definition is_date (z : Z) : bool := ((-12687428 <=? z) && (z <=? 11248737))%Z.

(** 177-206. *)
Definition field_inet (c : cell) (old : list N) : got (list N) :=
  let m := value c in
  match cell_length c with
  | 8%nat => Got (repeat 0 10 ++ [255; 255] ++ firstn 4 (skipn 4 m))
  | 20%nat => Got (firstn 16 (skipn 4 m))
  | _ => Got old
  end.

(** results.cpp 67-427: field(row, column, value), [old] being the value of
    the variable before. *)
Definition field (strict : bool) (t : sqlty) (c : cell) : val t -> got (val t) :=
  match t return val t -> got (val t) with
  | BOOL => fun _ => got_of (option_map (fun b => negb (b =? 0)) (nth_error (value c) 0))
  | NUM n => fun _ => got_of (be_read n (value c))
  | TEXT => fun _ => Got (firstn (cell_length c) (value c))
  | BYTEA => fun _ => Got (firstn (cell_length c) (value c))
  | WTEXT => fun old => Got (match from_bytes strict (firstn (cell_length c) (value c)) with Some s => s | None => old end)
  | TIMESTAMPTZ => fun _ =>
      match read_i64 (value c) with
      | None => Undefined
      | Some us => if is_i64 (epoch_us + us) then Got (epoch_us + us)%Z else Undefined
      end
  | DATE => fun _ =>
      match read_i32 (value c) with
      | None => Undefined
      | Some d => if is_date (epoch_days + d) then Got (epoch_days + d)%Z else Undefined
      end
  | INET => fun old => field_inet c old
  | ARRAY n => fun old => field_array n c old
  | ARRAY_TEXT => fun old => field_array_text c old
  | ARRAY_WTEXT => fun old => field_array_wtext strict c old
  end.

(** row, results.hpp 178-237.  The fields are read in order into a default
    constructed tuple. *)
Fixpoint row (strict : bool) (ts : list sqlty) (cs : list cell) : got (list {t : sqlty & val t}) :=
  match ts, cs with
  | [], _ => Got []
  | t :: ts, c :: cs =>
      match field strict t c (default t) with
      | Got v =>
          match row strict ts cs with
          | Got l => Got (existT _ t v :: l)
          | r => r
          end
      | Throws => Throws
      | Undefined => Undefined
      end
  | _, [] => Undefined
  end.

(** What PQftype and PQfsize say of a column. *)
Record column := mkCol { c_type : N; c_size : Z }.
Record result := mkRes { r_cols : list column; r_rows : list (list cell) }.

(** Traits<T>::verifyType, sqlTraits.hpp 50-283. *)
Definition verify_column (t : sqlty) (c : column) : bool :=
  (c_type c =? oid t) &&
  match t with
  | BOOL => (c_size c =? 1)%Z
  | NUM n => (c_size c =? Z.of_N (width n))%Z
  | TIMESTAMPTZ => (c_size c =? 8)%Z
  | DATE => (c_size c =? 4)%Z
  | _ => true
  end.

(** verify_impl, results.hpp 156-176, from column [i]. *)
Fixpoint verify_from (i : Z) (ts : list sqlty) (cs : list column) : Z :=
  match ts, cs with
  | t :: ts, c :: cs => if verify_column t c then verify_from (i + 1) ts cs else (i + 1)%Z
  | _, _ => 0%Z
  end.

(** verify, 209-216; without columns 246-252. *)
Definition verify (ts : list sqlty) (r : result) : Z :=
  match ts with
  | [] => if Nat.eqb (length (r_cols r)) 0 && Nat.eqb (length (r_rows r)) 0 then 0%Z else (-1)%Z
  | _ => if Nat.eqb (length (r_cols r)) (length ts) then verify_from 0 ts (r_cols r) else (-1)%Z
  end.
