(** Model of printing an [Address] (src/address.cpp 178-350) on a stream with
    any locale and number format, and of [Request::setLocale]
    (src/request.cpp 275-303), which gives the stream of a request its locale. *)
From Coq Require Import String List NArith ZArith Bool Arith.
From Verif Require Import Model.Base Model.Address.
Import ListNotations.
Local Open Scope N_scope.

(** What [num_put] takes from the stream: [grouping()] and [thousands_sep()] of
    the [numpunct] of its locale, and the flags [showbase] and [uppercase].
    The width is 0 here (address.cpp 191). *)
Record style := mkStyle {
  f_grouping : list N;          (* each entry a [char], seen as unsigned *)
  f_sep : N;
  f_showbase : bool;
  f_upper : bool }.

(** The locale "C" with the flags of a new stream. *)
Definition classic : style := mkStyle [] 0x2c false false.

(** libstdc++ locale_facets.tcc, [__add_grouping]: an entry of the grouping is
    the length of a group if it is above 0 as a [signed char] and not
    [CHAR_MAX]. *)
Definition group_size (n : N) : bool := (0 <? n) && (n <? 127).

(** [__add_grouping], on the digits from right to left: the last entry counts
    for all further groups.  Simplified: the library finds the groups first
    and copies then; here in one go.  [n] bounds the number of groups. *)
Fixpoint grouped (n : nat) (sep : N) (g : list N) (ds : list N) : list N :=
  match n, g with
  | O, _ | _, [] => ds
  | S n, k :: g' =>
      if group_size k && Nat.ltb (N.to_nat k) (length ds)
      then firstn (N.to_nat k) ds ++
           sep :: grouped n sep (match g' with [] => g | _ => g' end) (skipn (N.to_nat k) ds)
      else ds
  end.

(** libstdc++ locale_facets.tcc, the digits of [__num_base::_S_atoms_out] for
    [uppercase]. *)
Definition raise (c : N) : N := if (0x61 <=? c) && (c <=? 0x66) then c - 0x20 else c.

(** [num_put::put] for an [unsigned long] (libstdc++ [_M_insert_int]), in base
    10 or 16: digits, grouping, base. *)
Definition put_num (f : style) (base : N) (n : nat) (v : N) : list N :=
  let ds := numeral base n v in
  let ds := if f_upper f then map raise ds else ds in
  let ds := rev (grouped (length ds) (f_sep f) (f_grouping f) (rev ds)) in
  if f_showbase f && (base =? 16) && negb (v =? 0)
  then [0x30; if f_upper f then 0x58 else 0x78] ++ ds else ds.

(** address.cpp 276-309, as [print_groups]. *)
Fixpoint put_groups (f : style) (i : nat) (gs : list N) (s : subp) : list N :=
  match gs with
  | [] => []
  | g :: gs' =>
      let inside := match s with None => false | Some (x, y) => Nat.leb x i && Nat.leb i y end in
      let here :=
        if inside then
          (if match s with Some (x, _) => Nat.eqb i x && Nat.eqb i 0 | None => false end
           then [0x3a] else [])
          ++ (if match s with Some (_, y) => Nat.eqb i y | None => false end then [0x3a] else [])
        else put_num f 16 4 g ++ (if Nat.ltb i 7 then [0x3a] else [])
      in here ++ put_groups f (S i) gs' s
  end.

(** address.cpp 263-273: every byte with a '.' behind it. *)
Definition put_quad (f : style) (bs : list N) : list N := flat_map (fun b => put_num f 10 3 b ++ [0x2e]) bs.

(** address.cpp 243-312: what is written to [buffer] from its beginning, and
    how much of it is left ([bufPtr]). *)
Definition put_address (f : style) (a : list N) : list N * nat :=
  let gs := groups a in
  let s := zero_run 0 (map (fun g => g =? 0) gs) None None in
  let v6 := put_groups f 0 gs s in
  match s with
  | Some (0%nat, 4%nat) =>
      if nth 5 gs 0 =? 0xffff
      then let t := lit "::" ++ put_num f 16 4 0xffff ++ lit ":" ++ put_quad f (skipn 12 a) in
           (t, (length t - 1)%nat)
      else (v6, length v6)
  | _ => (v6, length v6)
  end.

(** address.cpp 192: [charT buffer[40]]. *)
Definition bufferSize : nat := 40.

(** address.cpp 178-350: what is printed.  Writing behind the buffer is
    undefined. *)
Definition show (f : style) (a : list N) : outcome (list N) :=
  let '(t, n) := put_address f a in
  if Nat.leb (length t) bufferSize then Val (firstn n t) else UB.

(** request.cpp 275-303, setLocale: the locale of that name and code page, if
    the system has it ([known]: its number format), else "C".  The flags stay
    as they are, here those of a new stream. *)
Definition setLocale (known : list N -> option (list N * N)) (wide : bool) (name : list N) : style :=
  match known (name ++ if wide then lit ".UTF-8" else []) with
  | Some (g, sep) => mkStyle g sep false false
  | None => classic
  end.
