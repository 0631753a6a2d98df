(** Model of a Parameters object that is assigned to and used for more than
    one query (include/fastcgi++/sql/parameters.hpp, src/connection.cpp). *)
From Coq Require Import List NArith ZArith Bool Arith.
From Verif Require Import Model.Base Model.Endian Model.Sql.
Import ListNotations.
Local Open Scope N_scope.

(** How the types keep their data: in the object itself (BOOL, numbers,
    TIMESTAMPTZ, DATE, INET: 53-116, 160-236), as a std::string (TEXT and WTEXT:
    118-127, 140-158), as a std::vector (BYTEA: 129-138) or in a block of their
    own (arrays: 238-342).  Arrays made by their size are left out. *)
Inductive keeping := Inside | String | Vector | Block.
Definition keeping_of (t : sqlty) : keeping :=
  match t with
  | TEXT | WTEXT => String
  | BYTEA => Vector
  | ARRAY _ | ARRAY_TEXT | ARRAY_WTEXT => Block
  | BOOL | NUM _ | TIMESTAMPTZ | DATE | INET => Inside
  end.

(** Auxiliary, no counterpart in the code: equality. *)
Definition num_eqb (a b : num) : bool :=
  match a, b with
  | SMALLINT, SMALLINT | INTEGER, INTEGER | BIGINT, BIGINT | REAL, REAL | DOUBLE_PRECISION, DOUBLE_PRECISION => true
  | _, _ => false
  end.
Definition sqlty_eqb (a b : sqlty) : bool :=
  match a, b with
  | BOOL, BOOL | TEXT, TEXT | WTEXT, WTEXT | BYTEA, BYTEA | TIMESTAMPTZ, TIMESTAMPTZ | DATE, DATE | INET, INET
  | ARRAY_TEXT, ARRAY_TEXT | ARRAY_WTEXT, ARRAY_WTEXT => true
  | NUM a, NUM b | ARRAY a, ARRAY b => num_eqb a b
  | _, _ => false
  end.

(** A parameter: its type, the bytes of the memory its data is in, how many of
    them size() counts, and which memory that is; [None]: data() is a null
    pointer. *)
Record slot := mkSlot { s_ty : sqlty; s_mem : mem; s_size : N; s_block : option nat }.

(** The object: the tuple, m_nulls, m_raws, m_sizes (345-389), and a number for
    the memory that is allocated next.  m_oids and m_formats follow from the
    types. *)
Record params := mkPs { o_slots : list slot; o_nulls : list bool; o_raws : list (option nat); o_sizes : list Z; o_next : nat }.

(** What is in the memory of a string has a zero behind it. *)
Definition stored (t : sqlty) (m : mem) : mem := match keeping_of t with String => m ++ [Some 0] | _ => m end.

(** 491-499 and 506-521: make_Parameters. *)
Definition new_slot (strict : bool) (k : nat) (v : {t : sqlty & val t}) : option slot :=
  match param strict (projT1 v) (projT2 v) with
  | UB => None
  | Val m => Some (mkSlot (projT1 v) (stored (projT1 v) m) (N.of_nat (length m)) (if null_data (projT1 v) m then None else Some k))
  end.
Fixpoint new_slots (strict : bool) (k : nat) (l : list {t : sqlty & val t}) : option (list slot) :=
  match l with
  | [] => Some []
  | v :: l =>
      match new_slot strict k v, new_slots strict (S k) l with
      | Some s, Some r => Some (s :: r)
      | _, _ => None
      end
  end.
(** 377-389: the vectors are all of the size of the tuple. *)
Definition make (strict : bool) (l : list {t : sqlty & val t}) : option params :=
  match new_slots strict 0 l with
  | Some s => Some (mkPs s (map (fun _ => false) l) (map (fun _ => None) l) (map (fun _ => 0%Z) l) (length l))
  | None => None
  end.

(** What a program does with the object.  Whether an assignment to a string or
    a vector leaves the data where it is or puts it elsewhere depends on what
    there is room for, and on whether what is assigned is itself moved from. *)
Inductive pact :=
| PAssign (i : nat) (t : sqlty) (v : val t) (moved : bool)   (* std::get<i>(p) = v *)
| PElement (i : nat) (k : N) (z : Z)                         (* std::get<i>(p)[k] = z *)
| PNull (i : nat)                                            (* p.setNull(i) *)
| PQueue.                                                    (* a query with it is queued *)

Fixpoint replace {A} (i : nat) (x : A) (l : list A) : list A :=
  match i, l with
  | _, [] => []
  | O, _ :: l => x :: l
  | S i, y :: l => y :: replace i x l
  end.

(** The assignments: 63-67, 82-114, 125, 136, 147-151, 174-178, 202-206, 218-230;
    93-113 and 121-156 of parameters.cpp, where [reset] frees the old block
    after the new one is allocated. *)
Definition assign (s : slot) (m : mem) (moved : bool) (k : nat) : slot :=
  let t := s_ty s in
  let n := N.of_nat (length m) in
  match keeping_of t with
  | Inside => mkSlot t m n (s_block s)
  | Block => mkSlot t m n (Some k)
  | String =>
      if moved then mkSlot t (m ++ [Some 0]) n (Some k)
      else mkSlot t (m ++ [Some 0] ++ skipn (length m + 1) (s_mem s)) n (s_block s)
  | Vector =>
      match s_block s, moved with
      | Some b, false => mkSlot t (m ++ skipn (length m) (s_mem s)) n (Some b)
      | _, _ => mkSlot t m n (if null_data t m then None else Some k)
      end
  end.

(** 466-489 and 525-529: the arrays for libpq. *)
Definition raw_of (s : slot) (null : bool) : option nat := if null then None else s_block s.
Definition size_of (s : slot) : Z := of_base 32 (trunc 32 (s_size s)).
Fixpoint raws_of (l : list slot) (nulls : list bool) : list (option nat) :=
  match l, nulls with
  | s :: l, n :: nulls => raw_of s n :: raws_of l nulls
  | _, _ => []
  end.

(** [None]: not a program, or undefined. *)
Definition pstep (strict : bool) (a : pact) (p : params) : option params :=
  match a with
  | PAssign i t v moved =>
      match nth_error (o_slots p) i with
      | None => None
      | Some s =>
          if sqlty_eqb t (s_ty s) then
            match param strict t v with
            | UB => None
            | Val m => Some (mkPs (replace i (assign s m moved (o_next p)) (o_slots p)) (o_nulls p) (o_raws p) (o_sizes p) (S (o_next p)))
            end
          else None
      end
  | PElement i k z =>
      match nth_error (o_slots p) i with
      | Some (mkSlot (ARRAY n) m size b) =>
          match set_at n m k z with
          | UB => None
          | Val m => Some (mkPs (replace i (mkSlot (ARRAY n) m size b) (o_slots p)) (o_nulls p) (o_raws p) (o_sizes p) (o_next p))
          end
      | _ => None
      end
  | PNull i =>
      if Nat.ltb i (length (o_nulls p))
      then Some (mkPs (o_slots p) (replace i true (o_nulls p)) (o_raws p) (o_sizes p) (o_next p)) else None
  | PQueue => Some (mkPs (o_slots p) (o_nulls p) (raws_of (o_slots p) (o_nulls p)) (map size_of (o_slots p)) (o_next p))
  end.
Fixpoint prun (strict : bool) (l : list pact) (p : params) : option params :=
  match l with
  | [] => Some p
  | a :: l => match pstep strict a p with Some p => prun strict l p | None => None end
  end.

(** connection.cpp 72-81: what PQsendQueryParams reads when the thread of the
    connection gets to the query. *)
Definition read_param (s : slot) (raw : option nat) (size : Z) : outcome sent :=
  match raw with
  | None => Val (mkSent (oid (s_ty s)) None size 1)
  | Some k =>
      match s_block s with
      | None => UB
      | Some b =>
          if Nat.eqb b k && (0 <=? size)%Z && (size <=? Z.of_nat (length (s_mem s)))%Z
          then Val (mkSent (oid (s_ty s)) (Some (firstn (Z.to_nat size) (s_mem s))) size 1) else UB
      end
  end.
Fixpoint read_params (l : list slot) (raws : list (option nat)) (sizes : list Z) : outcome (list sent) :=
  match l, raws, sizes with
  | s :: l, r :: raws, z :: sizes =>
      obind (read_param s r z) (fun q => obind (read_params l raws sizes) (fun t => Val (q :: t)))
  | _, _, _ => Val []
  end.
Definition send_params (p : params) : outcome (list sent) := read_params (o_slots p) (o_raws p) (o_sizes p).
