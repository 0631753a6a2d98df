(** What PostgreSQL makes of binary parameters and what it sends back: the
    receive and send functions of its types (bool.c, int.c, int8.c, float.c,
    varlena.c, date.c, timestamp.c, network.c, arrayfuncs.c), for a database
    whose client encoding is UTF-8.  Nothing here is taken from the model. *)
From Coq Require Import String List NArith ZArith Bool.
From Verif Require Import Spec.EndianSpec Spec.StreamSpec.
Import ListNotations.
Local Open Scope N_scope.

(** Scalars of the server. *)
Inductive pgscalar :=
| PBool (b : bool)
| PInt (bytes : nat) (z : Z)                 (* int2, int4, int8 *)
| PFloat (bytes : nat) (bits : N)            (* float4, float8 *)
| PText (b : list N)
| PBytea (b : list N)
| PTimestamp (z : Z)                         (* timestamptz: microseconds since 2000-01-01 *)
| PDate (z : Z)                              (* days since 2000-01-01 *)
| PInet4 (bits : N) (a : list N)
| PInet6 (bits : N) (a : list N).

(** Scalars and arrays of up to one dimension. *)
Inductive pgval :=
| PScalar (s : pgscalar)
| PArray (lower : Z) (l : list (option pgscalar)).

(** Types, with their numbers in pg_type.dat and sizes; variable ones have the
    size -1. *)
Inductive pgtype := Bool | Int (bytes : nat) | Float (bytes : nat) | Text | Bytea | Timestamptz | Date | Inet.
Definition pg_oid (t : pgtype) : N :=
  match t with
  | Bool => 16 | Int 2 => 21 | Int 4 => 23 | Int _ => 20 | Float 4 => 700 | Float _ => 701
  | Text => 25 | Bytea => 17 | Timestamptz => 1184 | Date => 1082 | Inet => 869
  end.
Definition pg_array_oid (t : pgtype) : N :=
  match t with
  | Bool => 1000 | Int 2 => 1005 | Int 4 => 1007 | Int _ => 1016 | Float 4 => 1021 | Float _ => 1022
  | Text => 1009 | Bytea => 1001 | Timestamptz => 1185 | Date => 1182 | Inet => 1041
  end.
Definition pg_size (t : pgtype) : Z :=
  match t with
  | Bool => 1 | Int n => Z.of_nat n | Float n => Z.of_nat n | Timestamptz => 8 | Date => 4
  | Text | Bytea | Inet => -1
  end.

(** A signed number in network order. *)
Definition be_signed (n : nat) (z : Z) : list N := be_digits n (Z.to_N (z mod 256 ^ Z.of_nat n)).
Definition signed (b : list N) : Z := twos (8 * Z.of_nat (length b)) (Z.of_N (be_value b)).

(** Sending. *)
Definition pg_send1 (s : pgscalar) : list N :=
  match s with
  | PBool b => [if b then 1 else 0]
  | PInt n z => be_signed n z
  | PFloat n f => be_digits n f
  | PText b => b
  | PBytea b => b
  | PTimestamp z => be_signed 8 z
  | PDate z => be_signed 4 z
  | PInet4 m a => [2; m; 0; 4] ++ a
  | PInet6 m a => [3; m; 0; 16] ++ a
  end.
Definition pg_item (x : option pgscalar) : list N :=
  match x with
  | Some s => be_signed 4 (Z.of_nat (length (pg_send1 s))) ++ pg_send1 s
  | None => be_signed 4 (-1)
  end.
Definition has_null (l : list (option pgscalar)) : bool := existsb (fun x => match x with None => true | Some _ => false end) l.
(** array_send; an empty array has no dimension. *)
Definition pg_send (t : pgtype) (v : pgval) : list N :=
  match v with
  | PScalar s => pg_send1 s
  | PArray lower l =>
      match l with
      | [] => be_signed 4 0 ++ be_signed 4 0 ++ be_digits 4 (pg_oid t)
      | _ => be_signed 4 1 ++ be_signed 4 (if has_null l then 1 else 0) ++ be_digits 4 (pg_oid t) ++
             be_signed 4 (Z.of_nat (length l)) ++ be_signed 4 lower ++ flat_map pg_item l
      end
  end.

(** Receiving; [None] is an error. *)
Definition exactly (n : nat) (b : list N) : bool := Nat.eqb (length b) n.
Definition pg_recv1 (t : pgtype) (b : list N) : option pgscalar :=
  match t with
  | Bool => match b with [x] => Some (PBool (negb (x =? 0))) | _ => None end
  | Int n => if exactly n b then Some (PInt n (signed b)) else None
  | Float n => if exactly n b then Some (PFloat n (be_value b)) else None
  | Text => Some (PText b)
  | Bytea => Some (PBytea b)
  | Timestamptz => if exactly 8 b then Some (PTimestamp (signed b)) else None
  | Date => if exactly 4 b then Some (PDate (signed b)) else None
  | Inet =>
      match b with
      | f :: m :: _ :: n :: a =>
          if (f =? 2) && (m <=? 32) && (n =? 4) && exactly 4 a then Some (PInet4 m a)
          else if (f =? 3) && (m <=? 128) && (n =? 16) && exactly 16 a then Some (PInet6 m a)
          else None
      | _ => None
      end
  end.
(** A number of four bytes, and the rest. *)
Definition int4 (b : list N) : option (Z * list N) :=
  if Nat.leb 4 (length b) then Some (signed (firstn 4 b), skipn 4 b) else None.
(** array_recv, ReadArrayBinary: [k] items that take up everything. *)
Fixpoint pg_items (t : pgtype) (k : nat) (b : list N) : option (list (option pgscalar)) :=
  match k with
  | O => match b with [] => Some [] | _ => None end
  | S k =>
      match int4 b with
      | None => None
      | Some (len, b) =>
          if (len =? -1)%Z then option_map (cons None) (pg_items t k b)
          else if (len <? 0)%Z || (Z.of_nat (length b) <? len)%Z then None
          else
            match pg_recv1 t (firstn (Z.to_nat len) b), pg_items t k (skipn (Z.to_nat len) b) with
            | Some s, Some l => Some (Some s :: l)
            | _, _ => None
            end
      end
  end.
Definition pg_recv_array (t : pgtype) (b : list N) : option pgval :=
  match int4 b with
  | None => None
  | Some (ndim, b) =>
      match int4 b with
      | None => None
      | Some (flags, b) =>
          match int4 b with
          | None => None
          | Some (eoid, b) =>
              if negb ((flags =? 0)%Z || (flags =? 1)%Z) then None
              else if negb (eoid =? Z.of_N (pg_oid t))%Z then None
              else if (ndim =? 0)%Z then match b with [] => Some (PArray 1 []) | _ => None end
              else if negb (ndim =? 1)%Z then None
              else
                match int4 b with
                | None => None
                | Some (dim, b) =>
                    match int4 b with
                    | None => None
                    | Some (lower, b) =>
                        if (dim <? 0)%Z then None
                        else
                          match pg_items t (Z.to_nat dim) b with
                          | Some [] => Some (PArray 1 [])
                          | Some l => Some (PArray lower l)
                          | None => None
                          end
                    end
                end
          end
      end
  end.
Definition pg_recv (t : pgtype) (array : bool) (b : list N) : option pgval :=
  if array then pg_recv_array t b else option_map PScalar (pg_recv1 t b).
