(** What SQL values mean to PostgreSQL (Spec/PgSpec.v). *)
From Coq Require Import List NArith ZArith Bool.
From Verif Require Import Model.Base Model.Sql Spec.EndianSpec Spec.StreamSpec Spec.PgSpec.
Import ListNotations.
Local Open Scope N_scope.

(** The server's type for a C++ type, and whether it is an array of it. *)
Definition num_type (n : num) : pgtype :=
  match n with SMALLINT => Int 2 | INTEGER => Int 4 | BIGINT => Int 8 | REAL => Float 4 | DOUBLE_PRECISION => Float 8 end.
Definition pg_of (t : sqlty) : pgtype * bool :=
  match t with
  | BOOL => (Bool, false) | NUM n => (num_type n, false) | TEXT => (Text, false) | WTEXT => (Text, false) | BYTEA => (Bytea, false)
  | TIMESTAMPTZ => (Timestamptz, false) | DATE => (Date, false) | INET => (Inet, false)
  | ARRAY n => (num_type n, true) | ARRAY_TEXT => (Text, true) | ARRAY_WTEXT => (Text, true)
  end.
Definition type_number (t : sqlty) : N := let (p, a) := pg_of t in if a then pg_array_oid p else pg_oid p.
Definition type_size (t : sqlty) : Z := let (p, a) := pg_of t in if a then (-1)%Z else pg_size p.

(** From 1970-01-01 to 2000-01-01, in days and microseconds. *)
Definition days_2000 : Z := 10957.
Definition us_2000 : Z := days_2000 * 24 * 60 * 60 * 1000000.

Definition num_means (n : num) (z : Z) : pgscalar :=
  match n with
  | SMALLINT => PInt 2 z | INTEGER => PInt 4 z | BIGINT => PInt 8 z
  | REAL => PFloat 4 (Z.to_N z) | DOUBLE_PRECISION => PFloat 8 (Z.to_N z)
  end.
Definition means (t : sqlty) : val t -> pgval :=
  match t return val t -> pgval with
  | BOOL => fun b => PScalar (PBool b)
  | NUM n => fun z => PScalar (num_means n z)
  | TEXT => fun s => PScalar (PText s)
  | WTEXT => fun s => PScalar (PText (utf8 s))
  | BYTEA => fun s => PScalar (PBytea s)
  | TIMESTAMPTZ => fun z => PScalar (PTimestamp (z - us_2000))
  | DATE => fun z => PScalar (PDate (z - days_2000))
  | INET => fun a => PScalar (PInet6 128 a)
  | ARRAY n => fun l => PArray 1 (map (fun z => Some (num_means n z)) l)
  | ARRAY_TEXT => fun l => PArray 1 (map (fun s => Some (PText s)) l)
  | ARRAY_WTEXT => fun l => PArray 1 (map (fun s => Some (PText (utf8 s))) l)
  end.

(** Values of the types. *)
Definition num_fits (n : num) (z : Z) : Prop :=
  match n with
  | SMALLINT => -2 ^ 15 <= z < 2 ^ 15
  | INTEGER => -2 ^ 31 <= z < 2 ^ 31
  | BIGINT => -2 ^ 63 <= z < 2 ^ 63
  | REAL => 0 <= z < 2 ^ 32
  | DOUBLE_PRECISION => 0 <= z < 2 ^ 64
  end%Z.
(** Length of an array of items of these lengths. *)
Definition array_length (l : list nat) : N := fold_right (fun n s => 4 + N.of_nat n + s) 20 l.
Definition fits (t : sqlty) : val t -> Prop :=
  match t return val t -> Prop with
  | BOOL => fun _ => True
  | NUM n => num_fits n
  | TEXT => bytes_ok
  | BYTEA => bytes_ok
  | WTEXT => Forall scalar
  | TIMESTAMPTZ => fun z => (-2 ^ 63 + us_2000 <= z < 2 ^ 63)%Z
  | DATE => fun z => (-12687428 <= z <= 11248737)%Z      (* the years -32767 to 32767 *)
  | INET => fun a => length a = 16%nat /\ bytes_ok a
  | ARRAY n => fun l => Forall (num_fits n) l /\ array_length (map (fun _ => N.to_nat (width n)) l) < 2 ^ 31
  | ARRAY_TEXT => fun l => Forall bytes_ok l /\ array_length (map (@length N) l) < 2 ^ 31
  | ARRAY_WTEXT => fun l => Forall (Forall scalar) l /\ array_length (map (fun s => length (utf8 s)) l) < 2 ^ 31
  end.

(** The value [v] is what a program should get for the server's [p]. *)
Definition fetched (t : sqlty) : val t -> pgval -> Prop :=
  match t return val t -> pgval -> Prop with
  | INET => fun a p => bytes_ok a /\ length a = 16%nat /\
      ((exists m, p = PScalar (PInet6 m a)) \/ exists m b, p = PScalar (PInet4 m b) /\ a = repeat 0 10 ++ [255; 255] ++ b)
  | ARRAY n => fun l p => fits (ARRAY n) l /\ exists lower, p = PArray lower (map (fun z => Some (num_means n z)) l)
  | ARRAY_TEXT => fun l p => fits ARRAY_TEXT l /\ exists lower, p = PArray lower (map (fun s => Some (PText s)) l)
  | ARRAY_WTEXT => fun l p => fits ARRAY_WTEXT l /\ exists lower, p = PArray lower (map (fun s => Some (PText (utf8 s))) l)
  | t => fun v p => fits t v /\ p = means t v
  end.

(** A row of the server and the row of a program. *)
Inductive same_row : list sqlty -> list {t : sqlty & val t} -> list pgval -> list cell -> Prop :=
| same_nil : same_row [] [] [] []
| same_cons : forall t v p ts vs ps cs, fetched t v p -> same_row ts vs ps cs ->
    same_row (t :: ts) (existT _ t v :: vs) (p :: ps) (Some (pg_send (fst (pg_of t)) p) :: cs).

(** A column is of the type. *)
Definition matches (t : sqlty) (c : column) : Prop :=
  c_type c = type_number t /\ (type_size t <> (-1)%Z -> c_size c = type_size t).

(** What the server is to be given for a parameter. *)
Definition arrives (p : {t : sqlty & val t} * bool) (s : sent) : Prop :=
  let t := projT1 (fst p) in
  q_oid s = type_number t /\ q_format s = 1%Z /\
  if snd p then q_raw s = None
  else exists b, q_raw s = Some (map Some b) /\ bytes_ok b /\ q_size s = Z.of_nat (length b) /\
         pg_recv (fst (pg_of t)) (snd (pg_of t)) b = Some (means t (projT2 (fst p))).

(** A parameter made by size, and elements of it assigned to. *)
Inductive sized (n : num) (size : N) : mem -> Prop :=
| sized_new : forall m, resize n size = Val m -> sized n size m
| sized_set : forall m m' i z, sized n size m -> set_at n m i z = Val m' -> sized n size m'.
