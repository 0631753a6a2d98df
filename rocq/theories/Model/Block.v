(** Model of [Block] (src/block.cpp, include/fastcgi++/block.hpp). *)
From Coq Require Import String List NArith ZArith Bool Arith.
From Verif Require Import Model.Base Model.Protocol.
Import ListNotations.

(** block.hpp 47-54.  [b_data] is the array [m_data] owns, [] for null;
    [None] is a byte that was never written. *)
Record block := mkB { b_reserve : nat; b_size : nat; b_data : list obyte }.

(** block.cpp 49-52. *)
Definition b_empty : block := mkB 0 0 [].

(** block.cpp 54-58: [new char[size_]] leaves the bytes indeterminate. *)
Definition b_sized (n : nat) : block := mkB n n (repeat None n).

(** [std::copy(src, src+n, dst)] into the start of an array; [UB] when either
    range leaves its array. *)
Definition copy_into (src : list obyte) (n : nat) (dst : list obyte) : outcome (list obyte) :=
  if (n <=? length src)%nat && (n <=? length dst)%nat
  then Val (firstn n src ++ skipn n dst) else UB.

(** block.cpp 60-66.  [data] are the bytes of the argument range. *)
Definition b_of (data : list obyte) : outcome block :=
  obind (copy_into data (length data) (repeat None (length data)))
    (fun d => Val (mkB (length data) (length data) d)).

(** block.cpp 31-47. *)
Definition b_setReserve (x : nat) (b : block) : outcome block :=
  if negb (x =? b_reserve b)%nat then
    let newSize := Nat.min (b_size b) x in
    obind (copy_into (b_data b) newSize (repeat None x)) (fun d =>
    Val (mkB x newSize d))
  else Val b.

(** block.cpp 87-95. *)
Definition b_setSize (x : nat) (b : block) : outcome block :=
  obind
    (if (b_reserve b <? x)%nat
     then b_setReserve x (mkB (b_reserve b) (b_reserve b) (b_data b))
     else Val b)
    (fun b' => Val (mkB (b_reserve b') x (b_data b'))).

(** block.cpp 97-102. *)
Definition b_clear (b : block) : block := mkB 0 0 [].

(** block.cpp 104-113. *)
Definition b_assign (data : list obyte) (b : block) : outcome block :=
  let b1 := if (b_reserve b <? length data)%nat
            then mkB (length data) (b_size b) (repeat None (length data)) else b in
  obind (copy_into data (length data) (b_data b1)) (fun d =>
  Val (mkB (b_reserve b1) (length data) d)).

(** block.cpp 68-75 and 77-85: the new value of the target and of the
    source.  For the assignment of a block to itself see [b_selfMove]. *)
Definition b_move (x : block) : block * block := (x, mkB 0 0 []).

(** block.cpp 77-85 with [&x == this]: the sizes are zeroed, the self-move of
    the [unique_ptr] keeps the array. *)
Definition b_selfMove (x : block) : block := mkB 0 0 (b_data x).

(** A write of [bytes] through [begin()+pos]. *)
Definition b_store (pos : nat) (bytes : list obyte) (b : block) : outcome block :=
  if (pos + length bytes <=? length (b_data b))%nat
  then Val (mkB (b_reserve b) (b_size b)
              (firstn pos (b_data b) ++ bytes ++ skipn (pos + length bytes) (b_data b)))
  else UB.

(** The range [begin(), end()), block.hpp 107-131. *)
Definition b_view (b : block) : list obyte := firstn (b_size b) (b_data b).

(* ------------------------------------------------------------------ *)
(** Histories over any number of blocks, named by position. *)
Inductive bop :=
| BNew (n : nat)                        (* a new block Block(n); Block() is BNew 0 *)
| BOf (data : list obyte)
| BReserve (i x : nat)
| BSize (i x : nat)
| BClear (i : nat)
| BAssign (i : nat) (data : list obyte)
| BMoveNew (i : nat)                    (* Block(Block&&) into a new block *)
| BMove (i j : nat)                     (* blocks[i] = std::move(blocks[j]) *)
| BStore (i pos : nat) (bytes : list obyte).   (* write inside [begin(), end()) *)

Fixpoint upd {A} (l : list A) (i : nat) (a : A) : list A :=
  match l, i with
  | [], _ => []
  | _ :: l', O => a :: l'
  | x :: l', S i' => x :: upd l' i' a
  end.

(** [None]: the operation names a block that does not exist or writes outside
    [begin(), end()), which is the caller's fault. *)
Definition bstep (o : bop) (bs : list block) : option (outcome (list block)) :=
  let on i (f : block -> outcome block) :=
    match nth_error bs i with
    | None => None
    | Some b => Some (obind (f b) (fun b' => Val (upd bs i b')))
    end in
  match o with
  | BNew n => Some (Val (bs ++ [b_sized n]))
  | BOf data => Some (obind (b_of data) (fun b => Val (bs ++ [b])))
  | BReserve i x => on i (b_setReserve x)
  | BSize i x => on i (b_setSize x)
  | BClear i => on i (fun b => Val (b_clear b))
  | BAssign i data => on i (b_assign data)
  | BMoveNew i =>
      match nth_error bs i with
      | None => None
      | Some b => let '(t, s) := b_move b in Some (Val (upd bs i s ++ [t]))
      end
  | BMove i j =>
      match nth_error bs i, nth_error bs j with
      | Some _, Some b =>
          if (i =? j)%nat then Some (Val (upd bs i (b_selfMove b)))
          else let '(t, s) := b_move b in Some (Val (upd (upd bs j s) i t))
      | _, _ => None
      end
  | BStore i pos bytes =>
      match nth_error bs i with
      | None => None
      | Some b => if (pos + length bytes <=? b_size b)%nat
                  then Some (obind (b_store pos bytes b) (fun b' => Val (upd bs i b')))
                  else None
      end
  end.
