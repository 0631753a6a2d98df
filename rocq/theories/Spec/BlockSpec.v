(** What a byte block should do, in terms of what can be seen through
    [begin(), end()). *)
From Coq Require Import List Arith.
From Verif Require Import Model.Protocol Model.Block.
Import ListNotations.

(** Effect of an operation on the visible contents of all blocks.  New bytes
    that nobody wrote are unspecified. *)
Inductive vstep : bop -> list (list obyte) -> list (list obyte) -> Prop :=
| v_new : forall n vs, vstep (BNew n) vs (vs ++ [repeat None n])
| v_of : forall d vs, vstep (BOf d) vs (vs ++ [d])
| v_reserve : forall i x pre v post, i = length pre ->
    vstep (BReserve i x) (pre ++ v :: post) (pre ++ firstn x v :: post)
| v_shrink : forall i x pre v post, i = length pre -> x <= length v ->
    vstep (BSize i x) (pre ++ v :: post) (pre ++ firstn x v :: post)
| v_grow : forall i x pre v post fill, i = length pre -> length (v ++ fill) = x ->
    vstep (BSize i x) (pre ++ v :: post) (pre ++ (v ++ fill) :: post)
| v_clear : forall i pre v post, i = length pre ->
    vstep (BClear i) (pre ++ v :: post) (pre ++ [] :: post)
| v_assign : forall i d pre v post, i = length pre ->
    vstep (BAssign i d) (pre ++ v :: post) (pre ++ d :: post)
| v_move_new : forall i pre v post, i = length pre ->
    vstep (BMoveNew i) (pre ++ v :: post) (pre ++ [] :: post ++ [v])
| v_move_self : forall i pre v post, i = length pre ->
    vstep (BMove i i) (pre ++ v :: post) (pre ++ [] :: post)
| v_move_left : forall i j a v b w c, i = length a -> j = length (a ++ v :: b) ->
    vstep (BMove i j) (a ++ v :: b ++ w :: c) (a ++ w :: b ++ [] :: c)
| v_move_right : forall i j a v b w c, j = length a -> i = length (a ++ v :: b) ->
    vstep (BMove i j) (a ++ v :: b ++ w :: c) (a ++ [] :: b ++ v :: c)
| v_store : forall i pre x old y post bytes, i = length pre -> length bytes = length old ->
    vstep (BStore i (length x) bytes) (pre ++ (x ++ old ++ y) :: post)
      (pre ++ (x ++ bytes ++ y) :: post).
