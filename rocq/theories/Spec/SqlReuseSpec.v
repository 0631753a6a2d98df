(** What a Parameters object stands for after a history of assignments. *)
From Coq Require Import List NArith ZArith Bool.
From Verif Require Import Model.Base Model.Sql Model.SqlReuse Spec.EndianSpec Spec.StreamSpec Spec.PgSpec Spec.SqlSpec.
Import ListNotations.
Local Open Scope N_scope.

(** A list with another [i]-th element. *)
Definition set_nth {A} (i : nat) (x : A) (l : list A) : list A :=
  if Nat.ltb i (length l) then firstn i l ++ x :: skipn (S i) l else l.

(** The value of an array with another element. *)
Definition with_element (k : N) (z : Z) (v : {t : sqlty & val t}) : {t : sqlty & val t} :=
  match v with
  | existT _ t x =>
      match t return val t -> {t : sqlty & val t} with
      | ARRAY n => fun l => existT val (ARRAY n) (set_nth (N.to_nat k) z l)
      | t => fun x => existT val t x
      end x
  end.

(** The values of the parameters after what a program did. *)
Definition value_after (l : list {t : sqlty & val t}) (a : pact) : list {t : sqlty & val t} :=
  match a with
  | PAssign i t v _ => set_nth i (existT val t v) l
  | PElement i k z => match nth_error l i with Some v => set_nth i (with_element k z v) l | None => l end
  | PNull _ | PQueue => l
  end.
Definition values (vals : list {t : sqlty & val t}) (l : list pact) : list {t : sqlty & val t} := fold_left value_after l vals.

(** Values the types and lengths of the protocol have room for. *)
Definition proper (strict : bool) (v : {t : sqlty & val t}) : Prop :=
  fits (projT1 v) (projT2 v) /\ forall m, param strict (projT1 v) (projT2 v) = Val m -> N.of_nat (length m) < 2 ^ 31.

Definition always (strict : bool) (vals : list {t : sqlty & val t}) (l : list pact) : Prop :=
  forall a b, l = a ++ b -> Forall (proper strict) (values vals a).

(** Types whose values have no memory of their own. *)
Definition in_place (t : sqlty) : bool :=
  match t with TEXT | WTEXT | BYTEA | ARRAY _ | ARRAY_TEXT | ARRAY_WTEXT => false | _ => true end.

(** The server is given the value, or a null, be it for an empty BYTEA. *)
Definition given (v : {t : sqlty & val t}) (q : sent) : Prop :=
  arrives (v, false) q \/ v = existT val BYTEA [] /\ arrives (v, true) q.
