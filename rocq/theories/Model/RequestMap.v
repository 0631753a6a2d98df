(** Model of [Protocol::RequestId], its comparison and the map of requests
    ([Protocol::Requests], include/fastcgi++/protocol.hpp 71-138). *)
From Coq Require Import List NArith ZArith Bool.
From Verif Require Import Model.Base.
Import ListNotations.
Local Open Scope N_scope.

(** protocol.hpp 105-109.  A [Socket] is represented by the address of its
    shared data, which is all that its comparisons look at
    (sockets.hpp 181-191). *)
Record rid := mkRid { r_socket : N; r_id : N }.

(** sockets.hpp 182-191. *)
Definition socket_lt (x y : N) : bool := x <? y.
Definition socket_eq (x y : N) : bool := x =? y.

(** protocol.hpp 116-122. *)
Definition less (x y : rid) : bool :=
  if socket_eq (r_socket x) (r_socket y) then r_id x <? r_id y
  else socket_lt (r_socket x) (r_socket y).

(** protocol.hpp 124-127. *)
Definition less_socket (x : rid) (s : N) : bool := socket_lt (r_socket x) s.

(** protocol.hpp 129-132. *)
Definition socket_less (s : N) (x : rid) : bool := socket_lt s (r_socket x).

(** [std::map<RequestId, T, RequestId::Less>] (protocol.hpp 137-138), as the
    list of its elements in iteration order.  The operations are those of the
    standard, expressed through the comparison alone. *)
Section Map.
Context {A : Type}.
Definition rmap := list (rid * A).

(** [std::map::find]: an element that is neither less nor greater. *)
Fixpoint map_find (k : rid) (m : rmap) : option A :=
  match m with
  | [] => None
  | (k', v) :: m' => if negb (less k k') && negb (less k' k) then Some v else map_find k m'
  end.

(** [std::map::emplace] at its place in the order; an equivalent element is
    kept. *)
Fixpoint map_emplace (k : rid) (v : A) (m : rmap) : rmap :=
  match m with
  | [] => [(k, v)]
  | (k', v') :: m' =>
      if less k k' then (k, v) :: m
      else if less k' k then (k', v') :: map_emplace k v m' else m
  end.

(** [std::map::erase] of the element with an equivalent key. *)
Fixpoint map_erase (k : rid) (m : rmap) : rmap :=
  match m with
  | [] => []
  | (k', v') :: m' =>
      if negb (less k k') && negb (less k' k) then m' else (k', v') :: map_erase k m'
  end.

(** [std::map::lower_bound] with a socket: the elements from the first that is
    not less. *)
Fixpoint map_lower (s : N) (m : rmap) : rmap :=
  match m with
  | [] => []
  | (k', v') :: m' => if less_socket k' s then map_lower s m' else m
  end.

(** [std::map::upper_bound] with a socket: the elements from the first that is
    greater. *)
Fixpoint map_upper (s : N) (m : rmap) : rmap :=
  match m with
  | [] => []
  | (k', v') :: m' => if socket_less s k' then m else map_upper s m'
  end.

(** [std::map::equal_range] with a socket: from [lower_bound] up to
    [upper_bound]. *)
Definition map_equal_range (s : N) (m : rmap) : rmap :=
  firstn (length (map_lower s m) - length (map_upper s m)) (map_lower s m).

(** The maps that insertions and erasures produce. *)
Inductive map_op := Emplace (k : rid) (v : A) | Erase (k : rid).

(** One call of emplace or erase on the map: manager.cpp 297, 361 and 391. *)
Definition map_step (m : rmap) (o : map_op) : rmap :=
  match o with Emplace k v => map_emplace k v m | Erase k => map_erase k m end.

(** Auxiliary, no counterpart in the code: the calls one after another, on an
    empty map. *)
Definition map_run (ops : list map_op) : rmap := fold_left map_step ops [].
End Map.
