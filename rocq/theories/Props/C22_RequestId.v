(** C22: request identifiers. *)
From Coq Require Import List NArith ZArith Bool.
From Verif Require Import Model.Base Model.RequestMap Proofs.RequestMapProofs.
Import ListNotations.
Local Open Scope N_scope.

(** C22.  The comparison is a strict total order whose equivalence is
    equality. *)
Theorem C22_strict_total_order :
  (forall x, less x x = false) /\
  (forall x y z, less x y = true -> less y z = true -> less x z = true) /\
  (forall x y, less x y = true \/ x = y \/ less y x = true).
Proof. exact order_laws. Qed.
Print Assumptions C22_strict_total_order.

(** The comparisons with a connection look at the connection alone and split
    every sorted sequence into a lower and an upper part. *)
Theorem C22_connection_order : forall x y s,
  (less_socket x s = true <-> r_socket x < s) /\ (socket_less s x = true <-> s < r_socket x) /\
  (less x y = true -> less_socket y s = true -> less_socket x s = true) /\
  (less x y = true -> socket_less s x = true -> socket_less s y = true).
Proof. exact socket_consistent. Qed.
Print Assumptions C22_connection_order.

(** After every history of insertions and removals the range found for a
    connection holds exactly that connection's requests, next to each other. *)
Theorem C22_connection_range : forall (A : Type) (ops : list (@map_op A)) s,
  (forall k v, In (k, v) (map_equal_range s (map_run ops)) <-> In (k, v) (map_run ops) /\ r_socket k = s) /\
  exists below above, map_run ops = below ++ map_equal_range s (map_run ops) ++ above.
Proof. exact range_of_history. Qed.
Print Assumptions C22_connection_range.

(** Lookup by request id finds what the last history leaves: the first value
    inserted since the last removal. *)
Theorem C22_lookup : forall (A : Type) (ops : list (@map_op A)) k v k0,
  map_find k0 (map_run (ops ++ [Emplace k v])) =
    match map_find k0 (map_run ops) with Some w => Some w
    | None => if (r_socket k0 =? r_socket k) && (r_id k0 =? r_id k) then Some v else None end /\
  map_find k0 (map_run (ops ++ [Erase k])) =
    if (r_socket k0 =? r_socket k) && (r_id k0 =? r_id k) then None else map_find k0 (map_run ops).
Proof. exact find_laws. Qed.
Print Assumptions C22_lookup.

Theorem C22_lookup_iff_stored : forall (A : Type) (ops : list (@map_op A)) k v,
  map_find k (map_run ops) = Some v <-> In (k, v) (map_run ops).
Proof. exact find_in. Qed.
Print Assumptions C22_lookup_iff_stored.

Example C22_example :
  let ops := [Emplace (mkRid 7 1) 10; Emplace (mkRid 3 2) 20; Emplace (mkRid 7 9) 30; Emplace (mkRid 9 0) 40;
              Emplace (mkRid 3 1) 50; Emplace (mkRid 7 1) 60; Erase (mkRid 9 0); Emplace (mkRid 9 1) 70] in
  map_equal_range 7 (map_run ops) = [(mkRid 7 1, 10); (mkRid 7 9, 30)] /\
  map_equal_range 5 (map_run ops) = [] /\ map_find (mkRid 9 0) (map_run ops) = None.
Proof. vm_compute. auto. Qed.
