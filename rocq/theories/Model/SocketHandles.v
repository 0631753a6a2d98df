(** Model of Socket objects as handles (include/fastcgi++/sockets.hpp 62-239,
    src/sockets.cpp 44-138, 605-608): copied, moved, assigned, destroyed and
    used while their SocketGroup lives and after its end (sockets.cpp 160-185).

    Which connections there are is as in Model/Sockets.v, but a connection is
    known by its number instead of its descriptor: at any time the descriptors
    of the open ones differ.  One thread.  Not modelled: the statistics, and
    what is read and written. *)
From Coq Require Import List Arith Bool.
From Verif Require Import Model.Base.
Import ListNotations.

(** A Socket outside the group, sockets.hpp 111-115. *)
Record handle := mkHandle {
  s_data : option nat;          (* m_data *)
  s_original : bool             (* m_original *)
}.

(** The group, its connections and the handles there are of them. *)
Record socks := mkSocks {
  s_valid : list bool;                 (* m_valid of every Socket::Data made *)
  s_map : list nat;                    (* m_sockets: whose originals it holds *)
  s_alive : bool;                      (* the group is there *)
  s_handles : list (option handle);    (* [None] once destroyed *)
  s_closed : list nat                  (* which descriptors were closed, in order *)
}.

(** sockets.cpp 140-158. *)
Definition s_init : socks := mkSocks [] [] true [] [].

(** What the group and the program do. *)
Inductive sact :=
| SOpen (add taken : bool)     (* a connection is accepted or made; [add]: Poll::add succeeds; [taken]: m_sockets
                                  has an entry for the descriptor, see Model/Sockets.v for when *)
| SGive (d : nat)              (* the group returns a Socket of its map *)
| SDefault                     (* Socket() *)
| SCopy (i : nat) | SMove (i : nat) | SAssign (i j : nat) | SDestroy (i : nat)
| SUse (i : nat) (fails : bool)  (* read or write *)
| SClose (i : nat)
| SEnd.                        (* the group is destroyed *)

Inductive sres := SOn (s : socks) | SNo | SUndef.

(** Auxiliary, no counterpart in the code: one element of a list changed. *)
Fixpoint put_at {A} (i : nat) (x : A) (l : list A) : list A :=
  match l, i with
  | [], _ => []
  | _ :: l, O => x :: l
  | y :: l, S i => y :: put_at i x l
  end.

(** sockets.hpp 231-234: [valid]. *)
Definition is_valid (h : handle) (s : socks) : bool :=
  match s_data h with Some d => nth d (s_valid s) false | None => false end.

(** sockets.cpp 117-120, 133-136: the descriptor is taken out of the poll and
    closed.  The group must be there. *)
Definition shut_down (d : nat) (s : socks) : socks :=
  mkSocks (put_at d false (s_valid s)) (s_map s) (s_alive s) (s_handles s) (s_closed s ++ [d]).

(** sockets.cpp 129-138, of the Socket of [d] in the group's map. *)
Definition destroy_original (d : nat) (s : socks) : socks :=
  if nth d (s_valid s) false then shut_down d s else s.

(** sockets.cpp 121: the Socket in the map is destroyed. *)
Definition erase (d : nat) (s : socks) : socks :=
  if existsb (Nat.eqb d) (s_map s) then
    let s := destroy_original d s in
    mkSocks (s_valid s) (filter (fun x => negb (Nat.eqb x d)) (s_map s)) (s_alive s) (s_handles s) (s_closed s)
  else s.

(** sockets.cpp 113-127. *)
Definition close_handle (h : handle) (s : socks) : sres :=
  match s_data h with
  | Some d => if nth d (s_valid s) false then if s_alive s then SOn (erase d (shut_down d s)) else SUndef else SOn s
  | None => SOn s
  end.

(** Auxiliary, no counterpart in the code: the handles replaced. *)
Definition with_handles (l : list (option handle)) (s : socks) : socks :=
  mkSocks (s_valid s) (s_map s) (s_alive s) l (s_closed s).

(** One of them; [SNo]: there is no such handle, connection or group. *)
Definition s_step (a : sact) (s : socks) : sres :=
  match a with
  | SOpen add taken =>                  (* sockets.cpp 44-57, 399-401, 462-464, 594-596 *)
      if s_alive s then
        let d := length (s_valid s) in
        let s := mkSocks (s_valid s ++ [true]) (s_map s) true (s_handles s) (s_closed s) in
        let s := if add then s else erase d (shut_down d s) in
        if taken then SOn (destroy_original d s)
        else SOn (mkSocks (s_valid s) (s_map s ++ [d]) true (s_handles s) (s_closed s))
      else SNo
  | SGive d =>                          (* sockets.cpp 401, 464, 549: a copy, sockets.hpp 198-201 *)
      if s_alive s && existsb (Nat.eqb d) (s_map s)
      then SOn (with_handles (s_handles s ++ [Some (mkHandle (Some d) false)]) s) else SNo
  | SDefault =>                         (* sockets.cpp 605-608 *)
      SOn (with_handles (s_handles s ++ [Some (mkHandle None false)]) s)
  | SCopy i =>                          (* sockets.hpp 198-201 *)
      match nth i (s_handles s) None with
      | Some h => SOn (with_handles (s_handles s ++ [Some (mkHandle (s_data h) false)]) s)
      | None => SNo
      end
  | SMove i =>                          (* sockets.hpp 220-225 *)
      match nth i (s_handles s) None with
      | Some h => SOn (with_handles (put_at i (Some (mkHandle (s_data h) false)) (s_handles s) ++ [Some (mkHandle (s_data h) (s_original h))]) s)
      | None => SNo
      end
  | SAssign i j =>                      (* sockets.hpp 207-212 *)
      match nth i (s_handles s) None, nth j (s_handles s) None with
      | Some _, Some h => SOn (with_handles (put_at i (Some (mkHandle (s_data h) false)) (s_handles s)) s)
      | _, _ => SNo
      end
  | SDestroy i =>                       (* sockets.cpp 129-138 *)
      match nth i (s_handles s) None with
      | Some h =>
          let s' := with_handles (put_at i None (s_handles s)) s in
          if s_original h && is_valid h s
          then match s_data h with
               | Some d => if s_alive s then SOn (shut_down d s') else SUndef
               | None => SUndef
               end
          else SOn s'
      | None => SNo
      end
  | SUse i fails =>                     (* sockets.cpp 59-111: with the statistics they use the group *)
      match nth i (s_handles s) None with
      | Some h => if is_valid h s then if s_alive s then if fails then close_handle h s else SOn s else SUndef else SOn s
      | None => SNo
      end
  | SClose i =>                         (* sockets.cpp 113-127 *)
      match nth i (s_handles s) None with
      | Some h => close_handle h s
      | None => SNo
      end
  | SEnd =>                             (* sockets.cpp 160-185; m_sockets goes before m_poll, sockets.hpp 415, 436 *)
      if s_alive s then
        let s := fold_left (fun s d => destroy_original d s) (s_map s) s in
        SOn (mkSocks (s_valid s) [] false (s_handles s) (s_closed s))
      else SNo
  end.

(** Auxiliary, no counterpart in the code: one after another. *)
Fixpoint s_run (l : list sact) (s : socks) : sres :=
  match l with
  | [] => SOn s
  | a :: l => match s_step a s with SOn s => s_run l s | r => r end
  end.
