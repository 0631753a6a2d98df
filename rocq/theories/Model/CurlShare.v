(** Model of who shares the buffers of HTTP client objects: the constructors
    and the destruction of Curl<charT> and Curl_base (src/curl.cpp 36-59,
    88-96, 163-167, 196-214; include/fastcgi++/curl.hpp 50-286) and the copies
    the Curler keeps (src/curler.cpp 50-51, 100-101, 182-188).

    An object is known by its number, in the order they were made.  Of a
    buffer there is only what was written to it; Model/CurlObject.v has the
    rest.  Not modelled: several threads, encodings, what libcurl does, and
    that a stream also goes bad by [prepare], curl.cpp 72-79. *)
From Coq Require Import List NArith Arith Bool.
From Verif Require Import Model.Base.
Import ListNotations.

(** An object.  [k_ref] is [None] in a Curl_base that is not part of a Curl:
    curl.hpp 171, 249, and the stream buffer of the [basic_ostream]. *)
Record curl := mkK {
  k_own : nat;                  (* Curl_base::m_streamBuf *)
  k_ref : option nat;           (* Curl::m_streamBuf *)
  k_rdbuf : option nat          (* rdbuf() *)
}.

(** All objects, [None] once destroyed; how many buffers were made; those
    freed, in order; what was written to each; the process is over. *)
Record heap := mkHeap {
  h_objs : list (option curl);
  h_made : nat;
  h_freed : list nat;
  h_text : nat -> list N;
  h_exit : bool
}.

(** Auxiliary, no counterpart in the code: before curl.cpp 37-43 ever ran. *)
Definition h_init : heap := mkHeap [] 0 [] (fun _ => []) false.

(** What the program, or the Curler, does, curl.hpp 179-279: [KSlice] makes a
    Curl_base of any object, as curler.cpp 50, 100 and 186 do. *)
Inductive kop :=
| KNew | KCopy (i : nat) | KMove (i : nat) | KSlice (i : nat) | KDrop (i : nat)
| KWrite (i : nat) (t : list N)    (* the stream *)
| KRead (i : nat)                  (* headers, data, dataSize, curl.hpp 256-271 *)
| KBase (i : nat)                  (* the functions of Curl_base *)
| KQueue (i : nat).                (* Curler::queue *)

Inductive kres := KOn (h : heap) | KNo | KUndef.

(** Auxiliary, no counterpart in the code: whether the object is one that
    shares the buffer. *)
Definition owns (b : nat) (o : option curl) : bool :=
  match o with Some k => Nat.eqb (k_own k) b | None => false end.

(** Auxiliary, no counterpart in the code: one object replaced. *)
Fixpoint set_obj (i : nat) (o : option curl) (l : list (option curl)) : list (option curl) :=
  match l, i with
  | [], _ => []
  | _ :: l, O => o :: l
  | x :: l, S i => x :: set_obj i o l
  end.

(** Auxiliary, no counterpart in the code: one more object. *)
Definition add_obj (k : curl) (h : heap) : heap :=
  mkHeap (h_objs h ++ [Some k]) (h_made h) (h_freed h) (h_text h) (h_exit h).

(** Auxiliary, no counterpart in the code: whether a buffer is gone. *)
Definition gone (b : nat) (h : heap) : bool := existsb (Nat.eqb b) (h_freed h).

(** One of them.  [KNo]: there is no such object (any more). *)
Definition k_step (a : kop) (h : heap) : kres :=
  if h_exit h then KNo else
  match a with
  | KNew =>                                                  (* curl.cpp 36-43 *)
      KOn (mkHeap (h_objs h ++ [Some (mkK (h_made h) (Some (h_made h)) (Some (h_made h)))])
             (S (h_made h)) (h_freed h) (h_text h) false)
  | KCopy i =>                                               (* curl.cpp 54-59; the stream is without buffer *)
      match nth i (h_objs h) None with
      | Some (mkK b (Some r) _) => KOn (add_obj (mkK b (Some r) None) h)
      | _ => KNo
      end
  | KMove i =>                                               (* curl.cpp 45-52 *)
      match nth i (h_objs h) None with
      | Some (mkK b (Some r) _) =>
          KOn (add_obj (mkK b (Some r) (Some r))
                 (mkHeap (set_obj i (Some (mkK b (Some r) None)) (h_objs h)) (h_made h) (h_freed h) (h_text h) false))
      | _ => KNo
      end
  | KSlice i =>                                              (* curl.hpp 50, the implicit copy constructor *)
      match nth i (h_objs h) None with
      | Some k => KOn (add_obj (mkK (k_own k) None None) h)
      | None => KNo
      end
  | KDrop i =>                                               (* the shared_ptr, and curl.cpp 207-214 *)
      match nth i (h_objs h) None with
      | Some k =>
          let objs := set_obj i None (h_objs h) in
          if existsb (owns (k_own k)) objs
          then KOn (mkHeap objs (h_made h) (h_freed h) (h_text h) false)
          else KOn (mkHeap objs (h_made h) (h_freed h ++ [k_own k]) (h_text h) false)
      | None => KNo
      end
  | KWrite i t =>                                            (* a stream without buffer is bad *)
      match nth i (h_objs h) None with
      | Some (mkK _ (Some _) None) => KOn h
      | Some (mkK _ (Some _) (Some b)) =>
          if gone b h then KUndef
          else KOn (mkHeap (h_objs h) (h_made h) (h_freed h)
                      (fun x => if Nat.eqb x b then h_text h b ++ t else h_text h x) false)
      | _ => KNo
      end
  | KRead i =>                                               (* curl.hpp 256-271 *)
      match nth i (h_objs h) None with
      | Some (mkK _ (Some r) _) => if gone r h then KUndef else KOn h
      | _ => KNo
      end
  | KBase i =>                                               (* curl.cpp 98-201 but prepare *)
      match nth i (h_objs h) None with
      | Some k => if gone (k_own k) h then KUndef else KOn h
      | None => KNo
      end
  | KQueue i =>                                              (* curler.cpp 182-188, curl.cpp 88-91 and 163-167 *)
      match nth i (h_objs h) None with
      | Some (mkK b (Some r) _) => if gone b h || gone r h then KUndef else KOn (add_obj (mkK b None None) h)
      | Some (mkK b None _) => KOn (mkHeap (h_objs h) (h_made h) (h_freed h) (h_text h) true)
      | None => KNo
      end
  end.

(** Auxiliary, no counterpart in the code: one after another. *)
Fixpoint k_run (l : list kop) (h : heap) : kres :=
  match l with
  | [] => KOn h
  | a :: l => match k_step a h with KOn h => k_run l h | r => r end
  end.
