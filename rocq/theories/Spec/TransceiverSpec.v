(** Vocabulary for what goes over connections, in terms of the events only. *)
From Coq Require Import String List NArith ZArith Bool.
From Verif Require Import Model.Base Model.Protocol Model.Transceiver Spec.EndianSpec Spec.WireSpec.
Import ListNotations.
Local Open Scope N_scope.

(** The bytes the peer has sent on connection [s]. *)
Fixpoint peer_bytes (s : N) (tr : list tev) : list N :=
  match tr with
  | [] => []
  | EPeer s' bytes :: tr' => (if s' =? s then bytes else []) ++ peer_bytes s tr'
  | _ :: tr' => peer_bytes s tr'
  end.

(** The records handed to [send] for connection [s], with their final mark. *)
Fixpoint sends (s : N) (tr : list tev) : list (list obyte * bool) :=
  match tr with
  | [] => []
  | ESend s' data kill :: tr' => (if s' =? s then [(data, kill)] else []) ++ sends s tr'
  | _ :: tr' => sends s tr'
  end.

Definition contents (l : list (list obyte * bool)) : list obyte := concat (map fst l).

(** One whole FastCGI record of any version and type. *)
Definition whole_record (id : N) (r : list N) : Prop :=
  exists version type content padding reserved,
    id < 65536 /\ len content < 65536 /\ len padding < 256 /\
    r = [version; type] ++ be_digits 2 id ++ be_digits 2 (len content) ++ [len padding; reserved]
        ++ content ++ padding.

(** Messages of one connection. *)
Definition msg_of (s : N) (m : msg) : bool :=
  match m with MRecord _ s' _ => s' =? s | MClosed s' => s' =? s end.

Definition msgs_of (s : N) (ms : list msg) : list msg := filter (msg_of s) ms.

(** The network delivers bytes. *)
Definition ev_ok (e : tev) : Prop :=
  match e with EPeer _ bytes => bytes_ok bytes | _ => True end.

(** Records delivered on connection [s]. *)
Definition is_rec_of (s : N) (m : msg) : bool :=
  match m with MRecord _ s' _ => (s' =? s)%N | MClosed _ => false end.

(** No record of the list is marked final. *)
Definition nokill (l : list (list obyte * bool)) : Prop := Forall (fun p => snd p = false) l.
