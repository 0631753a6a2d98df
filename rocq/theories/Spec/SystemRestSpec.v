(** Vocabulary for how the whole server comes to rest. *)
From Coq Require Import String List NArith ZArith Bool.
From Verif Require Import Model.Base Model.Protocol Model.Transceiver Model.RequestMap Model.Environment Model.Multipart
  Model.Request Model.System Spec.EndianSpec Spec.WireSpec Spec.EnvironmentSpec Spec.RequestSpec Spec.TransceiverSpec Spec.ManagerSpec
  Spec.TransmitProgressSpec Spec.SystemSpec.
From Verif Require Model.Manager.
Import ListNotations.

(** A thread goes on with what it is doing: a handler thread or one in a call
    of [push], [stop] or [terminate], the I/O thread that hands on a message it
    has read, a thread that sends. *)
Definition within (v : sev) : Prop :=
  match v with
  | SFeed | SSend _ => True
  | SMan _ (Manager.ARun _) | SMan _ (Manager.AReturn _) => True
  | _ => False
  end.

(** What the network and the I/O thread do in an execution. *)
Definition net_of (l : list sev) : list tev := flat_map (fun v => match v with SNet e => [e] | _ => [] end) l.

(** Every thread using a request uses one that is there. *)
Definition no_dangling {U} (x : sys (U := U)) : Prop :=
  forall t o, uses (y_man x) t o -> Manager.o_alive (Manager.s_objs (y_man x) o) = true.

Section Spec.
Variable vts : list N -> list N -> list N.
Variable junk : nat -> list N.
Variable http_time : list N -> Z.
Variable k : chars.
Context {U : Type}.
Variable A : application U.
Variable maxPost : N.
Variable u : U.
Notation sstep := (System.sstep vts junk http_time k A maxPost u).

Definition proceeds (x x' : sys (U := U)) : Prop := exists v, within v /\ sstep v x = Some (Done x').

(** No thread can go on. *)
Definition resting (x : sys (U := U)) : Prop := forall v, within v -> sstep v x = None.
End Spec.
