(** Vocabulary for C90. *)
From Coq Require Import String List NArith ZArith Bool.
From Verif Require Import Model.Base Model.Protocol Model.Transceiver Model.RequestMap Model.Streams Model.Environment Model.Request Model.System Model.Shutdown
  Spec.TransceiverSpec Spec.SystemSpec.
From Verif Require Model.Manager.
Import ListNotations.

(** The other side of connection [s] was seen to have closed it; a read from
    it failed; a write to it failed. *)
Definition left_by_peer (s : N) (tr : list tev) : Prop := In (EPoll (Some (s, true))) tr.
Definition read_failed (s : N) (tr : list tev) : Prop :=
  exists a o1 o2 b st, tr = a ++ ERecv o1 o2 :: b /\ texec a st /\ t_pc st = AtRecv (Some s) /\ (o1 = KErr \/ o2 = KErr).
Definition write_failed (s : N) (tr : list tev) : Prop :=
  exists a b st r, tr = a ++ EWrite WErr :: b /\ texec a st /\ t_pc st = TxHave r /\ x_sock r = s.

(** All records for the connection up to the first final one, which there is,
    are with the kernel. *)
Definition finished (s : N) (tr : list tev) (st : trx) : Prop :=
  exists pre d post, sends s tr = pre ++ (d, true) :: post /\ nokill pre /\ s_out (t_socks st s) = contents pre ++ d.

Section Spec.
Variable vts : list N -> list N -> list N.
Variable junk : nat -> list N.
Variable http_time : list N -> Z.
Variable k : chars.
Context {U : Type}.
Variable A : application U.
Variable maxPost : N.
Variable u : U.
Definition hreach (x : shut (U := U)) : Prop :=
  exists l, hexec vts junk http_time k A maxPost u l (h_init u) = Some (Done x).
End Spec.

(** How many steps the I/O thread makes in [l], and how often others send. *)
Definition io_step (v : hev) : nat :=
  match v with
  | HCheck => 1
  | HSys (SNet (EPeer _ _)) => 0
  | HSys (SNet _) => 1
  | _ => 0
  end.
Definition io_count (l : list hev) : nat := list_sum (map io_step l).
Definition send_count (l : list hev) : nat := list_sum (map (fun v => match v with HSys (SSend _) => 1 | _ => 0 end) l).

(** Nobody calls [terminate] in [l], and the application pushes no message. *)
Definition no_calls (l : list hev) : Prop :=
  Forall (fun v => forall t, v <> HSys (SMan t (Manager.ASignal true)) /\ forall id m, v <> HSys (SMan t (Manager.APush id m))) l.

(** An execution of the server as one with the I/O thread's loop around it. *)
Definition looped (l : list sev) : list hev :=
  HCheck :: flat_map (fun v => HSys v :: match v with SNet EDone | SNet EBack => [HCheck] | _ => [] end) l.
