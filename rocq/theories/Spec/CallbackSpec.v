(** Vocabulary for statements about messages sent with a request's callback. *)
From Coq Require Import List NArith ZArith Bool Arith.
From Verif Require Import Model.Base Model.Protocol Model.Transceiver Model.RequestMap Model.Manager Model.Request Model.System
  Spec.ManagerSpec Spec.SystemSpec.
Import ListNotations.

Section Spec.
Context {M : Type}.

(** How many calls of [push] for the id [id], with a message that [P] is about,
    there are in an execution. *)
Definition calls (P : M -> bool) (id : rid) (l : list (nat * action M)) : nat :=
  length (filter (fun '(_, a) => match a with APush i m => rid_eqb i id && P m | _ => false end) l).

(** How many such messages requests with that id were given. *)
Definition deliveries (P : M -> bool) (id : rid) (s : Manager.state M) : nat :=
  length (filter (fun e => match e with EPushed o m => rid_eqb (o_rid (s_objs s o)) id && P m | _ => false end) (s_log s)).
End Spec.

(** The calls of the callback of a request with id [id] in an execution of the
    whole server. *)
Definition callbacks (P : message -> bool) (id : rid) (l : list sev) : nat :=
  length (filter (fun v => match v with SMan _ (APush i m) => rid_eqb i id && P m | _ => false end) l).
