(** Vocabulary for how sending goes on. *)
From Coq Require Import String List NArith ZArith Bool.
From Verif Require Import Model.Base Model.Protocol Model.Transceiver Model.Wake.
Import ListNotations.
Local Open Scope nat_scope.

(* ------------------------------------------------------------------ *)
(** * What is sent (Model/Transceiver.v) *)

(** The steps of the I/O thread in an execution. *)
Definition io (e : tev) : bool :=
  match e with
  | EPoll _ | ERecv _ _ | EPop | EWrite _ | EBack | EDone => true
  | EAccept _ | EPeer _ _ | ESend _ _ _ => false
  end.
Definition io_steps (l : list tev) : nat := length (filter io l).

(** When written to, a client takes at least a byte, or the kernel reports an
    error: nobody keeps the connection open without reading. *)
Definition reading (e : tev) : Prop := e <> EWrite (WTake 0).

(** The records not yet written, in the queue or in the thread's hands, and
    the bytes of them still to be written. *)
Definition waiting (st : trx) : list txrec :=
  match t_pc st with TxHave r => [r] | TxBack r => [r] | _ => [] end ++ t_queue st.
Definition bytes_waiting (st : trx) : nat :=
  fold_right (fun r n => (length (x_data r) - x_read r) + n) 0 (waiting st).

(* ------------------------------------------------------------------ *)
(** * When the thread runs (Model/Wake.v) *)

Definition loops (l : list wact) : nat :=
  length (filter (fun a => match a with WLoop _ _ _ => true | _ => false end) l).

(** What comes from outside in a run: a step of another thread in a call of
    [send], [stop], [terminate] or [wake]; something on a connection or on the
    listening socket; a signal that ends the wait; a write that is not taken
    whole. *)
Definition from_outside (a : wact) (s : wst) : bool :=
  match a with
  | WLoop e _ full =>
      match w_loop s with
      | LWait b => match e with EvWake => false | EvNone => b | EvSocket | EvListener => true end
      | LTxHave => negb full
      | _ => false
      end
  | _ => true
  end.

Fixpoint outside (l : list wact) (s : wst) : nat :=
  match l with
  | [] => 0
  | a :: l' =>
      (if from_outside a s then 1 else 0) +
      match wstep a s with Some s' => outside l' s' | None => 0 end
  end.
