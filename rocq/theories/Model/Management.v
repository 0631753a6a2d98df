(** Model of the handling of management records
    ([Manager_base::localHandler], src/manager.cpp 138-252). *)
From Coq Require Import String List NArith ZArith Bool.
From Verif Require Import Model.Base Model.Protocol.
Import ListNotations.
Local Open Scope N_scope.

(** manager.cpp 169-222, the [switch(value-name)]: the record sent for one
    name, if any. *)
Definition value_reply (name : list N) : list (list obyte) :=
  match length name with
  | 14%nat => if list_eqb name (lit "FCGI_MAX_CONNS") then [maxConnsReply] else []
  | 13%nat => if list_eqb name (lit "FCGI_MAX_REQS") then [maxReqsReply] else []
  | 15%nat => if list_eqb name (lit "FCGI_MPXS_CONNS") then [mpxsConnsReply] else []
  | _ => []
  end.

(** manager.cpp 162-223: one iteration, [None] if the loop is left.  [data] is
    [message.data]; the pointers passed to [processParamHeader] are the same in
    every iteration.  [sent] are the records handed to the transceiver so
    far. *)
Definition get_values_turn (data : list N) (sent : list (list obyte))
  : outcome (option (list (list obyte))) :=
  match processParamHeader data headerSize (N.of_nat (length data)) with
  | UB => UB
  | Val None => Val None
  | Val (Some (name, value, _)) =>
      Val (Some (sent ++ value_reply (slice data (N.to_nat name) (N.to_nat value))))
  end.

(** manager.cpp 162-223: the loop. *)
Fixpoint get_values_loop (fuel : nat) (data : list N) (sent : list (list obyte))
  : run (list (list obyte)) :=
  match get_values_turn data sent with
  | UB => Undef
  | Val None => Done sent
  | Val (Some sent') =>
      match fuel with
      | O => Spin
      | S f => get_values_loop f data sent'
      end
  end.

(** What has been sent after [n] iterations (the same loop cut short). *)
Fixpoint get_values_sent (n : nat) (data : list N) (sent : list (list obyte))
  : list (list obyte) :=
  match n with
  | O => sent
  | S n' =>
      match get_values_turn data sent with
      | Val (Some sent') => get_values_sent n' data sent'
      | _ => sent
      end
  end.

(** manager.cpp 226-246: header and [UnknownType] body; the header's reserved
    byte and the seven reserved bytes of the body are not written. *)
Definition unknown_reply (type : N) : list obyte :=
  header_bytes T_UNKNOWN_TYPE 0 8 0 ++ known [type] ++ repeat None 7.

(** manager.cpp 138-252 for a message of type 0.  The header is read from the
    record: [UB] if it is shorter.  The result is what is sent. *)
Definition localHandler (fuel : nat) (data : list N) : run (list (list obyte)) :=
  if N.of_nat (length data) <? headerSize then Undef else
  match rd data 1 with
  | None => Undef
  | Some type =>
      if type =? T_GET_VALUES then get_values_loop fuel data []
      else Done [unknown_reply type]
  end.
