(** Vocabulary for Socket objects as handles. *)
From Coq Require Import List Arith Bool.
From Verif Require Import Model.Base Model.SocketHandles.
Import ListNotations.

Definition s_reached (s : socks) : Prop := exists l, s_run l s_init = SOn s.

(** How many connections there were. *)
Definition opened (s : socks) : nat := length (s_valid s).

(** Handle [i] exists and is one of connection [d]. *)
Definition handle_of (s : socks) (i d : nat) : Prop :=
  exists h, nth_error (s_handles s) i = Some (Some h) /\ s_data h = Some d.

(** What [valid] of handle [i] answers. *)
Definition says_valid (s : socks) (i : nat) : Prop :=
  exists h, nth_error (s_handles s) i = Some (Some h) /\ is_valid h s = true.

(** What is done to handles other than using or closing them. *)
Definition handling (a : sact) : Prop :=
  match a with SDefault | SGive _ | SCopy _ | SMove _ | SAssign _ _ | SDestroy _ => True | _ => False end.
