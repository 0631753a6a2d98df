(** Vocabulary for statements about the socket table. *)
From Coq Require Import List NArith Bool Arith.
From Verif Require Import Model.Sockets.
Import ListNotations.

Definition greachable (s : grp) : Prop := exists l, gexec l g_init = Ok s RNone.

(** The [d]-th Socket ever made has descriptor [fd], and valid() is [v]. *)
Definition is_socket (s : grp) (d : nat) (fd : N) (v : bool) : Prop :=
  exists x, nth_error (g_data s) d = Some x /\ d_fd x = fd /\ d_valid x = v.

(** The number of Sockets whose valid() is true. *)
Definition valid_count (s : grp) : nat := length (filter d_valid (g_data s)).

(** In this operation the kernel does not refuse a descriptor for polling. *)
Definition adds (o : gop) : bool :=
  match o with OConnect _ b => b | OPoll _ _ (ANew _ _ b) => b | _ => true end.

(** The descriptor numbers under which, in the run of these operations, a
    socket was made that the kernel refused for polling; [r] are those of
    before. *)
Definition made (s s' : grp) : option N :=
  if length (g_data s') =? S (length (g_data s))
  then option_map d_fd (nth_error (g_data s') (length (g_data s))) else None.
Fixpoint refused (l : list gop) (s : grp) (r : list N) : list N :=
  match l with
  | [] => r
  | o :: l =>
      match gstep o s with
      | Ok s' _ => refused l s' (match made s s' with Some fd => if adds o then r else fd :: r | None => r end)
      | _ => r
      end
  end.
