(** Vocabulary for objects sharing buffers. *)
From Coq Require Import List NArith Arith Bool.
From Verif Require Import Model.Base Model.CurlShare.
Import ListNotations.

(** The state a program may be in. *)
Definition k_reached (h : heap) : Prop := exists l, k_run l h_init = KOn h.

(** Object [i] exists and shares buffer [b]. *)
Definition shares (h : heap) (i b : nat) : Prop := exists k, nth_error (h_objs h) i = Some (Some k) /\ k_own k = b.

(** What is written to object [i] arrives in buffer [b]. *)
Definition writes_to (h : heap) (i b : nat) : Prop :=
  forall t, exists h', k_step (KWrite i t) h = KOn h' /\ h_text h' b = h_text h b ++ t.

(** The program moves only from objects that can be written to. *)
Fixpoint moves_writers (l : list kop) (h : heap) : Prop :=
  match l with
  | [] => True
  | a :: l =>
      match a with KMove i => exists b, writes_to h i b | _ => True end /\
      match k_step a h with KOn h' => moves_writers l h' | _ => True end
  end.
