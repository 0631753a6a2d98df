(** C98: copying, moving and destroying HTTP client objects. *)
From Coq Require Import List NArith Arith Bool.
From Verif Require Import Model.Base Model.CurlShare Spec.CurlShareSpec Proofs.CurlShareProofs.
Import ListNotations.

(** Whatever is made of what, in whatever order it is destroyed: no object
    ever uses a buffer or handle that was freed. *)
Theorem C98_safe : forall l, k_run l h_init <> KUndef.
Proof. exact share_safe. Qed.
Print Assumptions C98_safe.

(** A buffer and its handle are freed once, and as soon as no object, the
    copies a Curler keeps included, shares it. *)
Theorem C98_freed : forall h, k_reached h ->
  NoDup (h_freed h) /\ forall b, In b (h_freed h) <-> b < h_made h /\ forall i, ~ shares h i b.
Proof. exact share_freed. Qed.
Print Assumptions C98_freed.

(** What is made of an object shares its buffer, and the object still does,
    also one moved from. *)
Theorem C98_derived : forall h h' i b a, In a [KCopy i; KMove i; KSlice i; KQueue i] ->
  shares h i b -> k_step a h = KOn h' -> h_exit h' = false ->
  shares h' i b /\ shares h' (length (h_objs h)) b /\ length (h_objs h') = S (length (h_objs h)).
Proof. exact derived_shares. Qed.
Print Assumptions C98_derived.

(** What an object writes goes to the buffer it shares. *)
Theorem C98_writer : forall h i b, k_reached h -> writes_to h i b -> shares h i b.
Proof. exact writer_shares. Qed.
Print Assumptions C98_writer.

(** The object moved to can be written to, the one moved from no longer. *)
Theorem C98_move : forall h h' i b, k_reached h -> shares h i b -> k_step (KMove i) h = KOn h' ->
  writes_to h' (length (h_objs h)) b /\ forall t h'', k_step (KWrite i t) h' = KOn h'' -> h'' = h'.
Proof. exact move_writes. Qed.
Print Assumptions C98_move.

(** As long as only objects are moved from that can be written to, at most one
    object writes to a buffer. *)
Theorem C98_one_writer : forall l h i j b, k_run l h_init = KOn h -> moves_writers l h_init ->
  writes_to h i b -> writes_to h j b -> i = j.
Proof. exact one_writer. Qed.
Print Assumptions C98_one_writer.

(** Refuted otherwise: moving from a copy makes a second. *)
Theorem C98_two_writers_refuted :
  exists h, k_run [KNew; KCopy 0; KMove 1] h_init = KOn h /\ writes_to h 0 0 /\ writes_to h 2 0.
Proof. exact two_writers. Qed.
Print Assumptions C98_two_writers_refuted.

(** Refuted that a copy is as good as what it was made of: what is written to
    a copy is lost, until it is moved from. *)
Theorem C98_copy_refuted : forall h h' i t h'',
  k_step (KCopy i) h = KOn h' -> k_step (KWrite (length (h_objs h)) t) h' = KOn h'' -> h'' = h'.
Proof. exact copy_mute. Qed.
Print Assumptions C98_copy_refuted.

(** Refuted likewise for a Curl_base: queueing one ends the process. *)
Theorem C98_base_refuted : forall h h1 h2 i,
  k_step (KSlice i) h = KOn h1 -> k_step (KQueue (length (h_objs h))) h1 = KOn h2 -> h_exit h2 = true.
Proof. exact slice_exits. Qed.
Print Assumptions C98_base_refuted.

(** Two families.  The first outlives its original in the copy of a Curler
    until that is gone as well. *)
Definition life : list kop :=
  [KNew; KWrite 0 [1%N]; KNew; KQueue 0; KMove 0; KDrop 0; KWrite 3 [2%N]; KDrop 3; KBase 2; KCopy 1; KWrite 4 [3%N]; KDrop 2].
Example C98_life_case :
  match k_run life h_init with
  | KOn h => h_freed h = [0] /\ h_text h 0 = [1%N; 2%N] /\ h_text h 1 = [] /\ shares h 1 1 /\ shares h 4 1
  | _ => False
  end.
Proof. vm_compute. repeat split; eexists; split; reflexivity. Qed.

Example C98_one_writer_case : exists h, k_run [KNew; KCopy 0; KMove 0] h_init = KOn h /\
  moves_writers [KNew; KCopy 0; KMove 0] h_init /\ writes_to h 2 0.
Proof.
  eexists. split; [reflexivity|]. split.
  - repeat split. exists 0. intro t. eexists; split; reflexivity.
  - intro t. eexists; split; reflexivity.
Qed.

Example C98_mute_case :
  match k_run [KNew; KCopy 0; KWrite 1 [7%N]; KSlice 0; KQueue 2] h_init with
  | KOn h => h_text h 0 = [] /\ h_exit h = true
  | _ => False
  end.
Proof. split; reflexivity. Qed.
