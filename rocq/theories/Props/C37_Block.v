(** C37: the byte block container. *)
From Coq Require Import String List NArith Arith.
From Verif Require Import Model.Base Model.Protocol Model.Block Spec.BlockSpec Proofs.BlockProofs.
Import ListNotations.

(** After any history ([bruns]) of operations on any number of blocks, the
    visible contents are those the specification [vstep] allows, no size
    exceeds its reserve, and no further operation is undefined. *)
Theorem C37_block_history : forall os bs, bruns os bs ->
  Forall (fun b => b_size b <= b_reserve b) bs /\ vruns os (map b_view bs) /\
  forall o r, bstep o bs = Some r -> r <> UB.
Proof. exact block_history. Qed.
Print Assumptions C37_block_history.

(** Every operation separately: defined, and its effect is the specified
    one. *)
Theorem C37_block_step : forall o bs r, Forall b_inv bs -> bstep o bs = Some r ->
  exists bs', r = Val bs' /\ Forall b_inv bs' /\ vstep o (map b_view bs) (map b_view bs').
Proof. exact bstep_ok. Qed.
Print Assumptions C37_block_step.

(** Assign three bytes, grow within a new allocation, move away. *)
Example C37_block_ex :
  exists bs, bruns [BNew 1; BAssign 0 (known [7; 8; 9]%N); BReserve 0 5; BSize 0 4; BNew 2; BMove 1 0] bs /\
    map b_view bs = [[]; [Some 7; Some 8; Some 9; None]%N].
Proof.
  eexists. split.
  - apply (br_step [BNew 1; BAssign 0 (known [7; 8; 9]%N); BReserve 0 5; BSize 0 4; BNew 2] (BMove 1 0)
            [mkB 5 4 [Some 7; Some 8; Some 9; None; None]%N; mkB 2 2 [None; None]]); [|reflexivity].
    apply (br_step [BNew 1; BAssign 0 (known [7; 8; 9]%N); BReserve 0 5; BSize 0 4] (BNew 2)
            [mkB 5 4 [Some 7; Some 8; Some 9; None; None]%N]); [|reflexivity].
    apply (br_step [BNew 1; BAssign 0 (known [7; 8; 9]%N); BReserve 0 5] (BSize 0 4)
            [mkB 5 3 [Some 7; Some 8; Some 9; None; None]%N]); [|reflexivity].
    apply (br_step [BNew 1; BAssign 0 (known [7; 8; 9]%N)] (BReserve 0 5)
            [mkB 3 3 [Some 7; Some 8; Some 9]%N]); [|reflexivity].
    apply (br_step [BNew 1] (BAssign 0 (known [7; 8; 9]%N)) [mkB 1 1 [None]]); [|reflexivity].
    apply (br_step [] (BNew 1) []); [constructor|reflexivity].
  - reflexivity.
Qed.
