(** Witnesses and combined statements about addresses. *)
From Coq Require Import String List NArith ZArith Bool Lia.
From Verif Require Import Model.Base Model.Address Spec.EndianSpec Spec.AddressSpec
  Proofs.AddressProofs Proofs.AddressPrintProofs Proofs.ExtractProofs.
Import ListNotations.
Local Open Scope N_scope.

Lemma printed_standard : forall a, is_address a ->
  address_text (print a) a /\ (length (print a) + 1 <= 40)%nat.
Proof. intros a A. split; [apply (print_text a A)|apply (print_fits a A)]. Qed.

Lemma past_end_witness :
  exists a data, is_address a /\ length data = 16%nat /\
    assign 100 (print a) (length (print a)) data = Undef.
Proof.
  exists (1 :: repeat 0 15), (repeat 0 16). vm_compute. repeat split; repeat constructor.
Qed.

Lemma octet1 : forall d, d < 10 -> octet_text [48 + d] d.
Proof. intros d H. split; [cbn; lia|]. split; [|lia]. apply num_one, digit_num; lia. Qed.

Lemma compat_witness :
  exists t a data, address_text t a /\ length data = 16%nat /\
    (exists b, b <> a /\ assign 100 (t ++ [0]) (length t) data = Done b /\
      extract 100 t data = Done (Some b, [])).
Proof.
  exists (lit "::1.2.3.4"), (repeat 0 12 ++ [1; 2; 3; 4]), (repeat 0 16). split.
  - apply (at_gap [] [] (lit "1.2.3.4") [1; 2; 3; 4] 12); [constructor| |reflexivity|lia].
    right. apply pt_quad. exists [49], [50], [51], [52], 1, 2, 3, 4.
    repeat split; try (cbn; lia); try apply num_one.
    + apply (digit_num 10 1); lia.
    + apply (digit_num 10 2); lia.
    + apply (digit_num 10 3); lia.
    + apply (digit_num 10 4); lia.
  - split; [reflexivity|]. exists (repeat 0 10 ++ [255; 255; 1; 2; 3; 4]).
    split; [discriminate|]. split; vm_compute; reflexivity.
Qed.

Lemma gap_text_example :
  address_text (lit "1:02::FFfe") ([0; 1; 0; 2] ++ repeat 0 10 ++ [255; 254]) /\
  ~ compat_text (lit "1:02::FFfe").
Proof.
  split.
  - apply (at_gap (lit "1:02") [0; 1; 0; 2] (lit "FFfe") [255; 254] 10); try (cbn; lia).
    + apply gt_some.
      * apply (pt_more (lit "1") [0; 1] (lit "02") [0; 2]).
        -- split; [cbn; lia|]. exists 1. split; [|reflexivity]. apply num_one, (digit_num 16 1); lia.
        -- apply pt_group. split; [cbn; lia|]. exists 2. split; [|reflexivity].
           apply (num_more 16 [48] 0 50 2); [apply num_one, (digit_num 16 0)|apply (digit_num 16 2)]; lia.
      * intros [E|[E|[E|[E|[]]]]]; discriminate E.
    + right. apply pt_group. split; [cbn; lia|]. exists 65534. split; [|reflexivity].
      apply (num_more 16 [70; 70; 102] 4095 101 14); [|apply (digit_lower 16 14); lia].
      apply (num_more 16 [70; 70] 255 102 15); [|apply (digit_lower 16 15); lia].
      apply (num_more 16 [70] 15 70 15); [apply num_one|]; apply (digit_upper 16 15); lia.
  - intros (q & bs & _ & E). discriminate E.
Qed.

Lemma strict_total : forall a b c, is_address a -> is_address b -> is_address c ->
  addr_ltb a a = false /\
  (addr_ltb a b = true -> addr_ltb b c = true -> addr_ltb a c = true) /\
  (addr_ltb a b = true \/ a = b \/ addr_ltb b a = true) /\
  (addr_eqb a b = true <-> a = b) /\
  (addr_eqb a b = true <-> addr_ltb a b = false /\ addr_ltb b a = false).
Proof.
  intros a b c [A _] [B _] _.
  split; [apply ltb_irrefl|]. split; [apply ltb_trans|].
  assert (T := ltb_total a b (eq_trans A (eq_sym B))).
  split; [exact T|]. split; [apply eqb_spec'|]. rewrite eqb_spec'. split.
  - intros ->. split; apply ltb_irrefl.
  - intros [X Y]. destruct T as [T|[T|T]]; auto; congruence.
Qed.
