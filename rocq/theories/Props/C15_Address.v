(** C15, C16, C54: addresses. *)
From Coq Require Import String List NArith ZArith Bool.
From Verif Require Import Model.Base Model.Address Spec.EndianSpec Spec.AddressSpec
  Proofs.AddressProofs Proofs.AddressPrintProofs Proofs.ExtractProofs Proofs.AddressExamples.
Import ListNotations.
Local Open Scope N_scope.

(** C15.  What is printed is a standard text of the address. *)
Theorem C15_printed_text_is_standard : forall a, is_address a ->
  address_text (print a) a /\ (length (print a) + 1 <= 40)%nat.
Proof. exact printed_standard. Qed.
Print Assumptions C15_printed_text_is_standard.

(** Printing and parsing yields the address, whatever the object held before
    and whatever follows the text in memory, as long as one readable character
    other than ':' follows (the terminator of a C string). *)
Theorem C15_print_assign : forall a data c rest fuel,
  is_address a -> length data = 16%nat -> c <> 58 -> (44 <= fuel)%nat ->
  assign fuel (print a ++ c :: rest) (length (print a)) data = Done a.
Proof. exact print_assign. Qed.
Print Assumptions C15_print_assign.

(** The same through a stream, whatever separates the address from what
    follows it. *)
Theorem C15_print_extract : forall a ws after junk fuel,
  is_address a -> text_ends after -> length junk = 16%nat -> Forall blank ws ->
  (44 <= fuel)%nat ->
  extract fuel (ws ++ print a ++ after) junk = Done (Some a, after).
Proof. exact print_extract_blank. Qed.
Print Assumptions C15_print_extract.

(** Without a readable character behind the text, parsing may read beyond it:
    address.cpp 74 looks at [*end] after a trailing "::". *)
Theorem C15_reads_past_end_refuted :
  exists a data, is_address a /\ length data = 16%nat /\
    assign 100 (print a) (length (print a)) data = Undef.
Proof. exact past_end_witness. Qed.
Print Assumptions C15_reads_past_end_refuted.

Example C15_example_mapped :
  let a := repeat 0 10 ++ [255; 255; 192; 168; 0; 7] in
  is_address a /\ print a = lit "::ffff:192.168.0.7" /\
  assign 44 (print a ++ [0]) (length (print a)) (repeat 9 16) = Done a /\
  extract 44 (lit "  ::ffff:192.168.0.7, x") (repeat 9 16) = Done (Some a, lit ", x").
Proof. vm_compute. repeat split; repeat constructor. Qed.

Example C15_example_v6 :
  let a := [0x20; 0x01; 0x0d; 0xb8; 0; 0; 0; 0; 0; 0; 0; 0x42; 0; 0; 0x83; 0x29] in
  is_address a /\ print a = lit "2001:db8::42:0:8329" /\
  assign 44 (print a ++ [0]) (length (print a)) (repeat 9 16) = Done a.
Proof. vm_compute. repeat split; repeat constructor. Qed.

(** C54.  Every standard text, in any case and with or without leading zeros,
    is parsed to the address it denotes; texts "::a.b.c.d" are excepted. *)
Theorem C54_assign_standard : forall t a c rest data,
  address_text t a -> ~ compat_text t -> c <> 58 -> length data = 16%nat ->
  forall fuel, (length t + 4 <= fuel)%nat ->
  assign fuel (t ++ c :: rest) (length t) data = Done a.
Proof. exact assign_text. Qed.
Print Assumptions C54_assign_standard.

Theorem C54_extract_standard : forall t a ws after junk fuel,
  address_text t a -> ~ compat_text t -> text_ends after -> length junk = 16%nat ->
  Forall blank ws -> (length t + 4 <= fuel)%nat ->
  extract fuel (ws ++ t ++ after) junk = Done (Some a, after).
Proof. exact extract_text_blank. Qed.
Print Assumptions C54_extract_standard.

(** The full statement is false: "::1.2.3.4" denotes 12 zero bytes and the
    quad, but is taken for the IPv4-mapped address. *)
Theorem C54_compatible_form_refuted :
  exists t a data, address_text t a /\ length data = 16%nat /\
    (exists b, b <> a /\ assign 100 (t ++ [0]) (length t) data = Done b /\
      extract 100 t data = Done (Some b, [])).
Proof. exact compat_witness. Qed.
Print Assumptions C54_compatible_form_refuted.

Example C54_example :
  address_text (lit "1:02::FFfe") ([0; 1; 0; 2] ++ repeat 0 10 ++ [255; 254]) /\
  ~ compat_text (lit "1:02::FFfe").
Proof. exact gap_text_example. Qed.

(** C16.  Masking. *)
Theorem C16_mask_bits : forall a b i k, is_address a -> is_address b ->
  bit (addr_and a b) i k = bit a i k && bit b i k.
Proof. exact and_bits. Qed.
Print Assumptions C16_mask_bits.

Theorem C16_mask_address : forall a b, is_address a -> is_address b -> is_address (addr_and a b).
Proof. exact and_address. Qed.
Print Assumptions C16_mask_address.

Theorem C16_mask_laws : forall a b c, is_address a -> is_address b -> is_address c ->
  addr_and a b = addr_and b a /\ addr_and (addr_and a b) c = addr_and a (addr_and b c) /\ addr_and a a = a.
Proof. exact and_laws. Qed.
Print Assumptions C16_mask_laws.

(** Order: [a < b] exactly when the first differing byte is smaller in [a];
    this is a strict total order compatible with equality. *)
Theorem C16_order_bytes : forall a b, addr_ltb a b = true <->
  exists p x y s t, a = p ++ x :: s /\ b = p ++ y :: t /\ x < y.
Proof. exact ltb_lex. Qed.
Print Assumptions C16_order_bytes.

Theorem C16_strict_total_order : forall a b c, is_address a -> is_address b -> is_address c ->
  addr_ltb a a = false /\
  (addr_ltb a b = true -> addr_ltb b c = true -> addr_ltb a c = true) /\
  (addr_ltb a b = true \/ a = b \/ addr_ltb b a = true) /\
  (addr_eqb a b = true <-> a = b) /\
  (addr_eqb a b = true <-> addr_ltb a b = false /\ addr_ltb b a = false).
Proof. exact strict_total. Qed.
Print Assumptions C16_strict_total_order.

Theorem C16_false_iff_zero : forall a, addr_bool a = false <-> a = repeat 0 16.
Proof. exact bool_zero. Qed.
Print Assumptions C16_false_iff_zero.

Example C16_example :
  let a := [0x20; 0x01; 0x0d; 0xb8; 0; 0; 0; 0; 0; 0; 0; 0x42; 0; 0; 0x83; 0x29] in
  let m := repeat 255 4 ++ repeat 0 12 in
  is_address a /\ is_address m /\ addr_and a m = [0x20; 0x01; 0x0d; 0xb8] ++ repeat 0 12 /\
  addr_ltb (addr_and a m) a = true /\ addr_bool (addr_and a m) = true.
Proof. vm_compute. repeat split; repeat constructor. Qed.
