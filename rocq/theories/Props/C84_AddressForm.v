(** C84.  Which of its standard texts an address is printed as. *)
From Coq Require Import String List NArith ZArith Bool.
From Verif Require Import Model.Base Model.HttpCodec Model.Address Spec.AddressSpec Spec.AddressFormSpec
  Proofs.AddressFormProofs.
Import ListNotations.
Local Open Scope N_scope.

(** An IPv4-mapped address as "::ffff:" and the dotted quad; any other as its
    words in hexadecimal without leading zeros, "::" standing for the last of
    the longest runs of zero words.  Nothing else is ever printed. *)
Theorem C84_form : forall a t, is_address a -> (print a = t <-> printed_form t a).
Proof. exact form_iff. Qed.
Print Assumptions C84_form.

(** Every address has one text recommended by RFC 5952. *)
Theorem C84_recommended_exists : forall a, is_address a -> exists t, rfc5952 t a.
Proof. exact rfc_exists. Qed.
Print Assumptions C84_recommended_exists.

Theorem C84_recommended_unique : forall t t' a, is_address a -> rfc5952 t a -> rfc5952 t' a -> t = t'.
Proof. exact rfc_only. Qed.
Print Assumptions C84_recommended_unique.

(** That text is printed exactly if the address is IPv4-mapped, or has no two
    longest runs of zeros and its longest run is not a single word. *)
Theorem C84_recommended : forall a t, is_address a -> rfc5952 t a ->
  (print a = t <-> mapped a \/
     forall i j n, longest (words a) i n -> longest (words a) j n -> i = j /\ n <> 1%nat).
Proof. exact rfc_iff. Qed.
Print Assumptions C84_recommended.

(** Two longest runs of two words: the other one is left out. *)
Theorem C84_tie_refuted : exists a t, is_address a /\ rfc5952 t a /\ print a <> t /\
  (forall i n, zeros (words a) i n -> longest (words a) i n -> n = 2%nat).
Proof. exact rfc_witness. Qed.
Print Assumptions C84_tie_refuted.

(** A single zero word is left out. *)
Theorem C84_single_refuted : exists a t, is_address a /\ rfc5952 t a /\ print a <> t /\
  (forall i n, zeros (words a) i n -> i = 2%nat /\ n = 1%nat).
Proof. exact rfc_witness_single. Qed.
Print Assumptions C84_single_refuted.

(** No standard text is shorter by more than one character, IPv4-mapped
    addresses excepted ... *)
Theorem C84_length : forall a t, is_address a -> ~ mapped a -> address_text t a ->
  (length (print a) <= length t + 1)%nat.
Proof. exact print_length. Qed.
Print Assumptions C84_length.

(** ... and one may be shorter by one. *)
Theorem C84_shortest_refuted : exists a t, is_address a /\ ~ mapped a /\ address_text t a /\
  (length t < length (print a))%nat.
Proof. exact short_witness. Qed.
Print Assumptions C84_shortest_refuted.

(** In a field of a given width the text is followed, or preceded, by the fill
    character up to that width; nothing is ever cut off. *)
Theorem C84_field : forall left fill width a, is_address a -> exists k,
  print_padded left fill width a = (if left then print a ++ repeat fill k else repeat fill k ++ print a) /\
  length (print_padded left fill width a) = Nat.max width (length (print a)).
Proof. exact padded_all. Qed.
Print Assumptions C84_field.

Example C84_example_field : print_padded true 42 5 (repeat 0 15 ++ [1]) = lit "::1**" /\ print_padded false 42 5 (repeat 0 15 ++ [1]) = lit "**::1".
Proof. split; reflexivity. Qed.

Example C84_example_tie :
  is_address tie /\ print tie = lit "2001:db8:0:0:1::1" /\ rfc5952 (lit "2001:db8::1:0:0:1") tie.
Proof. split; [now apply addr_ok|]. split; [reflexivity|exact tie_text]. Qed.

Example C84_example_single :
  is_address single /\ print single = lit "2001:db8::1:1:1:1:1" /\
  rfc5952 (lit "2001:db8:0:1:1:1:1:1") single.
Proof. split; [now apply addr_ok|]. split; [reflexivity|exact single_text]. Qed.

Example C84_example_good :
  let a := [0x20; 0x01; 0x0d; 0xb8; 0; 0; 0; 1; 0; 0; 0; 0; 0; 0; 0xAB; 1] in
  is_address a /\ ~ mapped a /\ longest (words a) 4 3 /\ print a = lit "2001:db8:0:1::ab01".
Proof.
  split; [now apply addr_ok|]. split; [vm_compute; discriminate|].
  split; [apply longest_check; reflexivity|reflexivity].
Qed.
