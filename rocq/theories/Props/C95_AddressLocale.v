(** C95.  What is printed for an address when the stream has a locale or number
    flags of its own. *)
From Coq Require Import String List NArith ZArith Bool.
From Verif Require Import Model.Base Model.Address Model.AddressLocale Spec.AddressSpec Spec.AddressFormSpec
  Spec.AddressLocaleSpec Proofs.AddressFormProofs Proofs.AddressLocaleProofs.
Import ListNotations.
Local Open Scope N_scope.

(** With a locale that does not group digits and without [showbase] the text is
    one of the address, and the one of C84 but for the case of its letters. *)
Theorem C95_plain : forall f a, is_address a -> ungrouped (f_grouping f) -> f_showbase f = false ->
  exists t, show f a = Val t /\ address_text t a /\ (f_upper f = false -> t = print a).
Proof. exact plain_all. Qed.
Print Assumptions C95_plain.

(** After setLocale with a name the system does not know: the text of C84. *)
Theorem C95_unknown : forall known wide name a, is_address a -> known (name ++ codepage wide) = None ->
  show (setLocale known wide name) a = Val (print a).
Proof. exact unknown_locale. Qed.
Print Assumptions C95_unknown.

(** Whatever the locale and the flags, the buffer holds what is written for an
    IPv4 address. *)
Theorem C95_ipv4 : forall f a, is_address a -> mapped a -> exists t, show f a = Val t.
Proof. exact mapped_defined. Qed.
Print Assumptions C95_ipv4.

(** With groups of three digits, as in most languages: exactly when the buffer
    of 40 characters is left, ... *)
Theorem C95_thousands : forall f g a, is_address a -> f_grouping f = 3 :: g -> f_showbase f = false ->
  (show f a = UB <-> ~ mapped a /\ (40 < length (print a) + long_words a)%nat).
Proof. exact thousands_iff. Qed.
Print Assumptions C95_thousands.

(** ... and when nothing changes. *)
Theorem C95_short : forall f g a, is_address a -> f_grouping f = 3 :: g -> f_showbase f = false ->
  f_upper f = false -> ~ mapped a -> long_words a = 0%nat -> show f a = Val (print a).
Proof. exact thousands_same. Qed.
Print Assumptions C95_short.

(** Refuted: that a request may set its locale and print addresses.  For every
    locale with groups of three digits there is an IPv6 address that is written
    past the end of the buffer on the stack (address.cpp 192). *)
Theorem C95_overflow_refuted : exists a, is_address a /\
  forall known wide name g sep, known (name ++ codepage wide) = Some (3 :: g, sep) ->
    show (setLocale known wide name) a = UB.
Proof. exact overflow_witness. Qed.
Print Assumptions C95_overflow_refuted.

(** Refuted: that an IPv4 address printed after setLocale is an address.  Every
    one of them is printed as ::f,fff:a.b.c.d, which is no address text. *)
Theorem C95_ipv4_text_refuted : forall known wide name g sep a, is_address a -> mapped a ->
  known (name ++ codepage wide) = Some (3 :: g, sep) ->
  exists q, quad_form q (skipn 12 a) /\
    show (setLocale known wide name) a = Val ([58; 58; 102] ++ [sep] ++ [102; 102; 102; 58] ++ q) /\
    (foreign sep -> forall b, ~ address_text ([58; 58; 102] ++ [sep] ++ [102; 102; 102; 58] ++ q) b).
Proof. exact mapped_thousands. Qed.
Print Assumptions C95_ipv4_text_refuted.

(** Refuted: that number flags of the stream do no harm.  With [showbase] the
    buffer is left as well. *)
Theorem C95_showbase_refuted : exists a, is_address a /\ show (mkStyle [] 44 true false) a = UB.
Proof. exact showbase_witness. Qed.
Print Assumptions C95_showbase_refuted.

(** en_US.UTF-8: groups of three, a comma. *)
Definition american (name : list N) : option (list N * N) :=
  if list_eqb name (lit "en_US.UTF-8") then Some ([3; 3], 44) else None.

Example C95_example_mapped :
  let a := repeat 0 10 ++ [255; 255; 192; 168; 0; 1] in
  is_address a /\ mapped a /\ american (lit "en_US" ++ codepage true) = Some ([3; 3], 44) /\ foreign 44 /\
  show (setLocale american true (lit "en_US")) a = Val (lit "::f,fff:192.168.0.1").
Proof.
  split; [now apply addr_ok|]. split; [reflexivity|]. split; [reflexivity|].
  split; [exact comma_foreign|reflexivity].
Qed.

Example C95_example_fits :
  let a := [0x20; 0x01; 0x0d; 0xb8; 0; 0; 0; 0; 0; 0; 0; 0; 0; 0; 0xAB; 1] in
  is_address a /\ ~ mapped a /\ long_words a = 2%nat /\
  show (setLocale american true (lit "en_US")) a = Val (lit "2,001:db8::a,b01").
Proof.
  split; [now apply addr_ok|]. split; [vm_compute; discriminate|]. split; reflexivity.
Qed.

Example C95_example_plain :
  let a := [0xfe; 0x80; 0; 0; 0; 0; 0; 0; 0; 0; 0; 0; 0; 0; 0xAB; 1] in
  let f := mkStyle [] 44 false true in
  is_address a /\ ungrouped (f_grouping f) /\ show f a = Val (lit "FE80::AB01").
Proof. split; [now apply addr_ok|]. split; [exact I|reflexivity]. Qed.

Example C95_example_short :
  let a := [0; 1; 0x0d; 0xb8; 0; 0; 0; 0; 0; 0; 0; 0; 0; 0; 0; 1] in
  is_address a /\ ~ mapped a /\ long_words a = 0%nat /\
  show (setLocale american true (lit "en_US")) a = Val (lit "1:db8::1").
Proof. split; [now apply addr_ok|]. split; [vm_compute; discriminate|]. split; reflexivity. Qed.

Example C95_example_unknown : american (lit "xx_XX" ++ codepage true) = None /\
  american (lit "en_US" ++ codepage false) = None.
Proof. split; reflexivity. Qed.
