(** C96.  Reading an address from a stream with a locale that groups digits. *)
From Coq Require Import String List NArith ZArith Bool.
From Verif Require Import Model.Base Model.HttpCodec Model.Address Model.AddressRead Spec.AddressSpec
  Spec.AddressFormSpec Spec.AddressReadSpec Proofs.AddressFormProofs Proofs.AddressReadProofs.
Import ListNotations.
Local Open Scope N_scope.

(** Where the separator of the locale directly follows no digit, reading does
    what it does in the locale "C" (C15, C54, C63), whatever the text. *)
Theorem C96_same : forall d fuel inp junk, separator (d_sep d) -> (d_grouped d = true -> apart (d_sep d) inp) ->
  loc_extract d fuel inp junk = extract fuel inp junk.
Proof. exact read_same. Qed.
Print Assumptions C96_same.

(** So every standard text is read as its address then, the exception of C54
    apart. *)
Theorem C96_standard : forall d t a ws after junk fuel,
  separator (d_sep d) -> (d_grouped d = true -> apart (d_sep d) (ws ++ t ++ after)) ->
  address_text t a -> ~ compat_text t -> text_ends after -> length junk = 16%nat ->
  Forall blank ws -> (length t + 4 <= fuel)%nat ->
  loc_extract d fuel (ws ++ t ++ after) junk = Done (Some a, after).
Proof. exact read_standard. Qed.
Print Assumptions C96_standard.

(** Refuted: that an IPv4 address can be read in any locale.  Where digits are
    separated by dots, as in German or Spanish, no text with a dot is read. *)
Theorem C96_dots_refuted : forall d fuel inp junk a rest, d_grouped d = true -> d_sep d = 46 ->
  loc_extract d fuel inp junk = Done (Some a, rest) -> exists t, inp = t ++ rest /\ ~ In 46 t.
Proof. exact dot_refuses. Qed.
Print Assumptions C96_dots_refuted.

(** Refuted: that what follows an address does not change it.  In a list with
    commas, where commas separate thousands, another address is read. *)
Theorem C96_comma_refuted : forall junk, length junk = 16%nat ->
  loc_extract (mkDigits true 44 threes) 60 (lit "10.0.0.1,100.0.0.1") junk =
    Done (Some (repeat 0 10 ++ [255; 255; 10; 0; 0; 76]), lit ".0.0.1").
Proof. exact comma_witness. Qed.
Print Assumptions C96_comma_refuted.

Example C96_example_same :
  let d := mkDigits true 44 threes in
  separator (d_sep d) /\
  loc_extract d 60 (lit "10.0.0.1 , 100.0.0.1") (repeat 9 16) =
    Done (Some (repeat 0 10 ++ [255; 255; 10; 0; 0; 1]), lit " , 100.0.0.1").
Proof. split; [vm_compute; intuition discriminate|reflexivity]. Qed.

Example C96_example_apart : apart 44 (lit "10.0.0.1 , x").
Proof.
  intros l1 c l2 E.
  do 20 (destruct l1 as [|? l1]; [try discriminate E; injection E as <- _; vm_compute; intuition discriminate|
                                  try discriminate E; injection E as _ E]).
Qed.

Example C96_example_dots :
  let d := mkDigits true 46 threes in
  d_grouped d = true /\ d_sep d = 46 /\
  loc_extract d 60 (lit "2001:db8::1 x") (repeat 9 16) =
    Done (Some [0x20; 1; 0x0d; 0xb8; 0; 0; 0; 0; 0; 0; 0; 0; 0; 0; 0; 1], lit " x") /\
  loc_extract d 60 (lit "10.0.0.1") (repeat 9 16) = Done (None, []).
Proof. repeat split; reflexivity. Qed.
