(** C63: texts that are not addresses. *)
From Coq Require Import String List NArith ZArith Bool.
From Verif Require Import Model.Base Model.Address Spec.EndianSpec Spec.AddressSpec Spec.LooseSpec
  Proofs.LooseProofs Proofs.LooseExamples.
Import ListNotations.
Local Open Scope N_scope.

(** Whatever comes in, an address is taken from a stream only when the text
    used up has the form of one, in the loose sense of LooseSpec.v. *)
Theorem C63_extract_accepts : forall fuel inp junk a rest,
  extract fuel inp junk = Done (Some a, rest) ->
  exists ws t, inp = ws ++ t ++ rest /\ Forall blank ws /\ loose_text t.
Proof. exact extract_accepts_blank. Qed.
Print Assumptions C63_extract_accepts.

(** The same for [assign], which reports a failure by the null address. *)
Theorem C63_assign_accepts : forall fuel t after data a,
  assign fuel (t ++ after) (length t) data = Done a -> a <> repeat 0 16 -> looser_text t.
Proof. exact assign_accepts. Qed.
Print Assumptions C63_assign_accepts.

(** Signs and numbers of any size are taken in dotted quads. *)
Theorem C63_signs_refuted :
  exists t a, (forall b, ~ address_text t b) /\ is_address a /\
    forall junk, length junk = 16%nat -> extract 100 t junk = Done (Some a, []).
Proof. exact sign_witness. Qed.
Print Assumptions C63_signs_refuted.

(** Groups of more than four digits are taken, and lose the first ones. *)
Theorem C63_long_group_refuted :
  exists t a, (forall b, ~ address_text t b) /\ is_address a /\
    (forall junk, length junk = 16%nat -> extract 100 t junk = Done (Some a, [])) /\
    assign 100 (t ++ [0]) (length t) (repeat 0 16) = Done a.
Proof. exact group_witness. Qed.
Print Assumptions C63_long_group_refuted.

(** [assign] takes anything behind the first dot that has two more dots. *)
Theorem C63_letters_refuted :
  exists t a, (forall b, ~ address_text t b) /\ is_address a /\
    assign 100 (t ++ [0]) (length t) (repeat 0 16) = Done a.
Proof. exact rest_witness. Qed.
Print Assumptions C63_letters_refuted.

(** A quad behind too few groups without a gap is taken, and the bytes it does
    not give are those that happened to be there: indeterminate ones of a
    local variable, or those of the old address. *)
Theorem C63_indeterminate_refuted :
  exists t, (exists junk1 junk2 a b, length junk1 = 16%nat /\ length junk2 = 16%nat /\ a <> b /\
    extract 100 t junk1 = Done (Some a, []) /\ extract 100 t junk2 = Done (Some b, []) /\
    assign 100 (t ++ [0]) (length t) junk1 = Done a /\ assign 100 (t ++ [0]) (length t) junk2 = Done b).
Proof. exact indeterminate_witness. Qed.
Print Assumptions C63_indeterminate_refuted.

Example C63_example_taken :
  extract 60 (lit " 1::2, x") (repeat 9 16) = Done (Some ([0; 1] ++ repeat 0 12 ++ [0; 2]), lit ", x") /\
  assign 60 (lit "1::2" ++ [0]) 4 (repeat 9 16) = Done ([0; 1] ++ repeat 0 12 ++ [0; 2]).
Proof. vm_compute. split; reflexivity. Qed.

Example C63_example_refused :
  map (fun t => extract 60 (lit t) (repeat 9 16))
    ["hello"; "1:2:3"; "1::2::3"; "1.2.3"; "1.2..3"; "1:2:3:4:5:6:7:1.2.3.4"]%string
  = map (fun r => Done (None, lit r)) ["hello"; ""; ":3"; ""; ""; ".2.3.4"]%string /\
  map (fun t => assign 60 (lit t ++ [0]) (length (lit t)) (repeat 9 16))
    ["hello"; "1:2:3"; "1::2::3"; "1.2.3"; "1.2.3."; "1:2:3:4:5:6:7:1.2.3.4"]%string
  = repeat (Done (repeat 0 16)) 6.
Proof. vm_compute. split; reflexivity. Qed.
