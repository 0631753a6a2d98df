(** C47: choice of the locale. *)
From Coq Require Import String List NArith.
From Verif Require Import Model.Base Model.Locale Spec.LocaleSpec Proofs.LocaleProofs.
Import ListNotations.
Local Open Scope N_scope.

(** For every list of languages (without NUL characters) and of locales the
    function ends without reading past a string, and the result is the first
    locale that starts with the earliest language that can be served, else
    the default. *)
Theorem C47_pick : forall languages locales, Forall (Forall (fun c => c <> 0)) languages ->
  exists i, pickLocale languages locales = Val i /\
  ((exists before l after, languages = before ++ l :: after /\ Forall (unserved locales) before /\
      (length l <= 5)%nat /\ first_speaking l locales i) \/
   (i = 0 /\ Forall (unserved locales) languages)).
Proof. exact pick_ok. Qed.
Print Assumptions C47_pick.

Example C47_example :
  let languages := [lit "de"; lit "fr"; lit "en"] in
  let locales := [lit "en_US"; lit "en_CA"; lit "fr_CA"; lit "fr_FR"] in
  Forall (Forall (fun c => c <> 0)) languages /\ pickLocale languages locales = Val 2 /\
  unserved locales (lit "de") /\ first_speaking (lit "fr") locales 2.
Proof.
  split; [repeat constructor; discriminate|]. split; [reflexivity|]. split.
  - right. repeat constructor; intros (r & E); discriminate.
  - exists [lit "en_US"; lit "en_CA"], (lit "fr_CA"), [lit "fr_FR"]. split; [reflexivity|].
    split; [reflexivity|]. split; [now exists (lit "_CA")|]. repeat constructor; intros (r & E); discriminate.
Qed.

(** A supported language of more than five characters is passed over. *)
Theorem C47_long_language_refuted : exists languages locales l i,
  In l languages /\ first_speaking l locales i /\ Forall (fun l' => l' = l) languages /\
  pickLocale languages locales = Val 0 /\ i <> 0.
Proof.
  exists [lit "es_419"], [lit "en_US"; lit "es_419.UTF-8"], (lit "es_419"), 1.
  split; [now left|]. split.
  - exists [lit "en_US"], (lit "es_419.UTF-8"), []. split; [reflexivity|]. split; [reflexivity|].
    split; [now exists (lit ".UTF-8")|]. repeat constructor; intros (r & E); discriminate.
  - split; [repeat constructor|]. split; [reflexivity|discriminate].
Qed.
Print Assumptions C47_long_language_refuted.

(** A language with a NUL character makes the comparison run past the end of
    a shorter locale. *)
Theorem C47_nul_refuted : exists languages locales, pickLocale languages locales = UB.
Proof. exists [[101; 110; 0; 110]], [lit "en"]. reflexivity. Qed.
Print Assumptions C47_nul_refuted.
