(** Choosing a locale. *)
From Coq Require Import List NArith.
Import ListNotations.
Local Open Scope N_scope.

(** [locale] starts with [language]. *)
Definition speaks (language locale : list N) : Prop := exists rest, locale = language ++ rest.

(** Locale [i] is the first that speaks [language]. *)
Definition first_speaking (language : list N) (locales : list (list N)) (i : N) : Prop :=
  exists before l after, locales = before ++ l :: after /\ i = N.of_nat (length before) /\
    speaks language l /\ Forall (fun l' => ~ speaks language l') before.

(** A language that cannot be served: of more than five characters, or not
    spoken by any locale. *)
Definition unserved (locales : list (list N)) (language : list N) : Prop :=
  (5 < length language)%nat \/ Forall (fun l => ~ speaks language l) locales.
