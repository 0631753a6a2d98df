(** Proofs about [pickLocale]. *)
From Coq Require Import String List NArith ZArith Bool Lia ZifyBool ZifyNat ZifyN.
From Verif Require Import Model.Base Model.Locale Spec.LocaleSpec.
Import ListNotations.
Local Open Scope N_scope.

Lemma equal_at_ok : forall language locale, Forall (fun c => c <> 0) language ->
  exists b, equal_at language (locale ++ [0]) = Val b /\ (b = true <-> speaks language locale).
Proof.
  induction language as [|c l IH]; intros locale F.
  - exists true. split; [reflexivity|]. split; auto. intros _. now exists locale.
  - inversion F; subst. destruct locale as [|x locale]; cbn [app equal_at].
    + destruct (N.eqb_spec c 0); [contradiction|]. exists false. split; [reflexivity|].
      split; [discriminate|]. intros (r & E). discriminate.
    + destruct (N.eqb_spec c x) as [->|NE].
      * destruct (IH locale) as (b & E & B); auto. exists b. split; auto. rewrite B. split.
        -- intros (r & ->). now exists r.
        -- intros (r & X). injection X as ->. now exists r.
      * exists false. split; [reflexivity|]. split; [discriminate|]. intros (r & X). injection X. congruence.
Qed.

Lemma find_locale_ok : forall language locales i, Forall (fun c => c <> 0) language ->
  (exists j, find_locale language locales i = Val (Some (i + j)) /\ first_speaking language locales j) \/
  (find_locale language locales i = Val None /\ Forall (fun l => ~ speaks language l) locales).
Proof.
  intros language. induction locales as [|l locales IH]; intros i F; cbn [find_locale]; [right; auto|].
  destruct (equal_at_ok language l F) as (b & -> & B). cbn [obind]. destruct b.
  - left. exists 0. rewrite N.add_0_r. split; auto. exists [], l, locales. cbn. repeat split; auto. now apply B.
  - assert (NS : ~ speaks language l) by (intros X; apply B in X; discriminate).
    destruct (IH (i + 1) F) as [(j & -> & before & l' & after & -> & -> & S & N) | (-> & N)].
    + left. exists (1 + N.of_nat (length before)). split; [do 2 f_equal; lia|].
      exists (l :: before), l', after. repeat split; auto. cbn [length]. lia.
    + right. auto.
Qed.

Lemma pick_ok : forall languages locales, Forall (Forall (fun c => c <> 0)) languages ->
  exists i, pickLocale languages locales = Val i /\
  ((exists before l after, languages = before ++ l :: after /\ Forall (unserved locales) before /\
      (length l <= 5)%nat /\ first_speaking l locales i) \/
   (i = 0 /\ Forall (unserved locales) languages)).
Proof.
  induction languages as [|l languages IH]; intros locales F; cbn [pickLocale].
  - exists 0. auto.
  - inversion F as [|? ? F1 F2]; subst.
    assert (NX : unserved locales l -> exists i, pickLocale languages locales = Val i /\
       ((exists before l0 after, l :: languages = before ++ l0 :: after /\ Forall (unserved locales) before /\
          (length l0 <= 5)%nat /\ first_speaking l0 locales i) \/
        (i = 0 /\ Forall (unserved locales) (l :: languages)))).
    { intros US. destruct (IH locales F2) as (i & E & [(b & l0 & a & -> & UB & L & FS) | (-> & UB)]).
      - exists i. split; auto. left. exists (l :: b), l0, a. repeat split; auto.
      - exists 0. split; auto. }
    destruct (N.leb_spec (N.of_nat (length l)) 5).
    + destruct (find_locale_ok l locales 0 F1) as [(j & -> & FS) | (-> & N)]; cbn [obind].
      * exists (0 + j). split; auto. left. exists [], l, languages. rewrite N.add_0_l. repeat split; auto. lia.
      * apply NX. right. exact N.
    + apply NX. left. lia.
Qed.
