(** Concrete PARAMS records. *)
From Coq Require Import String List NArith ZArith Bool Lia.
From Verif Require Import Model.Base Model.Environment
  Spec.EndianSpec Spec.WireSpec Spec.AddressSpec Spec.EnvironmentSpec.
Import ListNotations.
Local Open Scope N_scope.

Definition enc1 (p : string * string) : list N :=
  [N.of_nat (length (lit (fst p))); N.of_nat (length (lit (snd p)))] ++ lit (fst p) ++ lit (snd p).
Definition enc_all (ps : list (string * string)) : list N := flat_map enc1 ps.
Definition lits2 (ps : list (string * string)) := map (fun p => (lit (fst p), lit (snd p))) ps.

Definition ex1 : list (string * string) :=
  [("REQUEST_METHOD", "POST"); ("CONTENT_LENGTH", "300"); ("PATH_INFO", "/a%20b//c/"); ("REMOTE_ADDR", "::1")]%string.
Definition ex2 : list (string * string) :=
  [("X", "1"); ("HTTP_ACCEPT_LANGUAGE", "en-CA, fr;q=0.5"); ("X", "2"); ("HTTP_HOST", "h")]%string.

Definition example_records : list params_record :=
  [mkParams [1; 4; 0; 1; 0; 74; 6; 0] (lits2 ex1) (enc_all ex1) [0; 0; 0; 0; 0; 0];
   mkParams [1; 4; 0; 1; 0; 55; 1; 0] (lits2 ex2) (enc_all ex2) [0]].

Lemma enc1_ok : forall p, (length (lit (fst p)) <= 127)%nat -> (length (lit (snd p)) <= 127)%nat ->
  pair_encoding (lit (fst p)) (lit (snd p)) (enc1 p).
Proof.
  intros [a b] L1 L2. cbn [fst snd] in *.
  exists [N.of_nat (length (lit a))], [N.of_nat (length (lit b))].
  split; [constructor; unfold len; lia|]. split; [constructor; unfold len; lia|]. reflexivity.
Qed.

Lemma loopback_text : address_text (lit "::1") (repeat 0 15 ++ [1]).
Proof.
  change (lit "::1") with ([] ++ [58; 58] ++ [49]).
  change (repeat 0 15 ++ [1]) with ([] ++ repeat 0 14 ++ [0; 1]).
  apply at_gap.
  - constructor.
  - right. apply pt_group. split; [cbn; lia|]. exists 1. split; [|reflexivity].
    apply num_one. change 49 with (48 + 1). constructor; lia.
  - reflexivity.
  - lia.
Qed.

Lemma loopback_not_compat : ~ compat_text (lit "::1").
Proof.
  intros (q & bs & (t1 & t2 & t3 & t4 & _ & _ & _ & _ & _ & _ & _ & _ & E & _) & E2).
  cbn in E2. injection E2 as <-. apply (f_equal (@length N)) in E. rewrite !app_length in E. cbn in E. lia.
Qed.

Ltac plain := repeat match goal with |- _ /\ _ => split end;
  [let s := fresh "s" in let I := fresh "I" in let E := fresh "E" in
   intros s I E; cbn [In numeric_names] in I; repeat match type of I with _ \/ _ => destruct I as [I|I] end;
    try tauto; subst s; try discriminate E
  | let E := fresh "E" in intro E; try discriminate E; try discriminate
  | let s := fresh "s" in let I := fresh "I" in let E := fresh "E" in
    intros s I E; cbn [In address_names] in I; repeat match type of I with _ \/ _ => destruct I as [I|I] end;
    try tauto; subst s; try discriminate E].

Lemma example_records_ok : Forall params_record_ok example_records /\
  concat (map p_params example_records) =
    [(lit "REQUEST_METHOD", lit "POST"); (lit "CONTENT_LENGTH", lit "300");
     (lit "PATH_INFO", lit "/a%20b//c/"); (lit "REMOTE_ADDR", lit "::1"); (lit "X", lit "1");
     (lit "HTTP_ACCEPT_LANGUAGE", lit "en-CA, fr;q=0.5"); (lit "X", lit "2"); (lit "HTTP_HOST", lit "h")].
Proof.
  split; [|reflexivity].
  repeat (constructor; [split; [|split; [repeat (constructor; [reflexivity|]); constructor|reflexivity]]|]); [| |constructor].
  all: cbn [p_params p_content p_padding lits2 ex1 ex2 enc_all flat_map map fst snd].
  all: repeat (apply params_cons; [apply (enc1_ok (_, _)); cbn; lia| |]); try apply params_nil.
  all: cbn [fst snd] in *. all: unfold var_ok. all: plain.
  all: try (split; [reflexivity|exact Logic.I]).
  exists (repeat 0 15 ++ [1]). split; [exact loopback_text|]. split; [exact loopback_not_compat|].
  split; [discriminate|]. intro X. discriminate X.
Qed.
