(** Concrete requests that get a page. *)
From Coq Require Import String List NArith ZArith Bool Lia.
From Verif Require Import Model.Base Model.Protocol Model.WebMaps Model.Streams Model.Environment Model.Request
  Spec.WireSpec Spec.StreamSpec Spec.EnvironmentSpec Spec.RequestSpec Spec.PageSpec
  Proofs.RequestLifeProofs.
Import ListNotations.
Local Open Scope N_scope.

(** The demonstration application overrides [response] alone. *)
Lemma demo_only : only_responds demo.
Proof.
  split; [|reflexivity]. intros c u H. destruct c; try reflexivity. exfalso. eapply H; reflexivity.
Qed.

Definition demo_lives := lives_with (fun b _ => b) (repeat 0) (fun _ => 0%Z) Narrow demo demo_cfg 0.

Lemma demo_early : exists st, demo_lives demo_head st /\ q_state st = 5 /\ unanswered st.
Proof.
  eexists. split; [unfold demo_lives, lives_with; vm_compute; reflexivity|]. split; [reflexivity|].
  intros e m []. 
Qed.

(** An application that turns html escaping on and waits for another
    message. *)
Definition shouting : application unit :=
  mkApp (fun c u =>
    match c with
    | CResponse e m => (u, e, [(false, OpWrite (lit "Content-Type: text/html" ++ [13; 10; 13; 10]));
                               (false, OpEnc E_HTML); (false, OpWrite (lit "1<2"))], false)
    | _ => default_call c u
    end) (fun _ => (true, true)).

Lemma shouting_only : only_responds shouting.
Proof.
  split; [|reflexivity]. intros c u H. destruct c; try reflexivity. exfalso. eapply H; reflexivity.
Qed.

Definition shouting_run : list message := [record_message 4 5 [] [] 0; demo_end; demo_end].

Definition shouting_done :=
  handler (fun b _ => b) (repeat 0) (fun _ => 0%Z) Narrow shouting demo_cfg shouting_run (rq_init tt).

Definition shouted : list N :=
  lit "Content-Type: text/html" ++ [13; 10; 13; 10] ++ lit "1&lt;2" ++
  lit "Status: 500 Internal Server Error" ++ [10] ++
  lit "Content-Type: text/html; charset=utf-8" ++ [13; 10; 13; 10] ++
  lit "&lt;!DOCTYPE html&gt;&lt;html lang=&apos;en&apos;&gt;&lt;head&gt;&lt;title&gt;500 Internal Server Error&lt;/title&gt;&lt;/head&gt;&lt;body&gt;&lt;h1&gt;500 Internal Server Error&lt;/h1&gt;&lt;/body&gt;&lt;/html&gt;".

Lemma shouting_shouts : exists st l1 l2 pl pad,
  shouting_done = Done (true, [], st) /\
  q_sent st = [([Some 1; Some 6; Some 0; Some 5; Some l1; Some l2; Some pl; None] ++ known shouted ++ pad, false);
               (end_record 5 0, true)].
Proof.
  unfold shouting_done. do 5 eexists. split; [vm_compute; reflexivity|].
  cbn [q_sent]. match goal with |- [(?a, _); _] = _ => idtac end.
  set (b := known shouted). vm_compute in b. subst b. reflexivity.
Qed.

Lemma page_escaped : exists (A : application unit) ms st l1 l2 pl pad,
  only_responds A /\
  handler (fun b _ => b) (repeat 0) (fun _ => 0%Z) Narrow A demo_cfg ms (rq_init tt) = Done (true, [], st) /\
  q_sent st = [([Some 1; Some 6; Some 0; Some 5; Some l1; Some l2; Some pl; None] ++ known shouted ++ pad, false);
               (end_record 5 0, true)].
Proof.
  destruct shouting_shouts as (st & l1 & l2 & pl & pad & D & S).
  exact (ex_intro _ shouting (ex_intro _ shouting_run (ex_intro _ st (ex_intro _ l1 (ex_intro _ l2
    (ex_intro _ pl (ex_intro _ pad (conj shouting_only (conj D S))))))))).
Qed.
