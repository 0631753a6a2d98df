(** The request of the timer example. *)
From Coq Require Import String List NArith ZArith Bool Lia ZifyBool ZifyNat ZifyN.
From Verif Require Import Model.Base Model.Endian Model.Protocol Model.WebMaps Model.Streams
  Model.Environment Model.Multipart Model.Request Model.SessionExample Model.TimerExample
  Spec.EndianSpec Spec.WireSpec Spec.StreamSpec Spec.AddressSpec Spec.EnvironmentSpec Spec.RequestSpec Spec.PageSpec
  Spec.TimerExampleSpec Proofs.RequestLifeProofs Proofs.AgreeProofs Proofs.ResumeProofs.
Import ListNotations.
Local Open Scope N_scope.

Section Timer.
Variable dec : N -> list N.
Hypothesis D : forall n, n < 5 -> dec n = [48 + n].

Lemma timer_only : only_responds (timer_app dec).
Proof. split; [|reflexivity]. intros [] u H; auto. exfalso. eapply H; reflexivity. Qed.

Lemma timer_writes : app_writes (real_char Narrow) (timer_app dec).
Proof.
  assert (B : forall t, Forall (real_char Narrow) (lit t)) by (intros; apply lit_bytes).
  intros [e m|e n|e|e|e|e] u; unfold writes; cbn [timer_app a_call].
  - destruct (fst u <? 5) eqn:L.
    + assert (Forall (real_char Narrow) (dec (fst u))) by (rewrite D by lia; constructor; [change (48 + fst u < 256); lia|constructor]).
      destruct (fst u =? 0); cbn [app map fst snd].
      all: repeat (apply Forall_cons; [first [apply B | assumption | exact I | repeat (apply Forall_cons; [reflexivity|]); apply Forall_nil]|]).
      all: apply Forall_nil.
    + cbn [app map fst snd nw]. constructor; [apply B|constructor].
  - constructor.
  - constructor.
  - constructor; [|constructor]. apply error_chars. cbn [In]. auto.
  - constructor; [|constructor]. apply error_chars. cbn [In]. auto.
  - constructor; [|constructor]. apply error_chars. cbn [In]. auto.
Qed.

Definition chunk (n : N) : list (bool * sop) :=
  map (pair false)
    ((if n =? 0 then
        [nw "Content-Type: text/html; charset=iso-8859-1"; OpWrite [13; 10; 13; 10]; nw "<!DOCTYPE html>"; OpWrite [10];
         nw "<html lang='en'><head><meta charset='iso-8859-1' /><title>fastcgi++: Timer</title></head><body><p>"]
      else []) ++ [OpWrite (dec n); nw "..."; OpFlush]).
Lemma replies_low : forall e n ps m ms, n < 5 -> replies (timer_app dec) e (n, ps) (m :: ms)
  = let '(ops, u, b, rest) := replies (timer_app dec) e (n + 1, ps ++ [n + 1]) ms in (chunk n ++ ops, u, b, rest).
Proof.
  intros e n ps m ms L. cbn [replies timer_app a_call fst snd]. destruct (N.ltb_spec n 5); [|lia]. reflexivity.
Qed.

Lemma chunk_on : forall n, ops_on true (chunk n) = [] /\ flushed (chunk n).
Proof.
  intros n. unfold chunk. rewrite ops_on_true. split; [reflexivity|].
  rewrite map_app. cbn [map]. exists (map (pair false) (if n =? 0 then
        [nw "Content-Type: text/html; charset=iso-8859-1"; OpWrite [13; 10; 13; 10]; nw "<!DOCTYPE html>"; OpWrite [10];
         nw "<html lang='en'><head><meta charset='iso-8859-1' /><title>fastcgi++: Timer</title></head><body><p>"]
      else []) ++ [(false, OpWrite (dec n)); (false, nw "...")]). now rewrite <- app_assoc.
Qed.

Lemma timer_replies : forall e m5 cbs, exists ops,
  replies (timer_app dec) e (0, []) (m5 :: cbs)
    = (ops, (N.of_nat (Nat.min 5 (S (length cbs))), map N.of_nat (seq 1 (Nat.min 5 (S (length cbs))))),
       (5 <=? length cbs)%nat, skipn 5 cbs) /\
  text_of (encode Narrow) E_NONE (ops_on true ops) = [] /\
  text_of (encode Narrow) E_NONE (ops_on false ops)
    = timer_text (Nat.min 5 (S (length cbs))) ++ (if (5 <=? length cbs)%nat then lit "5</p></body></html>" else []) /\
  ((length cbs < 5)%nat -> flushed ops).
Proof.
  intros e m5 cbs.
  pose proof (D 0 eq_refl) as D0. pose proof (D 1 eq_refl) as D1. pose proof (D 2 eq_refl) as D2.
  pose proof (D 3 eq_refl) as D3. pose proof (D 4 eq_refl) as D4.
  destruct cbs as [|c1 [|c2 [|c3 [|c4 [|c5 cbs]]]]].
  all: rewrite !replies_low by reflexivity.
  6: change (replies (timer_app dec) e _ (c5 :: cbs)) with
       (map (pair false) [nw "5</p></body></html>"], (5, [1; 2; 3; 4; 5]), true, cbs).
  all: cbn [replies]; cbv beta iota zeta; eexists; split; [reflexivity|].
  all: cbn [length Nat.min Nat.leb]; split; [unfold chunk; rewrite ?map_app; reflexivity|]; split; [unfold chunk; cbn; rewrite ?D0, ?D1, ?D2, ?D3, ?D4; reflexivity|].
  all: intros L; try lia.
  all: unfold chunk; cbn [N.eqb app map Pos.eqb]; rewrite ?app_nil_r.
  1: eexists [_; _; _; _; _; _; _]; reflexivity.
  1: eexists [_; _; _; _; _; _; _; _; _; _]; reflexivity.
  1: eexists [_; _; _; _; _; _; _; _; _; _; _; _; _]; reflexivity.
  1: eexists [_; _; _; _; _; _; _; _; _; _; _; _; _; _; _; _]; reflexivity.
  1: eexists [_; _; _; _; _; _; _; _; _; _; _; _; _; _; _; _; _; _; _]; reflexivity.
Qed.

Lemma timer_answer : forall vts junk http_time cfg address_of,
  (forall n, length (junk n) = n) ->
  (forall t a, address_text t a -> ~ compat_text t -> address_of t = a) ->
  forall rs ms4 m4 bodies ms5 m5 cbs e2, c_id cfg < 65536 -> c_role cfg = 1 \/ c_role cfg = 2 ->
  Forall2 params_message rs ms4 -> is_message 4 [] m4 -> Forall2 (is_message 5) bodies ms5 ->
  Forall (fun c => c <> []) bodies -> is_message 5 [] m5 ->
  let e0 := describe vts http_time address_of env_init (concat (map p_params rs)) in
  e_contentLength e0 <= c_maxPost cfg -> len (concat bodies) <= e_contentLength e0 ->
  parsePostBuffer vts junk (set_postBuffer (concat bodies) e0) = Done (true, e2) ->
  Forall (fun m => m_type m <> 0%Z) cbs ->
  let n := Nat.min 5 (S (length cbs)) in
  exists st recs,
    handler vts junk http_time Narrow (timer_app dec) cfg (ms4 ++ [m4] ++ ms5 ++ [m5] ++ cbs) (rq_init (0, []))
      = Done ((5 <=? length cbs)%nat, skipn 5 cbs, st) /\
    snd (q_user st) = map N.of_nat (seq 1 n) /\
    if (5 <=? length cbs)%nat then
      exists r, q_sent st = map (fun r => (r, false)) recs ++ [(r, c_kill cfg)] /\ is_end (c_id cfg) 0 r /\
        stream_text 6 (c_id cfg) recs (timer_text 5 ++ lit "5</p></body></html>") /\ stream_text 7 (c_id cfg) recs []
    else q_sent st = map (fun r => (r, false)) recs /\ stream_text 6 (c_id cfg) recs (timer_text n).
Proof.
  intros vts junk http_time cfg ao J AD rs ms4 m4 bodies ms5 m5 cbs e2 Hi HR F4 M4 F5 NE M5 e0 L1 L2 PP FC n.
  destruct (timer_replies (set_postBuffer [] e2) m5 cbs) as (ops & R & T7 & T6 & FL).
  destruct (resumed vts junk http_time Narrow (timer_app dec) cfg Hi timer_writes timer_only ao J AD (0, []) rs ms4 m4 bodies
    ms5 m5 cbs e2 HR F4 M4 F5 NE M5 L1 L2 PP FC _ _ _ _ R) as (st & H & Q & recs & X).
  exists st, recs. split; [exact H|]. split; [now rewrite Q|].
  rewrite T6, T7 in X. destruct (Nat.leb_spec 5 (length cbs)) as [L|L].
  - rewrite Nat.min_l in X by lia. exact X.
  - rewrite app_nil_r in X. destruct X as (X1 & t & later & X2 & X3 & X4).
    rewrite (X4 (FL L)), app_nil_r in X3. subst t. auto.
Qed.
End Timer.

(** A request of the timer, and the messages of its five callbacks. *)
Lemma timer_case : forall n, (n <= 5)%nat -> exists st,
  handler (fun b _ => b) (repeat 0) (fun _ => 0%Z) Narrow (timer_app (fun n => [48 + n])) demo_cfg
    (demo_head ++ demo_body ++ [demo_end] ++ repeat (mkMsg 1 (lit "I was passed between threads!!")) n) (rq_init (0, []))
  = Done ((5 <=? n)%nat, [], st) /\ length (snd (q_user st)) = Nat.min 5 (S n).
Proof.
  intros n L. do 6 (destruct n as [|n]; [eexists; split; [vm_compute; reflexivity|reflexivity]|]). lia.
Qed.
