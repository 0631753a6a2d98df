(** The example applications, from the first record to the last. *)
From Coq Require Import String List NArith ZArith Bool Lia ZifyBool ZifyNat ZifyN.
From Verif Require Import Model.Base Model.Endian Model.Protocol Model.WebMaps Model.Streams
  Model.Environment Model.Multipart Model.Request Model.Examples
  Spec.EndianSpec Spec.WireSpec Spec.EscapeSpec Spec.StreamSpec Spec.AddressSpec Spec.EnvironmentSpec
  Spec.RequestSpec Spec.PageSpec Spec.ExampleSpec
  Proofs.RequestProofs Proofs.RequestLifeProofs Proofs.AgreeProofs Proofs.ExampleProofs.
Import ListNotations.
Local Open Scope N_scope.

Lemma hello_answer : forall vts junk http_time strict cfg address_of,
  (forall n, length (junk n) = n) ->
  (forall t a, address_text t a -> ~ compat_text t -> address_of t = a) ->
  forall rs ms4 m4 m5, c_id cfg < 65536 -> c_role cfg = 1 \/ c_role cfg = 2 ->
  Forall2 params_message rs ms4 -> is_message 4 [] m4 -> is_message 5 [] m5 ->
  e_contentLength (describe vts http_time address_of env_init (concat (map p_params rs))) <= c_maxPost cfg ->
  answered vts junk http_time (Wide strict) hello cfg tt (ms4 ++ [m4; m5]) 0 hello_page.
Proof.
  intros vts junk ht strict cfg ao J AD rs ms4 m4 m5 I R H4 E4 E5 L.
  pose proof (page_answer vts junk ht (Wide strict) cfg (fun _ => hello_ops) ao J AD rs ms4 m4 [] [] m5
    (set_postBuffer [] (describe vts ht ao env_init (concat (map p_params rs)))) I R H4 E4
    (Forall2_nil _) (Forall_nil _) E5 L) as P.
  change (encode (Wide strict)) with utf8 in P. cbv beta in P. rewrite hello_text in P. apply P.
  - cbn. lia.
  - reflexivity.
  - apply hello_real.
Qed.

Lemma echo_answer : forall vts junk http_time strict dec time_text widen address_out version cfg address_of,
  (forall n, length (junk n) = n) ->
  (forall t a, address_text t a -> ~ compat_text t -> address_of t = a) ->
  formats dec time_text widen address_out version ->
  forall rs ms4 m4 bodies ms5 m5 e, c_id cfg < 65536 -> c_role cfg = 1 \/ c_role cfg = 2 ->
  Forall2 params_message rs ms4 -> is_message 4 [] m4 -> Forall2 (is_message 5) bodies ms5 ->
  Forall (fun c => c <> []) bodies -> is_message 5 [] m5 ->
  let e0 := describe vts http_time address_of env_init (concat (map p_params rs)) in
  e_contentLength e0 <= c_maxPost cfg -> len (concat bodies) <= e_contentLength e0 ->
  parsePostBuffer vts junk (set_postBuffer (concat bodies) e0) = Done (true, e) -> real_env widen e ->
  exists text,
    answered vts junk http_time (Wide strict) (echo dec time_text widen address_out version) cfg tt
      (ms4 ++ [m4] ++ ms5 ++ [m5]) 0 text /\
    (exists body, text = echo_head ++ lit "<!DOCTYPE html>" ++ body) /\
    forall p, In p (e_others e ++ e_gets e ++ e_posts e ++ e_cookies e) ->
      exists pre post, text = pre ++ pair_shown p ++ post.
Proof.
  intros vts junk ht strict dec tt' wi ao' ve cfg ao J AD (D & Ti & AO & V & W) rs ms4 m4 bodies ms5 m5 e
    I R H4 E4 H5 N5 E5 e0 L1 L2 PB RE.
  set (e' := set_postBuffer [] e).
  exists (text_of utf8 E_NONE (echo_ops dec tt' wi ao' ve e')). split; [|split].
  - apply (page_answer vts junk ht (Wide strict) cfg (echo_ops dec tt' wi ao' ve) ao J AD rs ms4 m4 bodies ms5 m5 e
      I R H4 E4 H5 N5 E5 L1 L2 PB).
    apply echo_real; auto; intros; try apply D; try apply AO; try apply V.
  - apply echo_heads.
  - intros p H. apply (echo_shows dec tt' wi ao' ve); auto; intros; try apply D; try apply AO; try apply V.
Qed.

Lemma echo_tags : forall dec time_text widen address_out version,
  formats dec time_text widen address_out version ->
  forall e1 e2 m1 m2, same_shape e1 e2 -> plain_files e1 -> plain_files e2 ->
  let page e m := text_of utf8 E_NONE
    (ops_on false (writes (echo dec time_text widen address_out version) (CResponse e m) tt)) in
  markup false (page e1 m1) = markup false (page e2 m2).
Proof.
  intros dec tt' wi ao ve (D & Ti & AO & V & W). apply echo_markup; auto; intros; try apply D; try apply AO; apply V.
Qed.

(** ** Formats *)
Definition ex_dec (n : N) : list N := [48 + n mod 10].
Definition ex_time (_ : Z) : list N := lit "Thu, 01 Jan 1970 00:00:00 GMT".
Definition ex_address (_ : list N) : list N := lit "::1".
(** [btowc] in the "C" locale. *)
Definition ex_widen (s : list N) : list N := map (fun c => if c <? 128 then c else 0xffffffff) s.

Lemma ex_formats : formats ex_dec ex_time ex_widen ex_address (lit "3.1").
Proof.
  assert (T : forall s, forallb (fun c => negb (c =? 60) && negb (c =? 62)) s = true -> tagless s).
  { intros s H. rewrite forallb_forall in H. split; intros X; apply H in X; discriminate. }
  split; [|split; [|split; [|split]]].
  - intros n. pose proof (N.mod_lt n 10 ltac:(discriminate)) as L. unfold ex_dec. generalize dependent (n mod 10).
    intros m L. split; [split; intros [H|[]]; lia|]. repeat constructor. unfold scalar. lia.
  - intros t. apply scalars. reflexivity.
  - intros a. split; [apply T; reflexivity|apply scalars; reflexivity].
  - split; [apply T; reflexivity|apply scalars; reflexivity].
  - intros s F. unfold ex_widen. induction F as [|c s L F IH]; auto. cbn [map]. rewrite IH.
    destruct (N.ltb_spec c 128); [auto|]. exfalso. cbv beta in L. lia.
Qed.

(** ** A file with markup *)
Definition ex_file (data : list N) : env :=
  set_files [(lit "aFile", (lit "a.html", lit "text/html", data))] env_init.

Definition ex_page (e : env) : list N := text_of utf8 E_NONE
  (ops_on false (writes (echo ex_dec ex_time ex_widen ex_address (lit "3.1")) (CResponse e (mkMsg 0 [])) tt)).

Definition ex_tags : list N := markup false (ex_page (ex_file [])).
Definition ex_rest : nat := length (markup false (text_of utf8 E_NONE ([w "</pre>"] ++ echo_forms))).

Lemma file_markup : same_shape (ex_file []) (ex_file (lit "<script>alert(1)</script>")) /\
  exists a b, markup false (ex_page (ex_file [])) = a ++ b /\
    markup false (ex_page (ex_file (lit "<script>alert(1)</script>"))) = a ++ lit "<script></script>" ++ b /\
    firstn 24 b = lit "</pre><h1></h1><h3></h3>".
Proof.
  split; [repeat split|].
  exists (firstn (length ex_tags - ex_rest) ex_tags), (skipn (length ex_tags - ex_rest) ex_tags).
  split; [now rewrite firstn_skipn|]. split; vm_compute; reflexivity.
Qed.

(** ** A language that is not ASCII *)
Definition ex_cfg : config := mkCfg 5 1 true 5120.
Definition ex_language : list message :=
  [record_message 4 5 ([20; 1] ++ lit "HTTP_ACCEPT_LANGUAGE" ++ [233]) [0] 0; record_message 4 5 [] [] 0;
   record_message 5 5 [] [] 0].

Lemma language_blank : exists st e m,
  handler (fun b _ => b) (repeat 0) (fun _ => 0%Z) (Wide false)
    (echo ex_dec ex_time ex_widen ex_address (lit "3.1")) ex_cfg ex_language (rq_init tt) = Done (true, [], st) /\
  In (CResponse e m) (q_calls st) /\ e_acceptLanguages e = [[233]] /\
  q_sent st = [(end_record 5 0, true)].
Proof.
  eexists. exists (set_acceptLanguages [[233]] env_init). eexists.
  split; [vm_compute; reflexivity|]. split; [cbn [q_calls In]; right; left; reflexivity|].
  split; reflexivity.
Qed.

(** ** A form *)
Definition ex_e0 : env := describe (fun b _ => b) (fun _ => 0%Z) (fun t => t) env_init (p_params demo_record).

Lemma form_case : exists e,
  e_contentLength ex_e0 = 7 /\ len (lit "x=a" ++ lit "%20b") = 7 /\
  parsePostBuffer (fun b _ => b) (repeat 0) (set_postBuffer (lit "x=a" ++ lit "%20b") ex_e0) = Done (true, e) /\
  real_env ex_widen e /\ e_posts e = [(lit "x", lit "a b")] /\
  pair_shown (lit "x", lit "a b") = lit "<b>x:</b> a b<br />".
Proof.
  eexists. split; [reflexivity|]. split; [reflexivity|]. split; [vm_compute; reflexivity|].
  split; [|split; reflexivity]. split; [|constructor].
  assert (H : forall l, forallb (forallb scalarb) l = true -> Forall (Forall scalar) l).
  { intros l H. rewrite forallb_forall in H. apply Forall_forall. intros s S. apply scalars. auto. }
  apply H. vm_compute. reflexivity.
Qed.
