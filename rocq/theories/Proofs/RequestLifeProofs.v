(** Corollaries for the life of a request, and a concrete application. *)
From Coq Require Import String List NArith ZArith Bool Lia ZifyBool ZifyNat ZifyN.
From Verif Require Import Model.Base Model.Protocol Model.Streams Model.Environment Model.Multipart Model.Request
  Spec.EndianSpec Spec.WireSpec Spec.StreamSpec Spec.EnvironmentSpec Spec.AddressSpec Spec.RequestSpec
  Spec.EscapeSpec Proofs.UrlProofs Proofs.EnvironmentExamples Proofs.RequestProofs Proofs.RequestBodyProofs.
Import ListNotations.
Local Open Scope N_scope.

Lemma always_bounded : forall vts junk http_time k (U : Type) (A : application U) cfg u ms done rest st,
  c_id cfg < 65536 -> app_writes (any_char k) A -> app_tame A ->
  handler vts junk http_time k A cfg ms (rq_init u) = Done (done, rest, st) ->
  Forall (fun e => len (e_postBuffer e) <= e_contentLength e /\ len (e_postBuffer e) <= c_maxPost cfg)
    (q_env st :: map call_env (q_calls st)).
Proof.
  intros vts junk http_time k U A cfg u ms done rest st I W T H.
  assert (P : PB k cfg st).
  { eapply handler_PB; eauto. repeat split; try constructor; try reflexivity; try apply sbase_fresh; auto. }
  constructor.
  - exact (PB_bounded _ _ _ P).
  - destruct P as (_ & F & _). apply Forall_map. exact F.
Qed.

(** A request that went on has made the calls [lives_with] says. *)
Lemma empty_body_parse : forall vts junk e, e_postBuffer e = [] -> parsePostBuffer vts junk e = Done (true, e).
Proof. intros vts junk e E. unfold parsePostBuffer. now rewrite E. Qed.

Section Forms.
Variable vts : list N -> list N -> list N.
Variable junk : nat -> list N.
Hypothesis J : forall n, length (junk n) = n.

Lemma form_body_parse : forall fs e,
  Forall (fun f => bytes_ok (fst f) /\ bytes_ok (snd f)) fs ->
  e_contentType e = lit "application/x-www-form-urlencoded" ->
  e_postBuffer e = form_encode (lit "&") fs ->
  parsePostBuffer vts junk e
  = Done (true, set_posts (e_posts e ++ map (fun f => (vts (fst f) [], vts (snd f) [])) fs) e).
Proof.
  intros fs e F T B. unfold parsePostBuffer. rewrite T.
  destruct (e_postBuffer e) as [|x b] eqn:PB.
  - destruct fs as [|f fs]; [|exfalso].
    + cbn [map]. rewrite app_nil_r. destruct e; reflexivity.
    + destruct fs; cbn [form_encode] in B; unfold form_field in B; apply (f_equal (@length N)) in B;
        rewrite !app_length in B; cbn in B; lia.
  - change (list_eqb (lit "multipart/form-data") (lit "application/x-www-form-urlencoded")) with false.
    change (list_eqb (lit "application/x-www-form-urlencoded") (lit "application/x-www-form-urlencoded")) with true.
    cbv iota. unfold parsePostsUrlEncoded. rewrite PB, B.
    change (lit "&") with [38].
    rewrite url_round_trip; [reflexivity|now left|repeat constructor|exact F|rewrite J; lia|lia].
Qed.
End Forms.

(** The end of a well-formed request with a form as its body. *)
Lemma form_seen : forall vts junk http_time k (U : Type) (A : application U) cfg address_of,
  (forall n, length (junk n) = n) ->
  (forall t a, address_text t a -> ~ compat_text t -> address_of t = a) ->
  forall u rs ms4 m4 fs bodies ms5 m5, c_id cfg < 65536 -> app_writes (any_char k) A -> app_plain A ->
  c_role cfg = 1 \/ c_role cfg = 2 ->
  Forall2 params_message rs ms4 -> is_message 4 [] m4 -> Forall2 (is_message 5) bodies ms5 ->
  Forall (fun c => c <> []) bodies -> is_message 5 [] m5 ->
  let e0 := describe vts http_time address_of env_init (concat (map p_params rs)) in
  e_contentLength e0 <= c_maxPost cfg -> len (concat bodies) <= e_contentLength e0 ->
  e_contentType e0 = lit "application/x-www-form-urlencoded" ->
  Forall (fun f => bytes_ok (fst f) /\ bytes_ok (snd f)) fs ->
  concat bodies = form_encode (lit "&") fs ->
  exists st calls e,
    handler vts junk http_time k A cfg (ms4 ++ [m4] ++ ms5 ++ [m5]) (rq_init u)
      = Done (snd (a_call A (CResponse e m5) u), [], st) /\
    q_calls st = calls ++ [CInProcessor (set_postBuffer (concat bodies) e0); CResponse e m5] /\
    in_calls bodies calls /\
    e = set_posts (e_posts e0 ++ map (fun f => (vts (fst f) [], vts (snd f) [])) fs) (set_postBuffer [] e0).
Proof.
  intros vts junk http_time k U A cfg ao J AD u rs ms4 m4 fs bodies ms5 m5 I W P R H4 E4 H5 N5 E5 e0 L1 L2 T F B.
  pose proof (form_body_parse vts junk J fs (set_postBuffer (concat bodies) e0) F T B) as Q.
  destruct (whole_seen vts junk http_time k A cfg ao J AD u rs ms4 m4 bodies ms5 m5 _ I W P R H4 E4 H5 N5 E5 L1 L2 Q)
    as (st & calls & HH & HC & IC).
  exists st, calls, (clearPostBuffer
    (set_posts (e_posts (set_postBuffer (concat bodies) e0)
       ++ map (fun f => (vts (fst f) [], vts (snd f) [])) fs) (set_postBuffer (concat bodies) e0))).
  repeat split; auto.
Qed.

Lemma no_body_seen : forall vts junk http_time k (U : Type) (A : application U) cfg address_of,
  (forall n, length (junk n) = n) ->
  (forall t a, address_text t a -> ~ compat_text t -> address_of t = a) ->
  forall u rs ms4 m4 m5, c_id cfg < 65536 -> app_writes (any_char k) A -> app_plain A ->
  c_role cfg = 1 \/ c_role cfg = 2 ->
  Forall2 params_message rs ms4 -> is_message 4 [] m4 -> is_message 5 [] m5 ->
  let e0 := describe vts http_time address_of env_init (concat (map p_params rs)) in
  e_contentLength e0 <= c_maxPost cfg ->
  exists st,
    handler vts junk http_time k A cfg (ms4 ++ [m4; m5]) (rq_init u)
      = Done (snd (a_call A (CResponse e0 m5) u), [], st) /\
    q_calls st = [CInProcessor e0; CResponse e0 m5].
Proof.
  intros vts junk http_time k U A cfg ao J AD u rs ms4 m4 m5 I W P R H4 E4 E5 e0 L1.
  assert (PE : set_postBuffer [] e0 = e0).
  { assert (X : e_postBuffer e0 = []) by apply describe_postBuffer. revert X. destruct e0; cbn; intros ->; reflexivity. }
  assert (Q : parsePostBuffer vts junk (set_postBuffer (concat []) e0) = Done (true, e0)).
  { cbn [concat]. rewrite PE. apply empty_body_parse. apply describe_postBuffer. }
  destruct (whole_seen vts junk http_time k A cfg ao J AD u rs ms4 m4 [] [] m5 _ I W P R H4 E4
     (Forall2_nil _) (Forall_nil _) E5 L1 (N.le_0_l _) Q) as (st & calls & HH & HC & IC).
  exists st. unfold clearPostBuffer in *. cbn [concat] in *. fold e0 in HH, HC. rewrite PE in HH, HC.
  inversion IC; subst. auto.
Qed.

(** A narrow application that shows a POST value, writes to both streams and
    keeps the default error handlers; it ends its second response. *)
Definition demo : application N :=
  mkApp (fun c u =>
    match c with
    | CResponse e m =>
        (u + 1, e, [(false, OpWrite (lit "Content-Type: text/plain" ++ [13; 10; 13; 10]));
                    (true, OpWrite (lit "log")); (true, OpFlush);
                    (false, OpWrite (map (fun c => c mod 256) (flat_map snd (e_posts e))))], u =? 1)
    | _ => default_call c u
    end) (fun _ => (true, true)).

Definition demo_cfg : config := mkCfg 5 ROLE_RESPONDER true 1000.

Definition demo_params : list (string * string) :=
  [("REQUEST_METHOD", "POST"); ("CONTENT_TYPE", "application/x-www-form-urlencoded"); ("CONTENT_LENGTH", "7")]%string.
Definition demo_record : params_record :=
  mkParams [1; 4; 0; 5; 0; 84; 2; 0] (lits2 demo_params) (enc_all demo_params) [0; 0].
Definition demo_head : list message :=
  [mkMsg 0 (fst (record_memory demo_record)); record_message 4 5 [] [] 0].

Definition demo_body : list message :=
  [record_message 5 5 (lit "x=a") [0; 0] 0; record_message 5 5 (lit "%20b") [] 0].
Definition demo_end : message := record_message 5 5 [] [] 0.
Definition demo_wake : message := mkMsg 7 (lit "anything").

Lemma demo_plain : app_plain demo.
Proof. intros [] u; cbn; trivial. Qed.

Lemma record_is_message : forall type id content padding reserved, len content < 65536 ->
  is_message type content (record_message type id content padding reserved).
Proof.
  intros type id content padding reserved L. split; [reflexivity|]. split; [exact L|].
  exists 1, id, (len padding), reserved, padding. reflexivity.
Qed.

Lemma demo_record_ok : params_message demo_record (mkMsg 0 (fst (record_memory demo_record))).
Proof.
  split; [|split; [discriminate|split]].
  - split; [|split; [repeat (constructor; [reflexivity|]); constructor|reflexivity]].
    cbn [p_params p_content p_padding demo_record lits2 demo_params enc_all flat_map map fst snd].
    repeat (apply params_cons; [apply (enc1_ok (_, _)); cbn; lia| |]); try apply params_nil.
    all: cbn [fst snd] in *. all: unfold var_ok. all: plain.
    all: try (split; [reflexivity|exact Logic.I]).
  - split; [reflexivity|]. split; [reflexivity|].
    exists 1, 5, 2, 0, [0; 0]. reflexivity.
  - reflexivity.
Qed.

(** The whole life of a request of [demo]. *)
Definition demo_run : list message := demo_head ++ demo_body ++ [demo_end; demo_wake].

Definition demo_done :=
  handler (fun b _ => b) (repeat 0) (fun _ => 0%Z) Narrow demo demo_cfg demo_run (rq_init 0).

Definition demo_wrote : list N :=
  lit "Content-Type: text/plain" ++ [13; 10; 13; 10] ++ lit "a b".

Lemma demo_works : exists st, demo_done = Done (true, [], st) /\
  q_sent st =
    [([Some 1; Some 7; Some 0; Some 5; Some 0; Some 3; Some 5; None] ++ known (lit "log") ++ repeat None 5, false);
     ([Some 1; Some 7; Some 0; Some 5; Some 0; Some 3; Some 5; None] ++ known (lit "log") ++ repeat None 5, false);
     ([Some 1; Some 6; Some 0; Some 5; Some 0; Some 62; Some 2; None] ++ known (demo_wrote ++ demo_wrote)
        ++ [None; None], false);
     ([Some 1; Some 3; Some 0; Some 5; Some 0; Some 8; Some 0; None; Some 0; Some 0; Some 0; Some 0; Some 0;
       None; None; None], true)].
Proof. unfold demo_done. eexists. split; [vm_compute; reflexivity|reflexivity]. Qed.

Lemma lit_bytes : forall s, Forall (fun c => c < 256) (lit s).
Proof.
  induction s as [|a s IH]; cbn [lit]; constructor; auto. apply Ascii.N_ascii_bounded.
Qed.

Lemma demo_writes : app_writes (any_char Narrow) demo.
Proof.
  intros c u. unfold writes. destruct c; cbn -[error_text lit].
  2,3: constructor.
  2,3,4: constructor; [|constructor]; cbn -[error_text lit]; unfold error_text;
    repeat (apply Forall_app; split); try apply lit_bytes; repeat constructor.
  constructor; [|constructor; [|constructor; [|constructor; [|constructor]]]]; cbn -[lit].
  - apply Forall_app. split; [apply lit_bytes|repeat constructor].
  - apply lit_bytes.
  - trivial.
  - apply Forall_forall. intros x X. apply in_map_iff in X. destruct X as (y & <- & _). apply N.mod_lt. discriminate.
Qed.

Lemma demo_tame : app_tame demo.
Proof. intros c u. destruct c; split; reflexivity. Qed.

(** Excess data: nine bytes announced to be seven. *)
Lemma demo_too_much : exists st st',
  lives_with (fun b _ => b) (repeat 0) (fun _ => 0%Z) Narrow demo demo_cfg 0 (demo_head ++ demo_body) st /\
  q_state st = 5 /\ e_contentLength (q_env st) = 7 /\ e_postBuffer (q_env st) = lit "x=a%20b" /\
  handler (fun b _ => b) (repeat 0) (fun _ => 0%Z) Narrow demo demo_cfg
    (demo_head ++ demo_body ++ [record_message 5 5 (lit "zz") [] 0]) (rq_init 0) = Done (true, [], st') /\
  q_ops st' = [(false, OpWrite (error_text "413 Request Entity Too Large"))].
Proof.
  do 2 eexists. split; [unfold lives_with; vm_compute; reflexivity|]. split; [reflexivity|].
  split; [reflexivity|]. split; [reflexivity|]. split; [vm_compute; reflexivity|reflexivity].
Qed.

Lemma handler_batches : forall vts junk http_time k (U : Type) (A : application U) cfg ms1 ms2 (st : rq U),
  handler vts junk http_time k A cfg (ms1 ++ ms2) st =
  match handler vts junk http_time k A cfg ms1 st with
  | Done (true, rest, st') => Done (true, rest ++ ms2, st')
  | Done (false, _, st') => handler vts junk http_time k A cfg ms2 st'
  | Spin => Spin
  | Undef => Undef
  end.
Proof.
  intros. rewrite handler_app. destruct (handler vts junk http_time k A cfg ms1 st) as [[[[] r] s]| |]; reflexivity.
Qed.
