(** Requests with multipart forms. *)
From Coq Require Import String List NArith ZArith Bool.
From Verif Require Import Model.Base Model.Protocol Model.WebMaps Model.Streams Model.Environment Model.Multipart
  Model.Request Spec.WireSpec Spec.StreamSpec Spec.AddressSpec Spec.EscapeSpec Spec.EnvironmentSpec Spec.RequestSpec
  Spec.MultipartSpec
  Proofs.RequestProofs Proofs.RequestBodyProofs Proofs.RequestLifeProofs Proofs.MultipartProofs.
Import ListNotations.
Local Open Scope N_scope.

Lemma multipart_seen : forall vts junk http_time k (U : Type) (A : application U) cfg address_of,
  (forall n, length (junk n) = n) ->
  (forall t a, address_text t a -> ~ compat_text t -> address_of t = a) ->
  forall u rs ms4 m4 ps bodies ms5 m5, c_id cfg < 65536 -> app_writes (any_char k) A -> app_plain A ->
  c_role cfg = 1 \/ c_role cfg = 2 ->
  Forall2 params_message rs ms4 -> is_message 4 [] m4 -> Forall2 (is_message 5) bodies ms5 ->
  Forall (fun c => c <> []) bodies -> is_message 5 [] m5 ->
  let e0 := describe vts http_time address_of env_init (concat (map p_params rs)) in
  e_contentLength e0 <= c_maxPost cfg -> len (concat bodies) <= e_contentLength e0 ->
  e_contentType e0 = lit "multipart/form-data" ->
  boundary_ok (e_boundary e0) -> Forall (part_ok (e_boundary e0)) ps ->
  concat bodies = multipart (e_boundary e0) ps ->
  exists st calls e,
    handler vts junk http_time k A cfg (ms4 ++ [m4] ++ ms5 ++ [m5]) (rq_init u)
      = Done (snd (a_call A (CResponse e m5) u), [], st) /\
    q_calls st = calls ++ [CInProcessor (set_postBuffer (concat bodies) e0); CResponse e m5] /\
    in_calls bodies calls /\
    e = set_files (e_files e0 ++ conv_uploads (fun l => vts l []) (uploads ps))
          (set_posts (e_posts e0 ++ conv_texts (fun l => vts l []) (texts ps)) (set_postBuffer [] e0)).
Proof.
  intros vts junk http_time k U A cfg ao J AD u rs ms4 m4 ps bodies ms5 m5 I W P R H4 E4 H5 N5 E5 e0 L1 L2 T BO F B.
  pose proof (multipart_body_parse vts junk (set_postBuffer (concat bodies) e0) ps BO F T B) as Q.
  destruct (whole_seen vts junk http_time k A cfg ao J AD u rs ms4 m4 bodies ms5 m5 _ I W P R H4 E4 H5 N5 E5 L1 L2 Q)
    as (st & calls & HH & HC & IC).
  do 3 eexists. split; [exact HH|]. split; [exact HC|]. split; [exact IC|reflexivity].
Qed.

Lemma quoted_boundary : exists ps, Forall (part_ok (lit "AaB03x")) ps /\ texts ps <> [] /\
  let e := set_postBuffer (multipart (lit "AaB03x") ps)
             (describe (fun b _ => b) (fun _ => 0%Z) (fun t => t) env_init
                [(lit "CONTENT_TYPE", lit "multipart/form-data; boundary=" ++ [34] ++ lit "AaB03x" ++ [34])]) in
  e_contentType e = lit "multipart/form-data" /\
  parsePostBuffer (fun b _ => b) (repeat 0) e = Done (true, e).
Proof.
  exists [TextPart (lit "n") []]. split; [|split; [discriminate|split; reflexivity]].
  constructor; [|constructor]. split; [|cbn; intuition discriminate].
  apply bounded_if.
  - cbn. intuition discriminate.
  - cbn. intuition discriminate.
  - left. discriminate.
  - intros [|x p] s; cbn; discriminate.
Qed.
