(** C35: multipart forms. *)
From Coq Require Import String List NArith ZArith Bool.
From Verif Require Import Model.Base Model.Protocol Model.WebMaps Model.Streams Model.Environment Model.Multipart
  Model.Request Spec.WireSpec Spec.StreamSpec Spec.AddressSpec Spec.EscapeSpec Spec.EnvironmentSpec Spec.RequestSpec
  Spec.MultipartSpec
  Proofs.RequestProofs Proofs.RequestBodyProofs Proofs.RequestLifeProofs Proofs.MultipartProofs
  Proofs.MultipartRequestProofs Proofs.MultipartAnyProofs.
Import ListNotations.
Local Open Scope N_scope.

(** The encoding of any parts parses to exactly these text fields and files,
    in order; contents of files byte for byte, texts through the string
    conversion [vts] (the identity for narrow strings). *)
Theorem C35_round_trip : forall vts e ps,
  boundary_ok (e_boundary e) -> Forall (part_ok (e_boundary e)) ps ->
  e_postBuffer e = multipart (e_boundary e) ps ->
  parsePostsMultipart vts e =
  Done (set_files (e_files e ++ conv_uploads (fun l => vts l []) (uploads ps))
         (set_posts (e_posts e ++ conv_texts (fun l => vts l []) (texts ps)) e)).
Proof. exact multipart_parse. Qed.
Print Assumptions C35_round_trip.

(** The condition on bodies is met if the boundary does not occur in the
    body, and has no end of line and some character other than a dash. *)
Theorem C35_bounded : forall boundary body, ~ In 13 boundary -> ~ In 10 boundary ->
  Exists (fun c => c <> 45) boundary ->
  (forall p s, body <> p ++ boundary ++ s) -> bounded_by boundary body.
Proof. exact bounded_if. Qed.
Print Assumptions C35_bounded.

(** A request carrying such a form, its body cut anywhere: the response sees
    the fields and files. *)
Theorem C35_request : forall vts junk http_time k (U : Type) (A : application U) cfg address_of,
  (forall n, length (junk n) = n) ->
  (forall t a, address_text t a -> ~ compat_text t -> address_of t = a) ->
  forall u rs ms4 m4 ps bodies ms5 m5, c_id cfg < 65536 -> app_writes (any_char k) A -> app_plain A ->
  c_role cfg = 1 \/ c_role cfg = 2 ->
  Forall2 params_message rs ms4 -> is_message 4 [] m4 -> Forall2 (is_message 5) bodies ms5 ->
  Forall (fun c => c <> []) bodies -> is_message 5 [] m5 ->
  let e0 := describe vts http_time address_of env_init (concat (map p_params rs)) in
  e_contentLength e0 <= c_maxPost cfg -> len (concat bodies) <= e_contentLength e0 ->
  e_contentType e0 = lit "multipart/form-data" ->
  boundary_ok (e_boundary e0) -> Forall (part_ok (e_boundary e0)) ps ->
  concat bodies = multipart (e_boundary e0) ps ->
  exists st calls e,
    handler vts junk http_time k A cfg (ms4 ++ [m4] ++ ms5 ++ [m5]) (rq_init u)
      = Done (snd (a_call A (CResponse e m5) u), [], st) /\
    q_calls st = calls ++ [CInProcessor (set_postBuffer (concat bodies) e0); CResponse e m5] /\
    in_calls bodies calls /\
    e = set_files (e_files e0 ++ conv_uploads (fun l => vts l []) (uploads ps))
          (set_posts (e_posts e0 ++ conv_texts (fun l => vts l []) (texts ps)) (set_postBuffer [] e0)).
Proof. exact multipart_seen. Qed.
Print Assumptions C35_request.

(** Any body whatever is parsed in bounded time and without leaving the
    buffer; nothing but fields and files is added. *)
Theorem C35_any_body : forall vts e, exists posts files,
  parsePostsMultipart vts e = Done (set_files (e_files e ++ files) (set_posts (e_posts e ++ posts) e)).
Proof. exact multipart_total. Qed.
Print Assumptions C35_any_body.

(** And every content handed over, of a file or (converted) of a field, is a
    stretch of the body between an empty line and the next boundary; nothing
    is taken off it but the two bytes before the boundary and an end of line
    before these. *)
Theorem C35_any_content : forall vts e, exists posts files,
  parsePostsMultipart vts e = Done (set_files (e_files e ++ files) (set_posts (e_posts e ++ posts) e)) /\
  Forall (fun f => posted_body (e_boundary e) (e_postBuffer e) (snd (snd f))) files /\
  Forall (fun t => exists body, posted_body (e_boundary e) (e_postBuffer e) body /\ snd t = vts body []) posts.
Proof. exact multipart_any. Qed.
Print Assumptions C35_any_content.

(** A body without end of line before the boundary. *)
Example C35_example_any :
  let e := set_postBuffer (disposition (lit "a") ++ crlf ++ crlf ++ lit "xy--B")
             (describe (fun b _ => b) (fun _ => 0%Z) (fun t => t) env_init
                [(lit "CONTENT_TYPE", lit "multipart/form-data; boundary=B")]) in
  parsePostsMultipart (fun b _ => b) e = Done (set_files [] (set_posts [(lit "a", lit "xy")] e)) /\
  posted_body (e_boundary e) (e_postBuffer e) (lit "xy").
Proof.
  split; [vm_compute; reflexivity|]. exists (disposition (lit "a")), (lit "xy--"), []. split; [reflexivity|]. split.
  - intros a b H. change ([120; 121; 45; 45; 66] = a ++ [66] ++ b) in H.
    do 4 (destruct a as [|? a]; [discriminate H|]; injection H as _ H).
    destruct a as [|? a]; [now injection H|]. now destruct a.
  - right. exists 45, 45. right. split; [reflexivity|]. intros y Y.
    change ([120; 121] = y ++ [13; 10]) in Y. do 2 (destruct y as [|? y]; [discriminate Y|]). now destruct y.
Qed.

(** A text field whose content ends in an end of line and looks like a
    header, a file with a file name, and one without. *)
Definition c35_parts : list part :=
  [TextPart (lit "a") (lit "name=" ++ [34; 13; 10; 13; 10]);
   FilePart (lit "b") (Some (lit "x.bin")) (lit "application/octet-stream") ([0; 255] ++ lit "--AaB03" ++ [13; 10]);
   FilePart (lit "c") None (lit "text/plain") []].

Definition c35_params : list (list N * list N) :=
  [(lit "CONTENT_TYPE", lit "multipart/form-data; boundary=--AaB03x")].

Lemma c35_bounded : forall body, (forall i, (i <= length body)%nat ->
    prefixb (lit "--AaB03x") (skipn i body) = false) ->
  bounded_by (lit "--AaB03x") body.
Proof.
  intros body H. apply bounded_if.
  - cbn. intuition discriminate.
  - cbn. intuition discriminate.
  - cbn. right. right. left. discriminate.
  - intros p s E. specialize (H (length p)). rewrite E in H at 2. rewrite skipn_len_app, prefixb_self in H.
    rewrite E, !app_length in H. discriminate (H (PeanoNat.Nat.le_add_r _ _)).
Qed.

Example C35_example :
  let e := set_postBuffer (multipart (lit "--AaB03x") c35_parts)
             (describe (fun b _ => b) (fun _ => 0%Z) (fun t => t) env_init c35_params) in
  e_contentType e = lit "multipart/form-data" /\ e_boundary e = lit "--AaB03x" /\
  boundary_ok (e_boundary e) /\ Forall (part_ok (e_boundary e)) c35_parts /\
  texts c35_parts = [(lit "a", lit "name=" ++ [34; 13; 10; 13; 10])] /\ length (uploads c35_parts) = 2%nat.
Proof.
  cbv zeta. split; [reflexivity|]. split; [reflexivity|]. split.
  - repeat split; cbn; [discriminate| | |]; intuition discriminate.
  - split; [|split; reflexivity].
    assert (P : forall n l, forallb (fun i => negb (prefixb (lit "--AaB03x") (skipn i l))) (seq 0 (S (length l))) = true ->
                n = length l -> bounded_by (lit "--AaB03x") l).
    { intros n l H _. apply c35_bounded. intros i L. rewrite forallb_forall in H.
      specialize (H i). rewrite in_seq in H. apply negb_true_iff, H. split; [apply PeanoNat.Nat.le_0_l|].
      cbn. apply le_n_S. exact L. }
    repeat constructor; try (eapply P; reflexivity); cbn; intuition discriminate.
Qed.

(** A client that quotes the boundary parameter, as it may (RFC 2046 5.1.1),
    has its whole form ignored: the quotes are taken for a part of the
    boundary. *)
Theorem C35_quoted_boundary_refuted : exists ps, Forall (part_ok (lit "AaB03x")) ps /\ texts ps <> [] /\
  let e := set_postBuffer (multipart (lit "AaB03x") ps)
             (describe (fun b _ => b) (fun _ => 0%Z) (fun t => t) env_init
                [(lit "CONTENT_TYPE", lit "multipart/form-data; boundary=" ++ [34] ++ lit "AaB03x" ++ [34])]) in
  e_contentType e = lit "multipart/form-data" /\
  parsePostBuffer (fun b _ => b) (repeat 0) e = Done (true, e).
Proof. exact quoted_boundary. Qed.
Print Assumptions C35_quoted_boundary_refuted.
