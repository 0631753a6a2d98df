(** C78: an HTTP client object over several requests. *)
From Coq Require Import String List NArith ZArith Bool Arith.
From Verif Require Import Model.Base Model.WebMaps Model.Streams Model.Chunks Model.Curl Model.Sql Model.CurlObject
  Spec.StreamSpec Spec.ChunkSpec Spec.CurlSpec Spec.CurlObjectSpec Proofs.CurlObjectProofs.
Import ListNotations.

(** Whatever was done before a reset: the next request has the last address,
    the certificate checks and the text given since, and the response is that
    of this request.  Headers are all ever given, and the encoding stays. *)
Theorem C78_request : forall fuel ver strict eager pre s us s1, nrun fuel ver strict eager pre nnew = Done s -> Forall compose us ->
  nrun fuel ver strict eager (UReset true :: us) s = Done s1 ->
  forall who offers es r, Forall (fun n => n < 2 ^ 32)%N offers ->
  respond narrow_event es resp_init = RGood r \/ respond narrow_event es resp_init = RShort r ->
  exists s2, nrun fuel ver strict eager [UPerform who offers es] s1 = Done s2 /\
    o_log s2 = o_log s ++ [(asked_for ver strict (given (header_of_op strict) (pre ++ us)) us
                              (ctext (enc_after E_NONE (texts pre)) (texts us)) offers, r)].
Proof. exact narrow_request. Qed.
Print Assumptions C78_request.

(** The same for wide strings, where composing always ends well. *)
Theorem C78_request_wide : forall fuel ver strict eager pre s us, wrun fuel ver strict eager pre wnew = Done s -> Forall compose us ->
  Forall cop_scalar (texts us) -> size_of (texts us) + chunkCap + 2 <= fuel ->
  forall who offers es r, Forall (fun n => n < 2 ^ 32)%N offers ->
  respond (wide_event strict) es resp_init = RGood r \/ respond (wide_event strict) es resp_init = RShort r ->
  exists s2, wrun fuel ver strict eager (UReset true :: us ++ [UPerform who offers es]) s = Done s2 /\
    o_log s2 = o_log s ++ [(asked_for ver strict (given (header_of_op strict) (pre ++ us)) us
                              (utf8 (ctext (enc_after E_NONE (texts pre)) (texts us))) offers, r)].
Proof. exact wide_request. Qed.
Print Assumptions C78_request_wide.

(** Without a reset: once a narrow body was sent, the next request is
    undefined behaviour (unless the body ended exactly with a chunk). *)
Theorem C78_again_refuted : forall fuel ver strict eager us s1 who offers es s2, Forall compose us -> nrun fuel ver strict eager us nnew = Done s1 ->
  length (ctext E_NONE (texts us)) mod chunkCap <> 0 -> Forall (fun n => n < 2 ^ 32)%N offers ->
  length (ctext E_NONE (texts us)) <= N.to_nat (fold_right N.add 0%N offers) ->
  nrun fuel ver strict eager [UPerform who offers es] s1 = Done s2 ->
  forall who' offers' es', nrun fuel ver strict eager [UPerform who' offers' es'] s2 = Undef.
Proof. exact again_undefined. Qed.
Print Assumptions C78_again_refuted.

(** Without a reset the second response is added to the first: its data comes
    behind, and of its headers those with a new name. *)
Theorem C78_added : forall fuel ver strict eager o who1 off1 es1 who2 off2 es2 s2, o_resp o = resp_init -> no_length es1 -> no_length es2 ->
  nrun fuel ver strict eager [UPerform who1 off1 es1; UPerform who2 off2 es2] o = Done s2 ->
  r_data (o_resp s2) = Val (map Some (body_of es1 ++ body_of es2))
  /\ forall k, lookup k (r_headers (o_resp s2)) = lookup k (headers_of (lines_of es1 ++ lines_of es2)).
Proof. exact added. Qed.
Print Assumptions C78_added.

(** Once it has been queued nothing written to it counts. *)
Theorem C78_ignored : forall fuel ver strict eager o offers es s2 ts, nrun fuel ver strict eager [UPerform true offers es] o = Done s2 ->
  Forall writes ts -> nrun fuel ver strict eager (map (UText true) ts) s2 = Done s2.
Proof. exact ignored. Qed.
Print Assumptions C78_ignored.

(** ** Cases *)
Definition c78_url : uop := UUrl (lit "https://a/").
Definition c78_hi : uop := UText true (CWrite (lit "hi")).
Definition c78_ok : list rev_ := [RHeader (lit "X: 1"); RData (lit "one")].
Definition c78_last {Dev} (r : run (cobj Dev)) : option request :=
  match r with Done o => option_map fst (latest (o_log o)) | _ => None end.

Definition c78_pre : list uop := [c78_url; UHeader (lit "A: 1"); UVerify false; c78_hi; UPerform true [1; 9]%N c78_ok].
Definition c78_us : list uop := [UUrlW [104; 58; 233]%N; UHeader (lit "B: 2"); UText true (CWrite (lit "a<b"))].
Example C78_ex_request : Forall compose c78_us /\
  c78_last (nrun 50 CurlNew true true (c78_pre ++ UReset true :: c78_us ++ [UPerform true [2; 2]%N c78_ok]) nnew) =
    Some (mkQ (Some [104; 58; 195; 169]%N) (Some 3%N) [lit "A: 1"; lit "B: 2"] true 2 [lit "a<"; lit "b"])
  /\ c78_last (wrun (N.to_nat 4200) CurlNew true true (c78_pre ++ UReset true :: c78_us ++ [UPerform true [2; 2]%N c78_ok]) wnew) =
    Some (mkQ (Some [104; 58; 195; 169]%N) (Some 3%N) [lit "A: 1"; lit "B: 2"] true 2 [lit "a<"; lit "b"]).
Proof. split; [repeat constructor|]. split; vm_compute; reflexivity. Qed.

(** REFUTED: reset makes it as new.  Headers given before are sent again ... *)
Theorem C78_headers_refuted : exists pre us who offers es q,
  c78_last (nrun 50 CurlNew true true (pre ++ UReset true :: us ++ [UPerform who offers es]) nnew) = Some q /\
  given (header_of_op true) us = [] /\ q_headers q = [lit "Authorization: secret"].
Proof.
  exists [UHeader (lit "Authorization: secret"); UPerform true [] c78_ok], [c78_url], true, [], c78_ok. eexists.
  split; [vm_compute; reflexivity|]. split; reflexivity.
Qed.
Print Assumptions C78_headers_refuted.
(** ... and an encoding set before is used. *)
Theorem C78_encoding_refuted : exists pre us who offers es q,
  c78_last (nrun 50 CurlNew true true (pre ++ UReset true :: us ++ [UPerform who offers es]) nnew) = Some q /\
  texts us = [CWrite (lit "<")] /\ concat (q_body q) = lit "&lt;".
Proof.
  exists [UText true (CEnc E_HTML); UPerform true [] c78_ok], [UText true (CWrite (lit "<"))], true, [9%N], c78_ok. eexists.
  split; [vm_compute; reflexivity|]. split; reflexivity.
Qed.
Print Assumptions C78_encoding_refuted.

(** REFUTED: asking for verification gets it: between 7.28.1 and 7.65 libcurl
    leaves the check of the name off once it was off, before it never checks
    the name. *)
Theorem C78_verify_refuted : exists us,
  latest (given verify_of us) = Some true /\
  option_map q_host (c78_last (nrun 50 CurlRefuses true true (us ++ [UPerform true [] c78_ok]) nnew)) = Some 0%N /\
  option_map q_host (c78_last (nrun 50 CurlOld true true (us ++ [UPerform true [] c78_ok]) nnew)) = Some 1%N /\
  option_map q_host (c78_last (nrun 50 CurlNew true true (us ++ [UPerform true [] c78_ok]) nnew)) = Some 2%N.
Proof. exists [c78_url; UVerify false; UVerify true]. repeat split; vm_compute; reflexivity. Qed.
Print Assumptions C78_verify_refuted.

(** REFUTED: a request goes to the address set last: one that cannot be
    converted leaves the one before. *)
Theorem C78_url_refuted : exists us s,
  option_map q_url (c78_last (nrun 50 CurlNew true true (us ++ [UUrlW s; UPerform true [] c78_ok]) nnew)) = Some (Some (lit "https://a/")) /\ s <> lit "https://a/".
Proof. exists [c78_url], [0xd800%N]. split; [vm_compute; reflexivity|discriminate]. Qed.
Print Assumptions C78_url_refuted.

(** REFUTED: a wide body can be sent again: the second request is a GET. *)
Theorem C78_again_wide_refuted :
  c78_last (wrun (N.to_nat 4200) CurlNew true true [c78_url; c78_hi; UPerform true [9]%N c78_ok; UPerform true [9]%N c78_ok] wnew) =
    Some (mkQ (Some (lit "https://a/")) None [] true 2 []).
Proof. vm_compute. reflexivity. Qed.
Print Assumptions C78_again_wide_refuted.

(** REFUTED: an announced length is harmless without a reset.  The data of
    the former response becomes undetermined, and where the second length is
    the smaller one memory not owned is read. *)
Definition c78_say (n v : string) : list rev_ := [RHeader (lit "Content-Length: " ++ lit n); RData (lit v)].
Theorem C78_length_refuted : exists es1 es2 es3 s,
  Forall length_ok (lines_of es1 ++ lines_of es2 ++ lines_of es3) /\
  length_first false es1 = true /\ length_first false es2 = true /\ length_first false es3 = true /\
  nrun 50 CurlNew true true [c78_url; UPerform true [] es1; UPerform true [] es2] nnew = Done s /\
  r_data (o_resp s) = Val [None; None; Some 104%N; Some 111%N] /\
  nrun 50 CurlNew true true [c78_url; UPerform true [] es1; UPerform true [] es3] nnew = Undef.
Proof.
  exists (c78_say "2" "hi"), (c78_say "2" "ho"), (c78_say "1" "x"). eexists. split.
  - repeat apply Forall_cons; try apply Forall_nil; intros _;
      [exists (lit "Content-Length"), (lit "2")|exists (lit "Content-Length"), (lit "2")|exists (lit "Content-Length"), (lit "1")];
      (split; [vm_compute; reflexivity|]; split; [discriminate|]; split; [|vm_compute; reflexivity];
       constructor; [split; vm_compute; discriminate|constructor]).
  - split; [vm_compute; reflexivity|]. split; [vm_compute; reflexivity|]. split; [vm_compute; reflexivity|].
    split; [vm_compute; reflexivity|]. split; vm_compute; reflexivity.
Qed.
Print Assumptions C78_length_refuted.

(** REFUTED: a copy can do all but write.  Queued through a copy, the original
    writes to memory that is gone; reset through a copy, it loses what it
    writes; setting an encoding on a copy is undefined. *)
Theorem C78_copy_refuted :
  nrun 50 CurlNew true true [c78_hi; UPerform false [9]%N c78_ok; c78_hi] nnew = Undef /\
  option_map q_post (c78_last (nrun 50 CurlNew true true [c78_hi; UPerform true [9]%N c78_ok; UReset false; c78_hi; UPerform false [9]%N c78_ok] nnew)) = Some None /\
  nrun 50 CurlNew true true [UText false (CEnc E_HTML)] nnew = Undef.
Proof. repeat split; vm_compute; reflexivity. Qed.
Print Assumptions C78_copy_refuted.

(** REFUTED: a closed stream may be flushed, where flush looks at no state. *)
Theorem C78_flush_refuted :
  nrun 50 CurlNew true true [c78_hi; UPerform true [9]%N c78_ok; UText true CFlush] nnew = Undef.
Proof. vm_compute. reflexivity. Qed.
Print Assumptions C78_flush_refuted.

Example C78_ex_again : exists s1 s2, nrun 50 CurlNew true true [c78_url; c78_hi] nnew = Done s1 /\
  length (ctext E_NONE (texts [c78_url; c78_hi])) = 2 /\ nrun 50 CurlNew true true [UPerform true [9]%N c78_ok] s1 = Done s2 /\
  nrun 50 CurlNew true true (map (UText true) [CWrite (lit "x"); CPut 65%N]) s2 = Done s2 /\
  nrun 50 CurlNew true true [UReset true; c78_hi] s2 <> Undef.
Proof. do 2 eexists. split; [vm_compute; reflexivity|]. split; [reflexivity|]. split; [vm_compute; reflexivity|]. split; vm_compute; [reflexivity|discriminate]. Qed.
Example C78_ex_added : no_length c78_ok /\ exists s2,
  nrun 50 CurlNew true true [UPerform true [] c78_ok; UPerform true [] [RHeader (lit "X: 2"); RData (lit "two")]] nnew = Done s2 /\
  r_data (o_resp s2) = Val (map Some (lit "onetwo")) /\ lookup (lit "X") (r_headers (o_resp s2)) = Some (lit "1").
Proof. split; [repeat constructor|]. eexists. split; [vm_compute; reflexivity|]. split; vm_compute; reflexivity. Qed.
