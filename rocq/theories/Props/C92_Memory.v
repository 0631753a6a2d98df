(** C92: what one connection can make the server hold. *)
From Coq Require Import String List NArith ZArith Bool.
From Verif Require Import Model.Base Model.Protocol Model.Block Model.Transceiver Model.RequestMap Model.Streams Model.Environment
  Model.Request Model.System Spec.WireSpec Spec.EnvironmentSpec Spec.RequestSpec Spec.TransceiverSpec Spec.ManagerSpec Spec.SystemSpec
  Proofs.MemoryProofs Proofs.MemoryCases.
From Verif Require Model.Manager.
Import ListNotations.
Local Open Scope N_scope.

(** The memory kept for the record being read from a connection is never more
    than a record can be long: 8 bytes of header, 65535 of content, 255 of
    padding. *)
Theorem C92_input : forall vts junk http_time k {U} (A : application U) maxPost u (x : sys (U := U)),
  sreach vts junk http_time k A maxPost u x -> Forall ev_ok (y_tr x) -> forall s,
  (b_size (t_bufs (y_net x) s) <= b_reserve (t_bufs (y_net x) s))%nat /\
  N.of_nat (b_reserve (t_bufs (y_net x) s)) <= 8 + 65535 + 255.
Proof. exact (fun vts junk http_time k U A maxPost u => input_small vts junk http_time k A maxPost u). Qed.
Print Assumptions C92_input.

Example C92_input_case : forall vts junk http_time k {U} (A : application U) maxPost u,
  exists x : sys (U := U), sreach vts junk http_time k A maxPost u x /\ Forall ev_ok (y_tr x) /\
  b_size (t_bufs (y_net x) 1) = 10%nat /\ b_reserve (t_bufs (y_net x) 1) = 308%nat.
Proof. exact (fun vts junk http_time k U A maxPost u => part_held vts junk http_time k A maxPost u). Qed.

(** A connection never has more than 65534 requests at a time. *)
Theorem C92_requests : forall vts junk http_time k {U} (A : application U) maxPost u (x : sys (U := U)),
  sreach vts junk http_time k A maxPost u x -> Forall ev_ok (y_tr x) -> forall s,
  N.of_nat (length (filter (fun p => r_socket (fst p) =? s) (Manager.s_requests (y_man x)))) <= 65534.
Proof. exact (fun vts junk http_time k U A maxPost u => request_count vts junk http_time k A maxPost u). Qed.
Print Assumptions C92_requests.

Example C92_requests_case : forall vts junk http_time k {U} (A : application U) maxPost u,
  exists x : sys (U := U), sreach vts junk http_time k A maxPost u x /\ Forall ev_ok (y_tr x) /\
  length (filter (fun p => r_socket (fst p) =? 1) (Manager.s_requests (y_man x))) = 1%nat.
Proof. exact (fun vts junk http_time k U A maxPost u => one_request vts junk http_time k A maxPost u). Qed.

(** What the parameters of a request make the server keep has no bound:
    [maxPostSize] is for the body alone, and the parameters may come in any
    number of records. *)
Theorem C92_params_refuted : forall vts junk http_time k {U} (A : application U) cfg u n,
  (forall n, length (junk n) = n) -> c_role cfg = 1 \/ c_role cfg = 2 ->
  exists ms st, lives_with vts junk http_time k A cfg u ms st /\
    Forall (fun m => exists content, is_message 4 content m) ms /\ length (e_acceptLanguages (q_env st)) = n.
Proof. exact params_grow. Qed.
Print Assumptions C92_params_refuted.

Example C92_params_case : params_message lang_record lang_message /\ (forall n, length (repeat 0 n) = n) /\
  c_role (mkCfg 5 1 true 0) = 1.
Proof. exact (conj lang_ok (conj (fun n => repeat_length 0 n) eq_refl)). Qed.

(** The I/O thread reads however far the handling of requests is behind: the
    queue of messages of one request has no bound. *)
Theorem C92_queue_refuted : forall vts junk http_time k {U} (A : application U) maxPost u n,
  exists (x : sys (U := U)) o, sreach vts junk http_time k A maxPost u x /\ Forall ev_ok (y_tr x) /\
    map_find (mkRid 1 5) (Manager.s_requests (y_man x)) = Some o /\
    length (Manager.o_queue (Manager.s_objs (y_man x) o)) = n.
Proof. exact (fun vts junk http_time k U A maxPost u => queue_grows vts junk http_time k A maxPost u). Qed.
Print Assumptions C92_queue_refuted.
