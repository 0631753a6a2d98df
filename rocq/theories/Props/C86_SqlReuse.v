(** C86: a Parameters object assigned to and used for several queries. *)
From Coq Require Import List NArith ZArith Bool.
From Verif Require Import Model.Base Model.Sql Model.SqlReuse Spec.EndianSpec Spec.StreamSpec Spec.PgSpec Spec.SqlSpec Spec.SqlReuseSpec Proofs.SqlReuseProofs.
Import ListNotations.
Local Open Scope N_scope.

(** With the query goes what was last assigned, before it was queued or
    behind that; as nulls go the parameters setNull was called for before it
    was queued.  Between the queueing and the sending only parameters may be
    assigned to that are kept in the object itself or are null. *)
Theorem C86_sent : forall strict vals p0 l1 l2 p, make strict vals = Some p0 -> prun strict (l1 ++ PQueue :: l2) p0 = Some p -> ~ In PQueue l2 ->
  always strict vals (l1 ++ l2) -> (forall i t v mv, In (PAssign i t v mv) l2 -> in_place t = true \/ In (PNull i) l1) ->
  exists r, send_params p = Val r /\ length r = length vals /\
    forall i v, nth_error (values vals (l1 ++ l2)) i = Some v -> exists q, nth_error r i = Some q /\
      (In (PNull i) l1 -> arrives (v, true) q) /\ (~ In (PNull i) l1 -> given v q).
Proof. exact sent_values. Qed.
Print Assumptions C86_sent.

(** A parameter once set to null stays so, whatever is assigned to it. *)
Theorem C86_null_refuted : forall strict vals p0 l1 l2 p r i, make strict vals = Some p0 -> prun strict (l1 ++ PQueue :: l2) p0 = Some p -> ~ In PQueue l2 ->
  In (PNull i) l1 -> send_params p = Val r -> exists q, nth_error r i = Some q /\ q_raw q = None.
Proof. exact null_stays. Qed.
Print Assumptions C86_null_refuted.

(** An array assigned to, or a text whose memory thereby changes, while the
    query is queued: memory is read that is gone. *)
Theorem C86_gone_refuted : forall strict vals p0 l1 l2 i t v mv l3 p, make strict vals = Some p0 ->
  prun strict (l1 ++ PQueue :: l2 ++ PAssign i t v mv :: l3) p0 = Some p -> ~ In PQueue (l2 ++ l3) -> ~ In (PNull i) l1 ->
  in_place t = false -> t <> BYTEA -> (t = TEXT \/ t = WTEXT -> mv = true) -> send_params p = UB.
Proof. exact gone. Qed.
Print Assumptions C86_gone_refuted.

(** A text that stays where it is goes with the length of the old one, that
    is cut off, or with a zero and the end of the old one. *)
Theorem C86_mixed_refuted : forall strict (s s' : list N), N.of_nat (length s) < 2 ^ 31 -> exists p0 p q, make strict [existT val TEXT s] = Some p0 /\
  prun strict [PQueue; PAssign 0 TEXT s' false] p0 = Some p /\ send_params p = Val [q] /\ q_size q = Z.of_nat (length s) /\
  q_raw q = Some (map Some (firstn (length s) (s' ++ [0] ++ skipn (S (length s')) (s ++ [0])))).
Proof. exact mixed. Qed.
Print Assumptions C86_mixed_refuted.

(** A number, a text, an array and an empty BYTEA; the text and an element of
    the array are assigned, the query queued, and the number assigned. *)
Definition C86_vals : list {t : sqlty & val t} := [existT val (NUM INTEGER) 1%Z; existT val TEXT [97; 98]; existT val (ARRAY SMALLINT) [1; 2]%Z; existT val BYTEA []].
Definition C86_before : list pact := [PAssign 1 TEXT [120; 121; 122] true; PElement 2 1 7].
Definition C86_behind : list pact := [PAssign 0 (NUM INTEGER) 5%Z false].
Example C86_ex : exists p0 p a b c d, make true C86_vals = Some p0 /\ prun true (C86_before ++ PQueue :: C86_behind) p0 = Some p /\
  values C86_vals (C86_before ++ C86_behind) =
    [existT val (NUM INTEGER) 5%Z; existT val TEXT [120; 121; 122]; existT val (ARRAY SMALLINT) [1; 7]%Z; existT val BYTEA []] /\
  send_params p = Val [a; b; c; d] /\ q_raw a = Some (map Some [0; 0; 0; 5]) /\ q_raw b = Some (map Some [120; 121; 122]) /\ q_raw d = None.
Proof. do 6 eexists. repeat (split; [vm_compute; reflexivity|]). vm_compute; reflexivity. Qed.
Example C86_ex_always : always true C86_vals (C86_before ++ C86_behind).
Proof.
  apply always_firstn. intros n L. destruct n as [|[|[|[|n]]]]; [| | | |cbn in L; repeat apply le_S_n in L; inversion L];
    cbn [values fold_left value_after firstn app C86_before C86_behind C86_vals nth_error with_element]; repeat apply Forall_cons; try apply Forall_nil;
    (split; [|intros m M; vm_compute in M; injection M as <-; vm_compute; reflexivity]); repeat first [split | constructor | discriminate].
Qed.
(** Two queries with one object: when the first is sent late, both go with the
    values of the second. *)
Example C86_ex_shared : exists p0 p1 p2 q1 q2, make true [existT val (NUM INTEGER) 1%Z] = Some p0 /\ prun true [PQueue] p0 = Some p1 /\
  prun true [PAssign 0 (NUM INTEGER) 2%Z false; PQueue] p1 = Some p2 /\ send_params p1 = Val [q1] /\ q_raw q1 = Some (map Some [0; 0; 0; 1]) /\
  send_params p2 = Val [q2] /\ q_raw q2 = Some (map Some [0; 0; 0; 2]).
Proof. do 5 eexists. repeat (split; [vm_compute; reflexivity|]). vm_compute; reflexivity. Qed.
Example C86_ex_null : exists p0 p q, make true [existT val TEXT [97]] = Some p0 /\ prun true [PNull 0; PQueue; PAssign 0 TEXT [98] true; PQueue] p0 = Some p /\
  send_params p = Val [q] /\ q_raw q = None.
Proof. do 3 eexists. repeat (split; [vm_compute; reflexivity|]). vm_compute; reflexivity. Qed.
Example C86_ex_gone : exists p0 p, make true [existT val (ARRAY INTEGER) [1]%Z] = Some p0 /\ prun true [PQueue; PAssign 0 (ARRAY INTEGER) [2]%Z false] p0 = Some p /\
  send_params p = UB.
Proof. do 2 eexists. repeat (split; [vm_compute; reflexivity|]). vm_compute; reflexivity. Qed.
Example C86_ex_mixed : exists p0 p q, make true [existT val TEXT [97; 98; 99; 100]] = Some p0 /\ prun true [PQueue; PAssign 0 TEXT [120] false] p0 = Some p /\
  send_params p = Val [q] /\ q_raw q = Some (map Some [120; 0; 99; 100]).
Proof. do 3 eexists. repeat (split; [vm_compute; reflexivity|]). vm_compute; reflexivity. Qed.
