(** C44: SQL parameters and fields. *)
From Coq Require Import String List NArith ZArith Bool.
From Verif Require Import Model.Base Model.Sql Spec.EndianSpec Spec.StreamSpec Spec.PgSpec Spec.SqlSpec Proofs.SqlProofs.
Import ListNotations.
Local Open Scope N_scope.

(** The server receives for each parameter, of any type, the value it was
    made from. *)
Theorem C44_sent : forall strict t (v : val t), fits t v ->
  exists b, param strict t v = Val (map Some b) /\ bytes_ok b /\ pg_recv (fst (pg_of t)) (snd (pg_of t)) b = Some (means t v).
Proof. exact sent_ok. Qed.
Print Assumptions C44_sent.

(** With all parameters of a query, some of them null, go the right type
    numbers, formats and sizes. *)
Theorem C44_query : forall strict l, Forall (fun p => fits (projT1 (fst p)) (projT2 (fst p)) /\
    (forall m, param strict (projT1 (fst p)) (projT2 (fst p)) = Val m -> N.of_nat (length m) < 2 ^ 31) /\
    (snd p = true \/ fst p <> existT val BYTEA [])) l ->
  exists r, build strict l = Val r /\ Forall2 arrives l r.
Proof. exact build_ok. Qed.
Print Assumptions C44_query.

(** Except for a BYTEA of no bytes, which goes as a null. *)
Theorem C44_empty_bytea_refuted : forall strict l r i nul, build strict l = Val r -> nth_error l i = Some (existT val BYTEA [], nul) ->
  exists q, nth_error r i = Some q /\ q_raw q = None.
Proof. exact empty_bytea. Qed.
Print Assumptions C44_empty_bytea_refuted.

(** What the server sends is what the program gets. *)
Theorem C44_received : forall strict t (v : val t) p, fetched t v p -> field strict t (Some (pg_send (fst (pg_of t)) p)) (default t) = Got v.
Proof. exact field_ok. Qed.
Print Assumptions C44_received.

(** A value comes back from the server as it went. *)
Theorem C44_back : forall strict t (v : val t), fits t v ->
  field strict t (Some (pg_send (fst (pg_of t)) (means t v))) (default t) = Got v.
Proof. exact back_ok. Qed.
Print Assumptions C44_back.

(** Decoding the very bytes of a parameter gives its value again. *)
Theorem C44_direct : forall strict t (v : val t), fits t v ->
  exists b, param strict t v = Val (map Some b) /\ field strict t (Some b) (default t) = Got v.
Proof. exact direct_ok. Qed.
Print Assumptions C44_direct.

(** operator[] reads the elements. *)
Theorem C44_number_at : forall n l m i z, fits (ARRAY n) l -> array_num n l = Val m -> nth_error l i = Some z -> num_at n m (N.of_nat i) = Val z.
Proof. exact num_at_ok. Qed.
Print Assumptions C44_number_at.
Theorem C44_text_at : forall l m i x, fits ARRAY_TEXT l -> array_text l = Val m -> nth_error l i = Some x -> text_at m 20 i = Val x.
Proof. exact text_at_ok. Qed.
Print Assumptions C44_text_at.

(** An array whose encoding takes four gibibytes or more overruns its buffer. *)
Theorem C44_numbers_overflow_refuted : forall n l, 2 ^ 32 <= array_length (map (fun _ => N.to_nat (width n)) l) -> forall strict, param strict (ARRAY n) l = UB.
Proof. exact overflow_num. Qed.
Print Assumptions C44_numbers_overflow_refuted.
Theorem C44_texts_overflow_refuted : forall l, 2 ^ 32 <= array_length (map (@length N) l) -> array_text l = UB.
Proof. exact too_long. Qed.
Print Assumptions C44_texts_overflow_refuted.

(** An array made by its size lacks the length of its first element whatever
    is assigned to its elements. *)
Theorem C44_sized_refuted : forall n size m, sized n size m -> 0 < size -> 20 + size * (4 + width n) < 2 ^ 32 -> nth_error m 20 = Some None.
Proof. exact sized_open. Qed.
Print Assumptions C44_sized_refuted.

(** A wide text with a character there is no UTF-8 for goes as an empty text,
    and an array of them ends in front of it. *)
Theorem C44_wide_refuted : forall strict s, Exists (fun c => 0x10ffff < c) s -> param strict WTEXT s = Val [].
Proof. exact wide_lost. Qed.
Print Assumptions C44_wide_refuted.
Theorem C44_wide_array_refuted : forall strict a s b, Forall (Forall scalar) a -> Exists (fun c => 0x10ffff < c) s ->
  param strict ARRAY_WTEXT (a ++ s :: b) = param strict ARRAY_WTEXT a.
Proof. exact wides_lost. Qed.
Print Assumptions C44_wide_array_refuted.

(** Of an array with a null the program gets nothing at all. *)
Theorem C44_nulls_refuted : forall strict lower l, has_null l = true ->
  (forall n old, field strict (ARRAY n) (Some (pg_send (num_type n) (PArray lower l))) old = Got old) /\
  (forall old, field strict ARRAY_TEXT (Some (pg_send Text (PArray lower l))) old = Got old) /\
  (forall old, field strict ARRAY_WTEXT (Some (pg_send Text (PArray lower l))) old = Got old).
Proof. exact nulls_lost. Qed.
Print Assumptions C44_nulls_refuted.

(** An IPv4 address of the server goes back as an IPv6 address. *)
Theorem C44_address_refuted : forall strict b m, length b = 4%nat -> bytes_ok b ->
  exists a r, field strict INET (Some (pg_send Inet (PScalar (PInet4 m b)))) (default INET) = Got a /\ param strict INET a = Val (map Some r) /\
    pg_recv Inet false r = Some (PScalar (PInet6 128 (repeat 0 10 ++ [255; 255] ++ b))).
Proof. exact address_widened. Qed.
Print Assumptions C44_address_refuted.

(** 'infinity' is undefined to read, as times and as dates. *)
Theorem C44_time_refuted : forall strict z old, (2 ^ 63 - us_2000 <= z < 2 ^ 63)%Z -> field strict TIMESTAMPTZ (Some (pg_send Timestamptz (PScalar (PTimestamp z)))) old = Undefined.
Proof. exact time_undefined. Qed.
Print Assumptions C44_time_refuted.
Theorem C44_date_refuted : forall strict z old, (-2 ^ 31 <= z < 2 ^ 31)%Z -> ~ (-12687428 <= days_2000 + z <= 11248737)%Z ->
  field strict DATE (Some (pg_send Date (PScalar (PDate z)))) old = Undefined.
Proof. exact date_undefined. Qed.
Print Assumptions C44_date_refuted.

(** Texts of several lengths, one empty; numbers of both signs. *)
Example C44_ex : fits ARRAY_TEXT [[97; 98; 99]; []; [100]] /\ fits (ARRAY SMALLINT) [-1; 300; -32768]%Z /\
  param true (ARRAY SMALLINT) [-1; 300]%Z = Val (map Some [0; 0; 0; 1; 0; 0; 0; 0; 0; 0; 0; 21; 0; 0; 0; 2; 0; 0; 0; 1; 0; 0; 0; 2; 255; 255; 0; 0; 0; 2; 1; 44]) /\
  pg_recv Text true [0; 0; 0; 1; 0; 0; 0; 0; 0; 0; 0; 25; 0; 0; 0; 2; 0; 0; 0; 1; 0; 0; 0; 2; 104; 105; 0; 0; 0; 0] =
    Some (PArray 1 [Some (PText [104; 105]); Some (PText [])]).
Proof.
  repeat match goal with |- _ /\ _ => split end; try (vm_compute; reflexivity).
  - repeat constructor.
  - repeat constructor; cbn; discriminate.
Qed.
Example C44_ex_fetched : fetched INET (repeat 0 10 ++ [255; 255; 10; 0; 0; 1]) (PScalar (PInet4 32 [10; 0; 0; 1])) /\
  fetched (ARRAY BIGINT) [5; -7]%Z (PArray 4 [Some (PInt 8 5); Some (PInt 8 (-7))]).
Proof.
  split; cbn [fetched].
  - split; [repeat constructor|]; split; [reflexivity|]; right; exists 32, [10; 0; 0; 1]; split; reflexivity.
  - split; [split; [repeat constructor; cbn; discriminate|vm_compute; reflexivity]|]; exists 4%Z; reflexivity.
Qed.
(** One character too large loses the text it is in and all behind it. *)
Example C44_ex_lost : param true ARRAY_WTEXT [[233]; [0x110000]; [97]] = param true ARRAY_WTEXT [[233]] /\
  has_null [Some (PText [97]); None] = true /\ (2 ^ 63 - us_2000 <= 2 ^ 63 - 1 < 2 ^ 63)%Z.
Proof. split; [vm_compute; reflexivity|]; split; [reflexivity|]; split; vm_compute; congruence. Qed.
Example C44_ex_sized : exists m m', resize INTEGER 2 = Val m /\ set_at INTEGER m 0 7 = Val m' /\ nth_error m' 20 = Some None /\ nth_error m' 27 = Some (Some 7).
Proof. eexists; eexists; split; [vm_compute; reflexivity|]; split; [vm_compute; reflexivity|]; split; reflexivity. Qed.
(** A text of no bytes goes as what it is, a BYTEA of no bytes does not. *)
Example C44_ex_empty : exists a b, build true [(existT val TEXT [], false); (existT val BYTEA [], false)] = Val [a; b] /\
  arrives (existT val TEXT [], false) a /\ q_raw b = None /\ means BYTEA [] = PScalar (PBytea []).
Proof.
  eexists; eexists; split; [vm_compute; reflexivity|]; split; [|split; reflexivity].
  split; [reflexivity|]; split; [reflexivity|]; exists []; split; [reflexivity|]; split; [constructor|]; split; reflexivity.
Qed.
