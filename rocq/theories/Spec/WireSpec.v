(** The FastCGI 1.0 wire format, written independently of the model. *)
From Coq Require Import String List NArith ZArith.
From Verif Require Import Model.Base Spec.EndianSpec.
Import ListNotations.
Local Open Scope N_scope.

Definition len (l : list N) : N := N.of_nat (length l).

(** A FastCGI record: version 1, type, request id, content, padding and the
    reserved byte. *)
Definition record_bytes (type id : N) (content padding : list N) (reserved : N) : list N :=
  [1; type] ++ be_digits 2 id ++ be_digits 2 (len content) ++ [len padding; reserved]
  ++ content ++ padding.

(** [bytes] is one well-formed record of the given type and id carrying
    exactly [content]. *)
Definition is_record (type id : N) (content bytes : list N) : Prop :=
  len content <= 65535 /\
  exists padding reserved,
    len padding <= 255 /\ bytes = record_bytes type id content padding reserved.

(** Length field of a name-value pair: one byte below 128, or four bytes with
    the top bit set. *)
Inductive len_encoding (n : N) : list N -> Prop :=
| short_len : n <= 127 -> len_encoding n [n]
| long_len : n < 2 ^ 31 -> len_encoding n (be_digits 4 (2 ^ 31 + n)).

(** Encoding of a name-value pair. *)
Definition pair_encoding (name value bytes : list N) : Prop :=
  exists ln lv, len_encoding (len name) ln /\ len_encoding (len value) lv /\
    bytes = ln ++ lv ++ name ++ value.

(** A concrete byte string that memory with indeterminate bytes may turn out
    to be. *)
Definition may_be (o : list (option N)) (bytes : list N) : Prop :=
  Forall2 (fun x b => b < 256 /\ match x with Some v => b = v | None => True end) o bytes.

(** The variables of GET_VALUES (FastCGI 1.0, 4.1) and the values this
    application gives. *)
Inductive known_value : list N -> list N -> Prop :=
| kv_conns : known_value (lit "FCGI_MAX_CONNS") (lit "10")
| kv_reqs : known_value (lit "FCGI_MAX_REQS") (lit "50")
| kv_mpxs : known_value (lit "FCGI_MPXS_CONNS") (lit "1").
