(** Text forms of IPv6 addresses (RFC 4291, 2.2), written independently of the
    model. *)
From Coq Require Import String List NArith ZArith Bool.
From Verif Require Import Model.Base Spec.EndianSpec.
Import ListNotations.
Local Open Scope N_scope.

Definition is_address (a : list N) : Prop := length a = 16%nat /\ bytes_ok a.

(** The value of a digit character. *)
Inductive digit (base : N) : N -> N -> Prop :=
| digit_num : forall d, d < 10 -> d < base -> digit base (48 + d) d
| digit_upper : forall d, 10 <= d -> d < base -> digit base (65 + (d - 10)) d
| digit_lower : forall d, 10 <= d -> d < base -> digit base (97 + (d - 10)) d.

(** The value of a numeral. *)
Inductive numeral_of (base : N) : list N -> N -> Prop :=
| num_one : forall c d, digit base c d -> numeral_of base [c] d
| num_more : forall t v c d, numeral_of base t v -> digit base c d ->
    numeral_of base (t ++ [c]) (v * base + d).

(** One piece of an address between colons and the bytes it stands for: one
    to four hexadecimal digits, or a dotted quad. *)
Definition group_text (t bs : list N) : Prop :=
  (length t <= 4)%nat /\ exists v, numeral_of 16 t v /\ bs = be_digits 2 v.

Definition octet_text (t : list N) (v : N) : Prop :=
  (length t <= 3)%nat /\ numeral_of 10 t v /\ v < 256.

Definition quad_text (t bs : list N) : Prop :=
  exists t1 t2 t3 t4 v1 v2 v3 v4,
    octet_text t1 v1 /\ octet_text t2 v2 /\ octet_text t3 v3 /\ octet_text t4 v4 /\
    t = t1 ++ [46] ++ t2 ++ [46] ++ t3 ++ [46] ++ t4 /\ bs = [v1; v2; v3; v4].

(** Pieces separated by colons; a quad only in last place. *)
Inductive pieces_text : list N -> list N -> Prop :=
| pt_group : forall t bs, group_text t bs -> pieces_text t bs
| pt_quad : forall t bs, quad_text t bs -> pieces_text t bs
| pt_more : forall t bs t' bs', group_text t bs -> pieces_text t' bs' ->
    pieces_text (t ++ [58] ++ t') (bs ++ bs').

(** Groups separated by colons, possibly none. *)
Inductive groups_text : list N -> list N -> Prop :=
| gt_none : groups_text [] []
| gt_some : forall t bs, pieces_text t bs -> ~ In 46 t -> groups_text t bs.

(** The addresses texts stand for: all eight groups; "::" for one or more
    groups of zeros; the dotted quad alone for an IPv4-mapped address. *)
Inductive address_text : list N -> list N -> Prop :=
| at_full : forall t bs, pieces_text t bs -> length bs = 16%nat -> address_text t bs
| at_gap : forall t1 b1 t2 b2 n,
    groups_text t1 b1 -> (t2 = [] /\ b2 = [] \/ pieces_text t2 b2) ->
    (length b1 + n + length b2 = 16)%nat -> (2 <= n)%nat ->
    address_text (t1 ++ [58; 58] ++ t2) (b1 ++ repeat 0 n ++ b2)
| at_quad : forall t bs, quad_text t bs ->
    address_text t (repeat 0 10 ++ [255; 255] ++ bs).

(** Texts of the deprecated form "::a.b.c.d". *)
Definition compat_text (t : list N) : Prop := exists q bs, quad_text q bs /\ t = [58; 58] ++ q.

(** What may follow an address in a stream: the end of the input, or a
    character that cannot continue the text. *)
Definition text_ends (after : list N) : Prop :=
  match after with
  | [] => True
  | c :: _ => c <> 46 /\ c <> 58 /\ forall d, ~ digit 16 c d
  end.

(** Bit [k] of byte [i]. *)
Definition bit (a : list N) (i : nat) (k : N) : bool := N.testbit (nth i a 0) k.

(** White space in the "C" locale. *)
Definition blank (c : N) : Prop := In c [9; 10; 11; 12; 13; 32].
