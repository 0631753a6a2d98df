(** Vocabulary for text of applications with wide characters. *)
From Coq Require Import String List NArith.
From Verif Require Import Model.Base Model.Streams Model.Environment Spec.StreamSpec Spec.EscapeSpec Spec.MultipartSpec.
Import ListNotations.
Local Open Scope N_scope.

(** Hexadecimal digits in either case. *)
Definition hex_char (c v : N) : Prop :=
  v < 16 /\ (v < 10 /\ c = 48 + v \/ 10 <= v /\ (c = 55 + v \/ c = 87 + v)).

(** The texts a name or value may be written as in a form: each byte as it is
    unless that would be read otherwise, or as an escape; a space also as '+'. *)
Inductive escaped : list N -> list N -> Prop :=
| esc_nil : escaped [] []
| esc_plain : forall c t b, c < 256 -> ~ In c (lit "%+=&;") -> escaped t b -> escaped (c :: t) (c :: b)
| esc_plus : forall t b, escaped t b -> escaped (43 :: t) (32 :: b)
| esc_hex : forall h l hv lv t b, hex_char h hv -> hex_char l lv -> escaped t b ->
    escaped (37 :: h :: l :: t) ((16 * hv + lv) :: b).

(** The texts of a form: the fields in order, a separator between them. *)
Inductive form_text (sep : list N) : list N -> list (list N * list N) -> Prop :=
| ft_nil : form_text sep [] []
| ft_one : forall tn tv n v, escaped tn n -> escaped tv v -> form_text sep (tn ++ [61] ++ tv) [(n, v)]
| ft_more : forall tn tv n v t fs, escaped tn n -> escaped tv v -> fs <> [] -> form_text sep t fs ->
    form_text sep (tn ++ [61] ++ tv ++ sep ++ t) ((n, v) :: fs).

(** A field of a form in UTF-8. *)
Definition pair_utf8 (p : list N * list N) : list N * list N := (utf8 (fst p), utf8 (snd p)).

(** A page with the first field of the form the visitor sent. *)
Definition show_ops (e : env) : list sop :=
  match e_posts e with (n, v) :: _ => [OpWrite n; OpWrite (lit ": "); OpWrite v] | [] => [] end.

(** A part of a multipart form in UTF-8; the content of a file is any bytes. *)
Definition part_utf8 (p : part) : part :=
  match p with
  | TextPart n b => TextPart (utf8 n) (utf8 b)
  | FilePart n f t b => FilePart (utf8 n) (option_map utf8 f) (utf8 t) b
  end.
Definition part_text (p : part) : Prop :=
  match p with
  | TextPart n b => Forall scalar n /\ Forall scalar b
  | FilePart n f t _ => Forall scalar n /\ Forall scalar t /\ match f with Some f => Forall scalar f | None => True end
  end.
