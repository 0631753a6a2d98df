(** Vocabulary for statements about a request of the HTTP client. *)
From Coq Require Import String List NArith ZArith Bool Arith.
From Verif Require Import Model.Base Model.Curl Spec.EscapeSpec Spec.StreamSpec.
Import ListNotations.

(** How a reader of [body] is served who asks for [offers] bytes in turn. *)
Fixpoint hand_out (body : list N) (offers : list N) : list (list N) :=
  match offers with
  | [] => []
  | n :: r => firstn (N.to_nat n) body :: hand_out (skipn (N.to_nat n) body) r
  end.

(** POST with the length of the body, GET when there is none. *)
Definition announced (body : list N) : option N :=
  match body with [] => None | _ => Some (N.of_nat (length body)) end.

(** A header line: the name up to the first colon, and behind it the value
    without the white space around it. *)
Definition white (c : N) : bool := existsb (N.eqb c) [32; 9; 10; 13]%N.
Fixpoint strip_by (f : N -> bool) (l : list N) : list N :=
  match l with c :: r => if f c then strip_by f r else l | [] => [] end.
Definition trim_by (f : N -> bool) (l : list N) : list N := rev (strip_by f (rev (strip_by f l))).
Definition header_of (line : list N) : option (list N * list N) :=
  match cut_char 58%N line with
  | None => None
  | Some (k, v) => Some (k, trim_by white v)
  end.

Fixpoint headers_of (lines : list (list N)) : list (list N * list N) :=
  match lines with
  | [] => []
  | l :: r => match header_of l with Some h => h :: headers_of r | None => headers_of r end
  end.

(** The value under a name: in a list with possible repetitions, the first. *)
Fixpoint lookup (k : list N) (hs : list (list N * list N)) : option (list N) :=
  match hs with
  | [] => None
  | (k', v) :: r => if list_eqb k' k then Some v else lookup k r
  end.

(** What a response consists of. *)
Fixpoint lines_of (es : list rev_) : list (list N) :=
  match es with [] => [] | RHeader l :: r => l :: lines_of r | RData _ :: r => lines_of r end.
Fixpoint body_of (es : list rev_) : list N :=
  match es with [] => [] | RHeader _ :: r => body_of r | RData d :: r => d ++ body_of r end.

(** Headers that announce the length. *)
Definition names_length (line : list N) : bool :=
  match header_of line with
  | Some (k, _) => list_eqb k (lit "Content-Length") || list_eqb k (lit "content-length")
  | None => false
  end.
Definition number (l : list N) : Z := fold_left (fun a c => (10 * a + (Z.of_N c - 48))%Z) l 0%Z.
(** They carry a decimal number below 2^31. *)
Definition length_ok (line : list N) : Prop := names_length line = true ->
  exists k v, header_of line = Some (k, v) /\ v <> [] /\ Forall (fun c => 48 <= c <= 57)%N v /\ (number v < 2 ^ 31)%Z.
(** None of them comes after data. *)
Fixpoint length_first (seen : bool) (es : list rev_) : bool :=
  match es with
  | [] => true
  | RHeader l :: r => negb (seen && names_length l) && length_first seen r
  | RData _ :: r => length_first true r
  end.

(** A response given in characters, and how it travels. *)
Definition event_utf8 (e : rev_) : rev_ := match e with RHeader l => RHeader (utf8 l) | RData d => RData (utf8 d) end.
Definition event_scalar (e : rev_) : Prop := match e with RHeader l => Forall scalar l | RData d => Forall scalar d end.
