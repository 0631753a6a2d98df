(** The multipart/form-data format (RFC 7578, RFC 2046). *)
From Coq Require Import String List NArith.
From Verif Require Import Model.Base.
Import ListNotations.
Local Open Scope N_scope.

Definition crlf : list N := [13; 10].

(** A part: a text field or a file (perhaps without file name). *)
Inductive part :=
| TextPart (name body : list N)
| FilePart (name : list N) (filename : option (list N)) (type body : list N).

Definition part_body (p : part) : list N :=
  match p with TextPart _ b => b | FilePart _ _ _ b => b end.

Definition disposition (name : list N) : list N :=
  lit "Content-Disposition: form-data; name=" ++ [34] ++ name ++ [34].

(** Header lines, the last without its end of line. *)
Definition part_head (p : part) : list N :=
  match p with
  | TextPart n _ => disposition n
  | FilePart n f t _ =>
      disposition n
      ++ match f with Some f => lit "; filename=" ++ [34] ++ f ++ [34] | None => [] end
      ++ crlf ++ lit "Content-Type: " ++ t
  end.

Definition delimiter (boundary : list N) : list N := lit "--" ++ boundary.

(** The encoding of a list of parts. *)
Definition multipart (boundary : list N) (ps : list part) : list N :=
  flat_map (fun p => delimiter boundary ++ crlf ++ part_head p ++ crlf ++ crlf ++ part_body p ++ crlf) ps
  ++ delimiter boundary ++ lit "--" ++ crlf.

Definition boundary_ok (boundary : list N) : Prop :=
  boundary <> [] /\ ~ In 34 boundary /\ ~ In 32 boundary /\ ~ In 13 boundary.

(** The boundary first shows up where the encoding puts it. *)
Definition bounded_by (boundary body : list N) : Prop :=
  forall p s, body ++ crlf ++ delimiter boundary = p ++ boundary ++ s -> s = [].

Definition part_ok (boundary : list N) (p : part) : Prop :=
  bounded_by boundary (part_body p) /\
  match p with
  | TextPart n _ => ~ In 34 n
  | FilePart n f t _ =>
      ~ In 34 n /\ ~ In 13 t /\ ~ In 10 t /\ match f with Some f => ~ In 34 f | None => True end
  end.

(** What the parts mean. *)
Definition texts (ps : list part) : list (list N * list N) :=
  flat_map (fun p => match p with TextPart n b => [(n, b)] | _ => [] end) ps.
Definition uploads (ps : list part) : list (list N * (option (list N) * list N * list N)) :=
  flat_map (fun p => match p with FilePart n f t b => [(n, (f, t, b))] | _ => [] end) ps.

(** The same with texts converted; a missing file name is empty, the content
    of a file stays as it is. *)
Section Converted.
Variable conv : list N -> list N.
Definition conv_texts (l : list (list N * list N)) : list (list N * list N) :=
  map (fun f => (conv (fst f), conv (snd f))) l.
Definition conv_uploads (l : list (list N * (option (list N) * list N * list N)))
    : list (list N * (list N * list N * list N)) :=
  map (fun '(n, (f, t, b)) =>
    (conv n, (match f with Some f => conv f | None => [] end, conv t, b))) l.
End Converted.

(** A content found in any posted bytes whatever: what stands between an empty
    line and the next occurrence of the boundary, without the two bytes before
    the boundary, and without an end of line before these. *)
Definition cut_body (x body : list N) : Prop :=
  (length x < 2)%nat /\ body = [] \/
  exists d1 d2, x = body ++ crlf ++ [d1; d2] \/
    x = body ++ [d1; d2] /\ forall y, body <> y ++ crlf.

Definition posted_body (boundary buf body : list N) : Prop :=
  exists p x s, buf = p ++ crlf ++ crlf ++ x ++ boundary ++ s /\
    (forall a b, x ++ boundary = a ++ boundary ++ b -> b = []) /\ cut_body x body.
