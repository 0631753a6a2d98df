(** Percent-encoding, HTML escaping and form encoding, written independently
    of the model. *)
From Coq Require Import String List NArith ZArith Bool.
From Verif Require Import Model.Base.
Import ListNotations.
Local Open Scope N_scope.

(** Value of a hexadecimal digit; 0 for anything else. *)
Definition hexval (c : N) : N :=
  if (48 <=? c) && (c <=? 57) then c - 48
  else if (65 <=? c) && (c <=? 70) then c - 55
  else if (97 <=? c) && (c <=? 102) then c - 87
  else 0.

(** Decoding of application/x-www-form-urlencoded text.  An escape cut off by
    the end of the text yields nothing. *)
Fixpoint percent_decode (s : list N) : list N :=
  match s with
  | [] => []
  | c :: r =>
      if c =? 37 then
        match r with
        | a :: b :: r' => (16 * hexval a + hexval b) :: percent_decode r'
        | _ => []
        end
      else if c =? 43 then 32 :: percent_decode r
      else c :: percent_decode r
  end.

(** The reserved characters that URL encoding escapes. *)
Definition url_reserved : list N := lit "!][#?/,$+=&@:;)('*<> %" ++ [34].

Definition hexdigit (n : N) : N := if n <? 10 then 48 + n else 55 + n.

Definition url_escape1 (c : N) : list N :=
  if existsb (N.eqb c) url_reserved then [37; hexdigit (c / 16); hexdigit (c mod 16)]
  else [c].

Definition url_escape (s : list N) : list N := flat_map url_escape1 s.

(** HTML escaping of the five markup characters. *)
Definition html_escape1 (c : N) : list N :=
  if c =? 38 then lit "&amp;"
  else if c =? 60 then lit "&lt;"
  else if c =? 62 then lit "&gt;"
  else if c =? 34 then lit "&quot;"
  else if c =? 39 then lit "&apos;"
  else [c].

Definition html_escape (s : list N) : list N := flat_map html_escape1 s.

(** Text before and after the first occurrence of a character. *)
Fixpoint cut_char (c : N) (s : list N) : option (list N * list N) :=
  match s with
  | [] => None
  | x :: r => if x =? c then Some ([], r)
              else match cut_char c r with
                   | None => None
                   | Some (a, b) => Some (x :: a, b)
                   end
  end.

Fixpoint is_prefix (p s : list N) : bool :=
  match p, s with
  | [], _ => true
  | x :: p', y :: s' => (x =? y) && is_prefix p' s'
  | _ :: _, [] => false
  end.

(** Text before the first occurrence of [sep], and the text after it if there
    is one. *)
Fixpoint cut_sep (sep s : list N) : list N * option (list N) :=
  if is_prefix sep s then ([], Some (skipn (length sep) s)) else
  match s with
  | [] => ([], None)
  | x :: r => let '(a, b) := cut_sep sep r in (x :: a, b)
  end.

(** What the form decoder does with any text: the name extends to the first
    '=', the value from there to the next separator or the end.  [n] bounds
    the number of fields (the length of the text is enough). *)
Fixpoint form_fields (n : nat) (sep s : list N) : list (list N * list N) :=
  match n with
  | O => []
  | S n' =>
      match cut_char 61 s with
      | None => []
      | Some (name, r) =>
          match cut_sep sep r with
          | (value, None) => [(percent_decode name, percent_decode value)]
          | (value, Some r') =>
              (percent_decode name, percent_decode value) :: form_fields n' sep r'
          end
      end
  end.

(** Encoding of a list of fields. *)
Definition form_field (f : list N * list N) : list N :=
  url_escape (fst f) ++ [61] ++ url_escape (snd f).

Fixpoint form_encode (sep : list N) (fs : list (list N * list N)) : list N :=
  match fs with
  | [] => []
  | [f] => form_field f
  | f :: fs' => form_field f ++ sep ++ form_encode sep fs'
  end.
