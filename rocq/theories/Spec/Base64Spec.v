(** Base64 as in RFC 4648, and decimal numbers. *)
From Coq Require Import String List NArith ZArith Bool.
From Verif Require Import Model.Base.
Import ListNotations.
Local Open Scope N_scope.

(** The character for a 6 bit value. *)
Definition b64char (v : N) : N :=
  if v <? 26 then 65 + v else if v <? 52 then 71 + v else if v <? 62 then v - 4
  else if v =? 62 then 43 else 47.

(** RFC 4648 section 4. *)
Fixpoint b64 (s : list N) : list N :=
  match s with
  | a :: b :: c :: r =>
      [ b64char (a / 4); b64char (a mod 4 * 16 + b / 16);
        b64char (b mod 16 * 4 + c / 64); b64char (c mod 64) ] ++ b64 r
  | [a; b] =>
      [ b64char (a / 4); b64char (a mod 4 * 16 + b / 16); b64char (b mod 16 * 4); 61 ]
  | [a] => [ b64char (a / 4); b64char (a mod 4 * 16); 61; 61 ]
  | [] => []
  end.

(** [c] is one of the 64 characters. *)
Definition b64_alphabet (c : N) : Prop := exists v, v < 64 /\ c = b64char v.

(** The number a string of ASCII digits spells. *)
Definition dec_value (ds : list N) : Z :=
  fold_left (fun acc d => acc * 10 + (Z.of_N d - 48))%Z ds 0%Z.

Definition is_digit (c : N) : Prop := 48 <= c <= 57.
