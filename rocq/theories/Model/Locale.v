(** Model of [Request::pickLocale] (src/request.cpp 244-273). *)
From Coq Require Import List NArith Bool.
From Verif Require Import Model.Base.
Import ListNotations.
Local Open Scope N_scope.

(** 256-260: [std::equal(language.begin(), language.end(), locale.begin())].
    The characters of [locale] are followed by the terminating NUL in memory
    (dereferencing [end()] reads it); going further is [UB]. *)
Fixpoint equal_at (language memory : list N) : outcome bool :=
  match language with
  | [] => Val true
  | c :: language' =>
      match memory with
      | [] => UB
      | x :: memory' => if c =? x then equal_at language' memory' else Val false
      end
  end.

(** 252-261: [std::find_if]; the index of the first hit. *)
Fixpoint find_locale (language : list N) (locales : list (list N)) (i : N) : outcome (option N) :=
  match locales with
  | [] => Val None
  | l :: locales' =>
      obind (equal_at language (l ++ [0])) (fun b =>
        if b then Val (Some i) else find_locale language locales' (i + 1))
  end.

(** 247-272. *)
Fixpoint pickLocale (languages locales : list (list N)) : outcome N :=
  match languages with
  | [] => Val 0
  | language :: languages' =>
      if N.of_nat (length language) <=? 5 then
        obind (find_locale language locales 0) (fun r =>
          match r with Some i => Val i | None => pickLocale languages' locales end)
      else pickLocale languages' locales
  end.
