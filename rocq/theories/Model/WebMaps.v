(** The character maps of [WebStreambuf] (src/webstreambuf.cpp 60-141).  The
    char and the wchar_t tables have the same entries; characters are code
    units as [N]. *)
From Coq Require Import String List NArith ZArith Bool.
From Verif Require Import Model.Base.
Import ListNotations.
Local Open Scope N_scope.

(** [std::map] of single characters: an association list. *)
Fixpoint map_find (m : list (N * list N)) (c : N) : option (list N) :=
  match m with
  | [] => None
  | (k, v) :: m' => if k =? c then Some v else map_find m' c
  end.

(** The code of a character literal. *)
Definition chr (s : string) : N := hd 0 (lit s).

(** webstreambuf.cpp 62-71 and 73-82. *)
Definition htmlCharacters : list (N * list N) :=
  [ (34, lit "&quot;");
    (chr ">", lit "&gt;");
    (chr "<", lit "&lt;");
    (chr "&", lit "&amp;");
    (0x27, lit "&apos;") ].

(** webstreambuf.cpp 84-111 and 113-140. *)
Definition urlCharacters : list (N * list N) :=
  [ (chr "!", lit "%21"); (chr "]", lit "%5D"); (chr "[", lit "%5B");
    (chr "#", lit "%23"); (chr "?", lit "%3F"); (chr "/", lit "%2F");
    (chr ",", lit "%2C"); (chr "$", lit "%24"); (chr "+", lit "%2B");
    (chr "=", lit "%3D"); (chr "&", lit "%26"); (chr "@", lit "%40");
    (chr ":", lit "%3A"); (chr ";", lit "%3B"); (chr ")", lit "%29");
    (chr "(", lit "%28"); (0x27, lit "%27"); (chr "*", lit "%2A");
    (chr "<", lit "%3C"); (chr ">", lit "%3E"); (34, lit "%22");
    (chr " ", lit "%20"); (chr "%", lit "%25") ].

(** webstreambuf.hpp, [enum class Encoding]. *)
Inductive encoding := E_NONE | E_HTML | E_URL.

(** webstreambuf.cpp 163-167: the table in force. *)
Definition enc_table (e : encoding) : list (N * list N) :=
  match e with
  | E_NONE => []
  | E_HTML => htmlCharacters
  | E_URL => urlCharacters
  end.
