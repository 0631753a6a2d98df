(** Model of how applications with wide characters get their text. *)
From Coq Require Import List NArith.
From Verif Require Import Model.Base Model.Curl.
Import ListNotations.

(** http.cpp 39-53, [vecToString] for [std::wstring]: the string after the
    call.  The conversion is [from_bytes] of Model/Curl.v; when it throws the
    string keeps its old value. *)
Definition vts_wide (strict : bool) (bytes old : list N) : list N :=
  match from_bytes strict bytes with Some s => s | None => old end.
