(** Model of the gnu example (examples/gnu.cpp). *)
From Coq Require Import String List NArith ZArith Bool.
From Verif Require Import Model.Base Model.WebMaps Model.Streams Model.Environment Model.Request Model.Locale Model.Examples.
Import ListNotations.
Local Open Scope N_scope.

(** gnu.cpp 115-123. *)
Definition gnu_locales : list (list N) :=
  map lit ["en_CA"; "en_US"; "fr_CA"; "fr_FR"; "zh_CN"; "de_DE"]%string.

(** gnu.cpp 125-169. *)
Definition gnu_catalogues : list (list string) :=
  [["Showing the colourless GNU"; "This is a header"; "The GNU Logo"; "Figure 1: This GNU logo is ";
    " bytes. It was last modified "];
   ["Showing the colorless GNU"; "This is a header"; "The GNU Logo"; "Figure 1: This GNU logo is ";
    " bytes. It was last modified "];
   ["Montrant le GNU incolore"; "Ceci est un en-tête"; "Le logo GNU"; "Figure 1: Ce logo GNU est de ";
    " octets. Il a été modifié "];
   ["Montrant le GNU incolore"; "Ceci est un en-tête"; "Le logo GNU"; "Figure 1: Ce logo GNU est de ";
    " octets. Il a été modifié "];
   ["顯示無色GNU"; "這是一個標頭"; "GNU的標誌"; "圖1 ：這GNU標誌是"; "字節。最後一次修改"];
   ["Angezeigt wird die farblose GNU"; "Dies ist ein Kopf"; "Das GNU- Logo"; "Abbildung 1: Das GNU -Logo ist ";
    " Bytes. Es wurde zuletzt geändert "]]%string.

Section Gnu.
(** The image (16, 171-172; the file included is not in the repository), the
    time of the start (174), its date as in 36 and 66, what [put_time] makes of
    it with "%c" and the stream of a number after [setLocale] (73), for each
    locale, and what it makes of a number before. *)
Variable png : list N.
Variable start : Z.
Variable date : list N.
Variable date_in : N -> list N.
Variable number_in : N -> N -> list N.
Variable number : N -> list N.

(** gnu.cpp 30 and 60. *)
Definition not_modified : list sop := [w "Status: 304 Not Modified"; crlf2].

(** gnu.cpp 25-41. *)
Definition gnu_image (e : env) : list sop :=
  if (start <=? e_ifModifiedSince e)%Z then not_modified
  else [w "Last-Modified: "; OpWrite (date ++ [10]); w "Content-Length: "; OpWrite (number 58587); OpPut 10;
        w "Content-Type: image/png"; crlf2; OpDump png].

(** gnu.cpp 65-94, for locale [i] called [l] with catalogue [c0] to [c4]. *)
Definition gnu_page (e : env) (i : N) (l : list N) (c0 c1 c2 c3 c4 : string) : list sop :=
  let language := OpWrite (firstn 2 l) in
  [w "Last-Modified: "; OpWrite (date ++ [10]); w "Etag: "; OpWrite (number i); OpPut 10;
   w "Content-Type: text/html; charset=utf-8"; OpWrite [10];
   w "Content-Language: "; language; crlf2;
   w "<!DOCTYPE html>"; OpWrite [10]; w "<html lang='"; language; w "'><head><meta charset='utf-8' /><title>fastcgi++: ";
   w c0; w "</title></head><body><h1>"; w c1; w "</h1><figure><img src='"; OpWrite (e_scriptName e);
   w "/gnu.png' alt='"; w c2; w "'><figcaption>"; w c3; OpWrite (number_in i 58587); w c4; OpWrite (date_in i);
   w ". </figcaption></figure></body></html>"].

(** gnu.cpp 45-96; [catalogue[n]] and [locales[locale]]: undefined behaviour
    out of range. *)
Definition gnu_html (e : env) : outcome (list sop) :=
  obind (pickLocale (e_acceptLanguages e) gnu_locales) (fun i =>
    match nth_error gnu_locales (N.to_nat i), nth_error gnu_catalogues (N.to_nat i) with
    | Some l, Some [c0; c1; c2; c3; c4] =>
        if (i =? e_etag e) && (start <=? e_ifModifiedSince e)%Z then Val not_modified
        else Val (gnu_page e i l c0 c1 c2 c3 c4)
    | _, _ => UB
    end).

(** gnu.cpp 100-110. *)
Definition gnu_response (e : env) : outcome (list sop) :=
  match e_pathInfo e with
  | [p] => if list_eqb p (lit "gnu.png") then Val (gnu_image e) else gnu_html e
  | _ => gnu_html e
  end.

(** The application; nothing written stands for undefined behaviour. *)
Definition gnu : application unit :=
  page_app (fun e => match gnu_response e with Val l => l | UB => [] end).
End Gnu.
