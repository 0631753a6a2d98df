(** What the gnu example should send. *)
From Coq Require Import String List NArith ZArith Bool.
From Verif Require Import Model.Base Model.Environment Spec.StreamSpec Spec.LocaleSpec.
Import ListNotations.
Local Open Scope N_scope.

(** The locales, and the language and texts of each (in UTF-8). *)
Definition the_locales : list (list N) := [lit "en_CA"; lit "en_US"; lit "fr_CA"; lit "fr_FR"; lit "zh_CN"; lit "de_DE"].
Record words := mkWords { g_language : string; g_title : string; g_header : string; g_alt : string; g_size : string; g_date : string }.
Definition english (title : string) : words :=
  mkWords "en" title "This is a header" "The GNU Logo" "Figure 1: This GNU logo is " " bytes. It was last modified ".
Definition french : words :=
  mkWords "fr" "Montrant le GNU incolore" "Ceci est un en-tête" "Le logo GNU" "Figure 1: Ce logo GNU est de "
    " octets. Il a été modifié ".
Definition the_words (i : N) : words :=
  match i with
  | 0 => english "Showing the colourless GNU"
  | 1 => english "Showing the colorless GNU"
  | 2 | 3 => french
  | 4 => mkWords "zh" "顯示無色GNU" "這是一個標頭" "GNU的標誌" "圖1 ：這GNU標誌是" "字節。最後一次修改"
  | _ => mkWords "de" "Angezeigt wird die farblose GNU" "Dies ist ein Kopf" "Das GNU- Logo" "Abbildung 1: Das GNU -Logo ist "
           " Bytes. Es wurde zuletzt geändert "
  end.

(** Locale [i] is the one for a visitor with those languages: the first that
    speaks the first of them that can be served, or that of Canada. *)
Definition chosen (languages : list (list N)) (i : N) : Prop :=
  (exists before l after, languages = before ++ l :: after /\ Forall (unserved the_locales) before /\
     (length l <= 5)%nat /\ first_speaking l the_locales i) \/
  (i = 0 /\ Forall (unserved the_locales) languages).

(** The replies. *)
Definition reply_304 : list N := lit "Status: 304 Not Modified" ++ [13; 10; 13; 10].
Definition reply_image (date png : list N) : list N :=
  lit "Last-Modified: " ++ utf8 date ++ [10] ++ lit "Content-Length: " ++ lit "58587" ++ [10] ++
  lit "Content-Type: image/png" ++ [13; 10; 13; 10] ++ png.
Definition reply_page (date : list N) (i : N) (script size changed : list N) : list N :=
  let g := the_words i in
  lit "Last-Modified: " ++ utf8 date ++ [10] ++ lit "Etag: " ++ [48 + i] ++ [10] ++
  lit "Content-Type: text/html; charset=utf-8" ++ [10] ++
  lit "Content-Language: " ++ lit (g_language g) ++ [13; 10; 13; 10] ++
  lit "<!DOCTYPE html>" ++ [10] ++ lit "<html lang='" ++ lit (g_language g) ++
  lit "'><head><meta charset='utf-8' /><title>fastcgi++: " ++ lit (g_title g) ++
  lit "</title></head><body><h1>" ++ lit (g_header g) ++ lit "</h1><figure><img src='" ++ utf8 script ++
  lit "/gnu.png' alt='" ++ lit (g_alt g) ++ lit "'><figcaption>" ++ lit (g_size g) ++ utf8 size ++ lit (g_date g) ++
  utf8 changed ++ lit ". </figcaption></figure></body></html>".

(** What is taken for granted of the formatting of dates and numbers. *)
Definition gnu_formats (date : list N) (date_in : N -> list N) (number_in : N -> N -> list N) (number : N -> list N) : Prop :=
  Forall scalar date /\ (forall i, Forall scalar (date_in i)) /\ (forall i n, Forall scalar (number_in i n)) /\
  number 58587 = lit "58587" /\ forall i, i < 6 -> number i = [48 + i].
