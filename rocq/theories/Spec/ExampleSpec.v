(** Vocabulary for the example applications. *)
From Coq Require Import String List NArith ZArith Bool.
From Verif Require Import Model.Base Model.Streams Model.Environment Spec.EscapeSpec Spec.StreamSpec.
Import ListNotations.
Local Open Scope N_scope.

(** The markup of a document: what stands from each ['<'] to the next ['>'];
    [inside]: such a tag has begun. *)
Fixpoint markup (inside : bool) (s : list N) : list N :=
  match s with
  | [] => []
  | c :: r =>
      if inside then c :: markup (negb (c =? 62)) r
      else if c =? 60 then c :: markup true r
      else markup false r
  end.

(** Two environments with the same numbers of path elements, variables,
    fields, cookies and files. *)
Definition same_shape (e1 e2 : env) : Prop :=
  length (e_pathInfo e1) = length (e_pathInfo e2) /\ length (e_others e1) = length (e_others e2) /\
  length (e_gets e1) = length (e_gets e2) /\ length (e_posts e1) = length (e_posts e2) /\
  length (e_cookies e1) = length (e_cookies e2) /\ length (e_files e1) = length (e_files e2).

Definition file_data (f : list N * (list N * list N * list N)) : list N := snd (snd f).

(** No uploaded file has a byte that begins or ends a tag. *)
Definition plain_files (e : env) : Prop :=
  forall f, In f (e_files e) -> ~ In 60 (file_data f) /\ ~ In 62 (file_data f).

(** A text with neither ['<'] nor ['>']. *)
Definition tagless (s : list N) : Prop := ~ In 60 s /\ ~ In 62 s.

(** What a browser shows for a name and a value, as UTF-8. *)
Definition pair_shown (p : list N * list N) : list N :=
  utf8 (lit "<b>" ++ html_escape (fst p) ++ lit ":</b> " ++ html_escape (snd p) ++ lit "<br />").

(** All texts of an environment that the echo page shows are characters, and
    the data of files bytes. *)
Definition real_env (widen : list N -> list N) (e : env) : Prop :=
  Forall (Forall scalar)
    ([e_host e; e_origin e; e_userAgent e; e_acceptContentTypes e; e_acceptCharsets e; e_referer e;
      e_contentType e; e_root e; e_scriptName e; e_requestUri e]
     ++ map widen (e_acceptLanguages e) ++ e_pathInfo e
     ++ map fst (e_others e ++ e_gets e ++ e_posts e ++ e_cookies e)
     ++ map snd (e_others e ++ e_gets e ++ e_posts e ++ e_cookies e)
     ++ map fst (e_files e) ++ map (fun f => fst (fst (snd f))) (e_files e)
     ++ map (fun f => snd (fst (snd f))) (e_files e)) /\
  Forall (fun f => Forall (fun b => b < 256) (file_data f)) (e_files e).

(** The bytes of the hello world page. *)
Definition hello_page : list N :=
  lit "Content-Type: text/html; charset=utf-8" ++ [13; 10; 13; 10] ++ lit "<!DOCTYPE html>" ++ [10] ++
  lit "<html><head><meta charset='utf-8' /><title>fastcgi++: Hello World</title></head><body><p>English: Hello World<br>Russian: Привет мир<br>Greek: Γεια σας κόσμο<br>Chinese: 世界您好<br>Japanese: 今日は世界<br>Runic English?: ᚺᛖᛚᛟ ᚹᛟᛉᛚᛞ<br></p></body></html>".

(** The header of the echo page. *)
Definition echo_head : list N :=
  lit "Set-Cookie: echoCookie=%3C%22русский%22%3E%3B; path=/" ++ [10] ++
  lit "Content-Type: text/html; charset=utf-8" ++ [13; 10; 13; 10].

(** What is taken for granted of the formatting of numbers, times, narrow
    texts, addresses and the version: characters that exist, none of them
    ['<'] or ['>'], and ASCII kept as it is. *)
Definition formats (dec : N -> list N) (time_text : Z -> list N) (widen address_out : list N -> list N)
    (version : list N) : Prop :=
  (forall n, tagless (dec n) /\ Forall scalar (dec n)) /\ (forall t, Forall scalar (time_text t)) /\
  (forall a, tagless (address_out a) /\ Forall scalar (address_out a)) /\
  (tagless (widen version) /\ Forall scalar (widen version)) /\
  (forall s, Forall (fun c => c < 128) s -> widen s = s).
