(** Model of [Http::Environment] and its filling from PARAMS records
    (include/fastcgi++/http.hpp 115-289, src/http.cpp 169-449). *)
From Coq Require Import String List NArith ZArith Bool.
From Verif Require Import Model.Base Model.Protocol Model.HttpCodec Model.Address.
Import ListNotations.
Local Open Scope N_scope.

(** http.hpp 118-208 and 283-287: the members.  Strings are the lists of their
    characters, enumerators and unsigned integers their values.  Multimaps are
    the list of insertions in order; [others] is an association list (the
    iteration order of the map is not modelled).  A [File] is its name, content
    type and data. *)
Record env := mkEnv {
  e_host : list N;
  e_origin : list N;
  e_userAgent : list N;
  e_acceptContentTypes : list N;
  e_acceptLanguages : list (list N);
  e_acceptCharsets : list N;
  e_authorization : list N;
  e_referer : list N;
  e_contentType : list N;
  e_root : list N;
  e_scriptName : list N;
  e_requestMethod : N;
  e_requestUri : list N;
  e_pathInfo : list (list N);
  e_etag : N;
  e_keepAlive : N;
  e_contentLength : N;
  e_serverAddress : list N;
  e_remoteAddress : list N;
  e_serverPort : N;
  e_remotePort : N;
  e_ifModifiedSince : Z;
  e_others : list (list N * list N);
  e_cookies : list (list N * list N);
  e_gets : list (list N * list N);
  e_posts : list (list N * list N);
  e_files : list (list N * (list N * list N * list N));
  e_boundary : list N;
  e_postBuffer : list N
}.

(** Assignment to one member. *)
Definition set_host (x : list N) (e : env) : env :=
  mkEnv x (e_origin e) (e_userAgent e) (e_acceptContentTypes e) (e_acceptLanguages e) (e_acceptCharsets e) (e_authorization e) (e_referer e) (e_contentType e) (e_root e) (e_scriptName e) (e_requestMethod e) (e_requestUri e) (e_pathInfo e) (e_etag e) (e_keepAlive e) (e_contentLength e) (e_serverAddress e) (e_remoteAddress e) (e_serverPort e) (e_remotePort e) (e_ifModifiedSince e) (e_others e) (e_cookies e) (e_gets e) (e_posts e) (e_files e) (e_boundary e) (e_postBuffer e).
Definition set_origin (x : list N) (e : env) : env :=
  mkEnv (e_host e) x (e_userAgent e) (e_acceptContentTypes e) (e_acceptLanguages e) (e_acceptCharsets e) (e_authorization e) (e_referer e) (e_contentType e) (e_root e) (e_scriptName e) (e_requestMethod e) (e_requestUri e) (e_pathInfo e) (e_etag e) (e_keepAlive e) (e_contentLength e) (e_serverAddress e) (e_remoteAddress e) (e_serverPort e) (e_remotePort e) (e_ifModifiedSince e) (e_others e) (e_cookies e) (e_gets e) (e_posts e) (e_files e) (e_boundary e) (e_postBuffer e).
Definition set_userAgent (x : list N) (e : env) : env :=
  mkEnv (e_host e) (e_origin e) x (e_acceptContentTypes e) (e_acceptLanguages e) (e_acceptCharsets e) (e_authorization e) (e_referer e) (e_contentType e) (e_root e) (e_scriptName e) (e_requestMethod e) (e_requestUri e) (e_pathInfo e) (e_etag e) (e_keepAlive e) (e_contentLength e) (e_serverAddress e) (e_remoteAddress e) (e_serverPort e) (e_remotePort e) (e_ifModifiedSince e) (e_others e) (e_cookies e) (e_gets e) (e_posts e) (e_files e) (e_boundary e) (e_postBuffer e).
Definition set_acceptContentTypes (x : list N) (e : env) : env :=
  mkEnv (e_host e) (e_origin e) (e_userAgent e) x (e_acceptLanguages e) (e_acceptCharsets e) (e_authorization e) (e_referer e) (e_contentType e) (e_root e) (e_scriptName e) (e_requestMethod e) (e_requestUri e) (e_pathInfo e) (e_etag e) (e_keepAlive e) (e_contentLength e) (e_serverAddress e) (e_remoteAddress e) (e_serverPort e) (e_remotePort e) (e_ifModifiedSince e) (e_others e) (e_cookies e) (e_gets e) (e_posts e) (e_files e) (e_boundary e) (e_postBuffer e).
Definition set_acceptLanguages (x : list (list N)) (e : env) : env :=
  mkEnv (e_host e) (e_origin e) (e_userAgent e) (e_acceptContentTypes e) x (e_acceptCharsets e) (e_authorization e) (e_referer e) (e_contentType e) (e_root e) (e_scriptName e) (e_requestMethod e) (e_requestUri e) (e_pathInfo e) (e_etag e) (e_keepAlive e) (e_contentLength e) (e_serverAddress e) (e_remoteAddress e) (e_serverPort e) (e_remotePort e) (e_ifModifiedSince e) (e_others e) (e_cookies e) (e_gets e) (e_posts e) (e_files e) (e_boundary e) (e_postBuffer e).
Definition set_acceptCharsets (x : list N) (e : env) : env :=
  mkEnv (e_host e) (e_origin e) (e_userAgent e) (e_acceptContentTypes e) (e_acceptLanguages e) x (e_authorization e) (e_referer e) (e_contentType e) (e_root e) (e_scriptName e) (e_requestMethod e) (e_requestUri e) (e_pathInfo e) (e_etag e) (e_keepAlive e) (e_contentLength e) (e_serverAddress e) (e_remoteAddress e) (e_serverPort e) (e_remotePort e) (e_ifModifiedSince e) (e_others e) (e_cookies e) (e_gets e) (e_posts e) (e_files e) (e_boundary e) (e_postBuffer e).
Definition set_authorization (x : list N) (e : env) : env :=
  mkEnv (e_host e) (e_origin e) (e_userAgent e) (e_acceptContentTypes e) (e_acceptLanguages e) (e_acceptCharsets e) x (e_referer e) (e_contentType e) (e_root e) (e_scriptName e) (e_requestMethod e) (e_requestUri e) (e_pathInfo e) (e_etag e) (e_keepAlive e) (e_contentLength e) (e_serverAddress e) (e_remoteAddress e) (e_serverPort e) (e_remotePort e) (e_ifModifiedSince e) (e_others e) (e_cookies e) (e_gets e) (e_posts e) (e_files e) (e_boundary e) (e_postBuffer e).
Definition set_referer (x : list N) (e : env) : env :=
  mkEnv (e_host e) (e_origin e) (e_userAgent e) (e_acceptContentTypes e) (e_acceptLanguages e) (e_acceptCharsets e) (e_authorization e) x (e_contentType e) (e_root e) (e_scriptName e) (e_requestMethod e) (e_requestUri e) (e_pathInfo e) (e_etag e) (e_keepAlive e) (e_contentLength e) (e_serverAddress e) (e_remoteAddress e) (e_serverPort e) (e_remotePort e) (e_ifModifiedSince e) (e_others e) (e_cookies e) (e_gets e) (e_posts e) (e_files e) (e_boundary e) (e_postBuffer e).
Definition set_contentType (x : list N) (e : env) : env :=
  mkEnv (e_host e) (e_origin e) (e_userAgent e) (e_acceptContentTypes e) (e_acceptLanguages e) (e_acceptCharsets e) (e_authorization e) (e_referer e) x (e_root e) (e_scriptName e) (e_requestMethod e) (e_requestUri e) (e_pathInfo e) (e_etag e) (e_keepAlive e) (e_contentLength e) (e_serverAddress e) (e_remoteAddress e) (e_serverPort e) (e_remotePort e) (e_ifModifiedSince e) (e_others e) (e_cookies e) (e_gets e) (e_posts e) (e_files e) (e_boundary e) (e_postBuffer e).
Definition set_root (x : list N) (e : env) : env :=
  mkEnv (e_host e) (e_origin e) (e_userAgent e) (e_acceptContentTypes e) (e_acceptLanguages e) (e_acceptCharsets e) (e_authorization e) (e_referer e) (e_contentType e) x (e_scriptName e) (e_requestMethod e) (e_requestUri e) (e_pathInfo e) (e_etag e) (e_keepAlive e) (e_contentLength e) (e_serverAddress e) (e_remoteAddress e) (e_serverPort e) (e_remotePort e) (e_ifModifiedSince e) (e_others e) (e_cookies e) (e_gets e) (e_posts e) (e_files e) (e_boundary e) (e_postBuffer e).
Definition set_scriptName (x : list N) (e : env) : env :=
  mkEnv (e_host e) (e_origin e) (e_userAgent e) (e_acceptContentTypes e) (e_acceptLanguages e) (e_acceptCharsets e) (e_authorization e) (e_referer e) (e_contentType e) (e_root e) x (e_requestMethod e) (e_requestUri e) (e_pathInfo e) (e_etag e) (e_keepAlive e) (e_contentLength e) (e_serverAddress e) (e_remoteAddress e) (e_serverPort e) (e_remotePort e) (e_ifModifiedSince e) (e_others e) (e_cookies e) (e_gets e) (e_posts e) (e_files e) (e_boundary e) (e_postBuffer e).
Definition set_requestMethod (x : N) (e : env) : env :=
  mkEnv (e_host e) (e_origin e) (e_userAgent e) (e_acceptContentTypes e) (e_acceptLanguages e) (e_acceptCharsets e) (e_authorization e) (e_referer e) (e_contentType e) (e_root e) (e_scriptName e) x (e_requestUri e) (e_pathInfo e) (e_etag e) (e_keepAlive e) (e_contentLength e) (e_serverAddress e) (e_remoteAddress e) (e_serverPort e) (e_remotePort e) (e_ifModifiedSince e) (e_others e) (e_cookies e) (e_gets e) (e_posts e) (e_files e) (e_boundary e) (e_postBuffer e).
Definition set_requestUri (x : list N) (e : env) : env :=
  mkEnv (e_host e) (e_origin e) (e_userAgent e) (e_acceptContentTypes e) (e_acceptLanguages e) (e_acceptCharsets e) (e_authorization e) (e_referer e) (e_contentType e) (e_root e) (e_scriptName e) (e_requestMethod e) x (e_pathInfo e) (e_etag e) (e_keepAlive e) (e_contentLength e) (e_serverAddress e) (e_remoteAddress e) (e_serverPort e) (e_remotePort e) (e_ifModifiedSince e) (e_others e) (e_cookies e) (e_gets e) (e_posts e) (e_files e) (e_boundary e) (e_postBuffer e).
Definition set_pathInfo (x : list (list N)) (e : env) : env :=
  mkEnv (e_host e) (e_origin e) (e_userAgent e) (e_acceptContentTypes e) (e_acceptLanguages e) (e_acceptCharsets e) (e_authorization e) (e_referer e) (e_contentType e) (e_root e) (e_scriptName e) (e_requestMethod e) (e_requestUri e) x (e_etag e) (e_keepAlive e) (e_contentLength e) (e_serverAddress e) (e_remoteAddress e) (e_serverPort e) (e_remotePort e) (e_ifModifiedSince e) (e_others e) (e_cookies e) (e_gets e) (e_posts e) (e_files e) (e_boundary e) (e_postBuffer e).
Definition set_etag (x : N) (e : env) : env :=
  mkEnv (e_host e) (e_origin e) (e_userAgent e) (e_acceptContentTypes e) (e_acceptLanguages e) (e_acceptCharsets e) (e_authorization e) (e_referer e) (e_contentType e) (e_root e) (e_scriptName e) (e_requestMethod e) (e_requestUri e) (e_pathInfo e) x (e_keepAlive e) (e_contentLength e) (e_serverAddress e) (e_remoteAddress e) (e_serverPort e) (e_remotePort e) (e_ifModifiedSince e) (e_others e) (e_cookies e) (e_gets e) (e_posts e) (e_files e) (e_boundary e) (e_postBuffer e).
Definition set_keepAlive (x : N) (e : env) : env :=
  mkEnv (e_host e) (e_origin e) (e_userAgent e) (e_acceptContentTypes e) (e_acceptLanguages e) (e_acceptCharsets e) (e_authorization e) (e_referer e) (e_contentType e) (e_root e) (e_scriptName e) (e_requestMethod e) (e_requestUri e) (e_pathInfo e) (e_etag e) x (e_contentLength e) (e_serverAddress e) (e_remoteAddress e) (e_serverPort e) (e_remotePort e) (e_ifModifiedSince e) (e_others e) (e_cookies e) (e_gets e) (e_posts e) (e_files e) (e_boundary e) (e_postBuffer e).
Definition set_contentLength (x : N) (e : env) : env :=
  mkEnv (e_host e) (e_origin e) (e_userAgent e) (e_acceptContentTypes e) (e_acceptLanguages e) (e_acceptCharsets e) (e_authorization e) (e_referer e) (e_contentType e) (e_root e) (e_scriptName e) (e_requestMethod e) (e_requestUri e) (e_pathInfo e) (e_etag e) (e_keepAlive e) x (e_serverAddress e) (e_remoteAddress e) (e_serverPort e) (e_remotePort e) (e_ifModifiedSince e) (e_others e) (e_cookies e) (e_gets e) (e_posts e) (e_files e) (e_boundary e) (e_postBuffer e).
Definition set_serverAddress (x : list N) (e : env) : env :=
  mkEnv (e_host e) (e_origin e) (e_userAgent e) (e_acceptContentTypes e) (e_acceptLanguages e) (e_acceptCharsets e) (e_authorization e) (e_referer e) (e_contentType e) (e_root e) (e_scriptName e) (e_requestMethod e) (e_requestUri e) (e_pathInfo e) (e_etag e) (e_keepAlive e) (e_contentLength e) x (e_remoteAddress e) (e_serverPort e) (e_remotePort e) (e_ifModifiedSince e) (e_others e) (e_cookies e) (e_gets e) (e_posts e) (e_files e) (e_boundary e) (e_postBuffer e).
Definition set_remoteAddress (x : list N) (e : env) : env :=
  mkEnv (e_host e) (e_origin e) (e_userAgent e) (e_acceptContentTypes e) (e_acceptLanguages e) (e_acceptCharsets e) (e_authorization e) (e_referer e) (e_contentType e) (e_root e) (e_scriptName e) (e_requestMethod e) (e_requestUri e) (e_pathInfo e) (e_etag e) (e_keepAlive e) (e_contentLength e) (e_serverAddress e) x (e_serverPort e) (e_remotePort e) (e_ifModifiedSince e) (e_others e) (e_cookies e) (e_gets e) (e_posts e) (e_files e) (e_boundary e) (e_postBuffer e).
Definition set_serverPort (x : N) (e : env) : env :=
  mkEnv (e_host e) (e_origin e) (e_userAgent e) (e_acceptContentTypes e) (e_acceptLanguages e) (e_acceptCharsets e) (e_authorization e) (e_referer e) (e_contentType e) (e_root e) (e_scriptName e) (e_requestMethod e) (e_requestUri e) (e_pathInfo e) (e_etag e) (e_keepAlive e) (e_contentLength e) (e_serverAddress e) (e_remoteAddress e) x (e_remotePort e) (e_ifModifiedSince e) (e_others e) (e_cookies e) (e_gets e) (e_posts e) (e_files e) (e_boundary e) (e_postBuffer e).
Definition set_remotePort (x : N) (e : env) : env :=
  mkEnv (e_host e) (e_origin e) (e_userAgent e) (e_acceptContentTypes e) (e_acceptLanguages e) (e_acceptCharsets e) (e_authorization e) (e_referer e) (e_contentType e) (e_root e) (e_scriptName e) (e_requestMethod e) (e_requestUri e) (e_pathInfo e) (e_etag e) (e_keepAlive e) (e_contentLength e) (e_serverAddress e) (e_remoteAddress e) (e_serverPort e) x (e_ifModifiedSince e) (e_others e) (e_cookies e) (e_gets e) (e_posts e) (e_files e) (e_boundary e) (e_postBuffer e).
Definition set_ifModifiedSince (x : Z) (e : env) : env :=
  mkEnv (e_host e) (e_origin e) (e_userAgent e) (e_acceptContentTypes e) (e_acceptLanguages e) (e_acceptCharsets e) (e_authorization e) (e_referer e) (e_contentType e) (e_root e) (e_scriptName e) (e_requestMethod e) (e_requestUri e) (e_pathInfo e) (e_etag e) (e_keepAlive e) (e_contentLength e) (e_serverAddress e) (e_remoteAddress e) (e_serverPort e) (e_remotePort e) x (e_others e) (e_cookies e) (e_gets e) (e_posts e) (e_files e) (e_boundary e) (e_postBuffer e).
Definition set_others (x : list (list N * list N)) (e : env) : env :=
  mkEnv (e_host e) (e_origin e) (e_userAgent e) (e_acceptContentTypes e) (e_acceptLanguages e) (e_acceptCharsets e) (e_authorization e) (e_referer e) (e_contentType e) (e_root e) (e_scriptName e) (e_requestMethod e) (e_requestUri e) (e_pathInfo e) (e_etag e) (e_keepAlive e) (e_contentLength e) (e_serverAddress e) (e_remoteAddress e) (e_serverPort e) (e_remotePort e) (e_ifModifiedSince e) x (e_cookies e) (e_gets e) (e_posts e) (e_files e) (e_boundary e) (e_postBuffer e).
Definition set_cookies (x : list (list N * list N)) (e : env) : env :=
  mkEnv (e_host e) (e_origin e) (e_userAgent e) (e_acceptContentTypes e) (e_acceptLanguages e) (e_acceptCharsets e) (e_authorization e) (e_referer e) (e_contentType e) (e_root e) (e_scriptName e) (e_requestMethod e) (e_requestUri e) (e_pathInfo e) (e_etag e) (e_keepAlive e) (e_contentLength e) (e_serverAddress e) (e_remoteAddress e) (e_serverPort e) (e_remotePort e) (e_ifModifiedSince e) (e_others e) x (e_gets e) (e_posts e) (e_files e) (e_boundary e) (e_postBuffer e).
Definition set_gets (x : list (list N * list N)) (e : env) : env :=
  mkEnv (e_host e) (e_origin e) (e_userAgent e) (e_acceptContentTypes e) (e_acceptLanguages e) (e_acceptCharsets e) (e_authorization e) (e_referer e) (e_contentType e) (e_root e) (e_scriptName e) (e_requestMethod e) (e_requestUri e) (e_pathInfo e) (e_etag e) (e_keepAlive e) (e_contentLength e) (e_serverAddress e) (e_remoteAddress e) (e_serverPort e) (e_remotePort e) (e_ifModifiedSince e) (e_others e) (e_cookies e) x (e_posts e) (e_files e) (e_boundary e) (e_postBuffer e).
Definition set_posts (x : list (list N * list N)) (e : env) : env :=
  mkEnv (e_host e) (e_origin e) (e_userAgent e) (e_acceptContentTypes e) (e_acceptLanguages e) (e_acceptCharsets e) (e_authorization e) (e_referer e) (e_contentType e) (e_root e) (e_scriptName e) (e_requestMethod e) (e_requestUri e) (e_pathInfo e) (e_etag e) (e_keepAlive e) (e_contentLength e) (e_serverAddress e) (e_remoteAddress e) (e_serverPort e) (e_remotePort e) (e_ifModifiedSince e) (e_others e) (e_cookies e) (e_gets e) x (e_files e) (e_boundary e) (e_postBuffer e).
Definition set_files (x : list (list N * (list N * list N * list N))) (e : env) : env :=
  mkEnv (e_host e) (e_origin e) (e_userAgent e) (e_acceptContentTypes e) (e_acceptLanguages e) (e_acceptCharsets e) (e_authorization e) (e_referer e) (e_contentType e) (e_root e) (e_scriptName e) (e_requestMethod e) (e_requestUri e) (e_pathInfo e) (e_etag e) (e_keepAlive e) (e_contentLength e) (e_serverAddress e) (e_remoteAddress e) (e_serverPort e) (e_remotePort e) (e_ifModifiedSince e) (e_others e) (e_cookies e) (e_gets e) (e_posts e) x (e_boundary e) (e_postBuffer e).
Definition set_boundary (x : list N) (e : env) : env :=
  mkEnv (e_host e) (e_origin e) (e_userAgent e) (e_acceptContentTypes e) (e_acceptLanguages e) (e_acceptCharsets e) (e_authorization e) (e_referer e) (e_contentType e) (e_root e) (e_scriptName e) (e_requestMethod e) (e_requestUri e) (e_pathInfo e) (e_etag e) (e_keepAlive e) (e_contentLength e) (e_serverAddress e) (e_remoteAddress e) (e_serverPort e) (e_remotePort e) (e_ifModifiedSince e) (e_others e) (e_cookies e) (e_gets e) (e_posts e) (e_files e) x (e_postBuffer e).
Definition set_postBuffer (x : list N) (e : env) : env :=
  mkEnv (e_host e) (e_origin e) (e_userAgent e) (e_acceptContentTypes e) (e_acceptLanguages e) (e_acceptCharsets e) (e_authorization e) (e_referer e) (e_contentType e) (e_root e) (e_scriptName e) (e_requestMethod e) (e_requestUri e) (e_pathInfo e) (e_etag e) (e_keepAlive e) (e_contentLength e) (e_serverAddress e) (e_remoteAddress e) (e_serverPort e) (e_remotePort e) (e_ifModifiedSince e) (e_others e) (e_cookies e) (e_gets e) (e_posts e) (e_files e) (e_boundary e) x.

(** http.hpp 273-281 and address.hpp 86-90: a new environment. *)
Definition env_init : env :=
  mkEnv [] [] [] [] [] [] [] [] [] [] [] 0 [] [] 0 0 0 (repeat 0 16) (repeat 0 16) 0 0 0%Z
        [] [] [] [] [] [] [].

(** [others[name] = value]. *)
Fixpoint assoc_set (k v : list N) (m : list (list N * list N)) : list (list N * list N) :=
  match m with
  | [] => [(k, v)]
  | (k', v') :: m' => if list_eqb k' k then (k', v) :: m' else (k', v') :: assoc_set k v m'
  end.

(** [find] of a std::map, as used by the application on the maps of http.hpp
    115-289. *)
Fixpoint assoc_get (k : list N) (m : list (list N * list N)) : option (list N) :=
  match m with
  | [] => None
  | (k', v) :: m' => if list_eqb k' k then Some v else assoc_get k m'
  end.

(** Auxiliary, no counterpart in the code: sequencing of runs. *)
Definition run_bind {A B} (r : run A) (f : A -> run B) : run B :=
  match r with Done a => f a | Spin => Spin | Undef => Undef end.

(** [std::find]: the elements before the first [c], and those from it on. *)
Fixpoint find_char (c : N) (l : list N) : list N * list N :=
  match l with
  | [] => ([], [])
  | x :: l' => if x =? c then ([], l) else let '(a, b) := find_char c l' in (x :: a, b)
  end.

(** http.cpp 390-394: skipping spaces at the start and at the end.  Every read
    is guarded by the range. *)
Fixpoint drop_spaces (l : list N) : list N :=
  match l with x :: l' => if x =? 0x20 then drop_spaces l' else l | [] => [] end.
Definition trim_spaces (l : list N) : list N := rev (drop_spaces (rev (drop_spaces l))).

(** http.cpp 397-399: the first '-' becomes '_'. *)
Fixpoint first_dash (l : list N) : list N :=
  match l with
  | [] => []
  | x :: l' => if x =? 0x2d then 0x5f :: l' else x :: first_dash l'
  end.

(** http.cpp 381-402, the loop over [groupStart, end). *)
Fixpoint lang_loop (fuel : nat) (l : list N) (acc : list (list N)) : run (list (list N)) :=
  match l with
  | [] => Done acc
  | _ =>
      match fuel with
      | O => Spin
      | S f =>
          let group := fst (find_char 0x2c l) in
          let sub := fst (find_char 0x3b group) in
          lang_loop f (skipn (length group + 1) l) (acc ++ [first_dash (trim_spaces sub)])
      end
  end.

(** http.cpp 277-341: the [switch] on the length of the value, with the labels
    of http.cpp 777-789 and the enumerators of http.hpp 87-99. *)
Definition method_of (value : list N) : N :=
  match length value with
  | 3%nat => if list_eqb value (lit "GET") then 2 else if list_eqb value (lit "PUT") then 4 else 0
  | 4%nat => if list_eqb value (lit "HEAD") then 1 else if list_eqb value (lit "POST") then 3 else 0
  | 5%nat => if list_eqb value (lit "TRACE") then 6 else if list_eqb value (lit "PATCH") then 9 else 0
  | 6%nat => if list_eqb value (lit "DELETE") then 5 else 0
  | 7%nat => if list_eqb value (lit "OPTIONS") then 7 else if list_eqb value (lit "CONNECT") then 8 else 0
  | _ => 0
  end.

(** Conversion of an [int] to an unsigned type of [w] bits. *)
Definition to_unsigned (w : Z) (z : Z) : N := Z.to_N (z mod 2 ^ w).

Section Fill.

(** [vecToString] as in [decodeUrlEncoded]: new bytes, old string. *)
Variable vts : list N -> list N -> list N.

(** Indeterminate content of a fresh buffer of the given size. *)
Variable junk : nat -> list N.

(** http.cpp 410-420: [std::get_time] and [std::mktime], external. *)
Variable http_time : list N -> Z.

(** http.cpp 193-217.  [source] and [end_] are offsets into [mem]; [size] is
    the [int]; [*source] is read before it is compared with [end]. *)
Fixpoint path_loop (fuel : nat) (mem : list N) (source end_ : nat) (size : Z)
    (buffer : list N) (acc : list (list N)) : run (list (list N)) :=
  if Nat.leb source end_ then
    match fuel with
    | O => Spin
    | S f =>
        match rd mem source with
        | None => Undef
        | Some c =>
            if (c =? 0x2f) || Nat.eqb source end_ then
              if (0 <? size)%Z then
                match percentEscapedToRealBytes
                        (slice mem (source - Z.to_nat size) source) buffer with
                | UB => Undef
                | Val (buffer', n) =>
                    path_loop f mem (S source) end_ 0 buffer' (acc ++ [vts (firstn n buffer') []])
                end
              else path_loop f mem (S source) end_ 0 buffer acc
            else path_loop f mem (S source) end_ (size + 1) buffer acc
        end
    end
  else Done acc.

(** http.cpp 184-437: one iteration of the loop.  [name], [value] and [end_]
    are offsets into [mem]; loops are given [fuel].  The [std::equal] tests
    compare ranges of the same length as their literal (checked by the
    [switch]). *)
Definition fill_pair (fuel : nat) (mem : list N) (name value end_ : nat) (e : env) : run env :=
  let nm := slice mem name value in
  let v := slice mem value end_ in
  let is s := list_eqb nm (lit s) in
  let other :=
    Done (set_others (assoc_set (vts nm []) (vts v []) (e_others e)) e) in
  match length nm with
  | 9%nat =>
      if is "HTTP_HOST"%string then Done (set_host (vts v (e_host e)) e)
      else if is "PATH_INFO"%string then
        run_bind (path_loop fuel mem value end_ (-1) (junk (end_ - value)) (e_pathInfo e))
          (fun p => Done (set_pathInfo p e))
      else other
  | 11%nat =>
      if is "HTTP_ACCEPT"%string then Done (set_acceptContentTypes (vts v (e_acceptContentTypes e)) e)
      else if is "HTTP_COOKIE"%string then
        run_bind (decodeUrlEncoded vts fuel (junk (length v)) (lit "; ") v)
          (fun l => Done (set_cookies (e_cookies e ++ l) e))
      else if is "SERVER_ADDR"%string then
        run_bind (assign fuel (skipn value mem) (end_ - value) (e_serverAddress e))
          (fun a => Done (set_serverAddress a e))
      else if is "REMOTE_ADDR"%string then
        run_bind (assign fuel (skipn value mem) (end_ - value) (e_remoteAddress e))
          (fun a => Done (set_remoteAddress a e))
      else if is "SERVER_PORT"%string then
        run_bind (atoi fuel 32 mem value end_) (fun z => Done (set_serverPort (to_unsigned 16 z) e))
      else if is "REMOTE_PORT"%string then
        run_bind (atoi fuel 32 mem value end_) (fun z => Done (set_remotePort (to_unsigned 16 z) e))
      else if is "SCRIPT_NAME"%string then Done (set_scriptName (vts v (e_scriptName e)) e)
      else if is "REQUEST_URI"%string then Done (set_requestUri (vts v (e_requestUri e)) e)
      else if is "HTTP_ORIGIN"%string then Done (set_origin (vts v (e_origin e)) e)
      else other
  | 12%nat =>
      if is "HTTP_REFERER"%string then Done (set_referer (vts v (e_referer e)) e)
      else if is "CONTENT_TYPE"%string then
        let '(type, rest) := find_char 0x3b v in
        let e1 := set_contentType (vts type (e_contentType e)) e in
        match rest with
        | [] => Done e1
        | _ =>
            match snd (find_char 0x3d rest) with
            | [] => Done e1
            | _ :: b => Done (set_boundary b e1)
            end
        end
      else if is "QUERY_STRING"%string then
        run_bind (decodeUrlEncoded vts fuel (junk (length v)) (lit "&") v)
          (fun l => Done (set_gets (e_gets e ++ l) e))
      else other
  | 13%nat =>
      if is "DOCUMENT_ROOT"%string then Done (set_root (vts v (e_root e)) e) else other
  | 14%nat =>
      if is "REQUEST_METHOD"%string then Done (set_requestMethod (method_of v) e)
      else if is "CONTENT_LENGTH"%string then
        run_bind (atoi fuel 32 mem value end_) (fun z => Done (set_contentLength (to_unsigned 32 z) e))
      else other
  | 15%nat =>
      if is "HTTP_USER_AGENT"%string then Done (set_userAgent (vts v (e_userAgent e)) e)
      else if is "HTTP_KEEP_ALIVE"%string then
        run_bind (atoi fuel 32 mem value end_) (fun z => Done (set_keepAlive (to_unsigned 32 z) e))
      else other
  | 18%nat =>
      if is "HTTP_IF_NONE_MATCH"%string then
        run_bind (atoi fuel 32 mem value end_) (fun z => Done (set_etag (to_unsigned 32 z) e))
      else if is "HTTP_AUTHORIZATION"%string then Done (set_authorization (vts v (e_authorization e)) e)
      else other
  | 19%nat =>
      if is "HTTP_ACCEPT_CHARSET"%string then Done (set_acceptCharsets (vts v (e_acceptCharsets e)) e)
      else other
  | 20%nat =>
      if is "HTTP_ACCEPT_LANGUAGE"%string then
        run_bind (lang_loop fuel v (e_acceptLanguages e)) (fun l => Done (set_acceptLanguages l e))
      else other
  | 22%nat =>
      if is "HTTP_IF_MODIFIED_SINCE"%string then Done (set_ifModifiedSince (http_time v) e) else other
  | _ => other
  end.

(** http.cpp 169-439.  [mem] is the memory from the start of the record on,
    [data] and [dataEnd] offsets. *)
Fixpoint fill_loop (fuel inner : nat) (mem : list N) (data dataEnd : N) (e : env) : run env :=
  match processParamHeader mem data dataEnd with
  | UB => Undef
  | Val None => Done e
  | Val (Some (name, value, end_)) =>
      match fuel with
      | O => Spin
      | S f =>
          run_bind (fill_pair inner mem (N.to_nat name) (N.to_nat value) (N.to_nat end_) e)
            (fill_loop f inner mem end_ dataEnd)
      end
  end.

(** http.cpp 169-439: Environment::fill. *)
Definition fill (fuel : nat) (mem : list N) (data dataEnd : N) (e : env) : run env :=
  fill_loop fuel fuel mem data dataEnd e.

(** http.cpp 442-449. *)
Definition fillPostBuffer (bytes : list N) (e : env) : env :=
  set_postBuffer (e_postBuffer e ++ bytes) e.

(** http.hpp 267-271. *)
Definition clearPostBuffer (e : env) : env := set_postBuffer [] e.

End Fill.
