(** What CGI variables mean, written independently of the model.  The record
    [env] and its field names are those of the library. *)
From Coq Require Import String List NArith ZArith Bool.
From Verif Require Import Model.Base Model.Environment Spec.WireSpec Spec.EscapeSpec Spec.AddressSpec.
Import ListNotations.
Local Open Scope N_scope.

(** The values given for a name, in order. *)
Definition values (nm : string) (ps : list (list N * list N)) : list (list N) :=
  map snd (filter (fun p => list_eqb (fst p) (lit nm)) ps).

Definition not_sent (nm : string) (ps : list (list N * list N)) : Prop := values nm ps = [].

(** The last value given, converted; the old content if there is none. *)
Definition last_value {A} (f : list N -> A) (nm : string) ps (old : A) : A :=
  fold_left (fun _ v => f v) (values nm ps) old.

(** All pieces of a text between occurrences of [c]. *)
Fixpoint split_on (c : N) (l : list N) : list (list N) :=
  match l with
  | [] => [[]]
  | x :: r =>
      if x =? c then [] :: split_on c r
      else match split_on c r with p :: ps => (x :: p) :: ps | [] => [[x]] end
  end.

Definition nonempty (l : list N) : bool := match l with [] => false | _ => true end.

(** Path: the non-empty parts between slashes, the first character (the
    leading slash) aside, percent-decoded. *)
Definition path_segments (v : list N) : list (list N) :=
  map percent_decode (filter nonempty (split_on 47 (tl v))).

(** Languages: pieces between commas (a trailing comma adds none), each up to
    a semicolon, without surrounding spaces, its first dash an underscore. *)
Fixpoint strip (l : list N) : list N :=
  match l with 32 :: r => strip r | _ => l end.
Definition trim (l : list N) : list N := rev (strip (rev (strip l))).

Definition before (c : N) (l : list N) : list N :=
  match cut_char c l with Some (a, _) => a | None => l end.

Definition language (p : list N) : list N :=
  let t := trim (before 59 p) in
  match cut_char 45 t with Some (a, b) => a ++ 95 :: b | None => t end.

Definition languages (v : list N) : list (list N) :=
  map language
    match rev (split_on 44 v) with [] :: r => rev r | _ => split_on 44 v end.

(** Numbers: an optional minus sign and the digits that follow. *)
Fixpoint digits_prefix (l : list N) : list N :=
  match l with
  | x :: r => if (48 <=? x) && (x <=? 57) then x :: digits_prefix r else []
  | [] => []
  end.
Definition digits_value (l : list N) : N := fold_left (fun a d => 10 * a + (d - 48)) l 0.

Definition magnitude (v : list N) : N :=
  match v with 45 :: r => digits_value (digits_prefix r) | _ => digits_value (digits_prefix v) end.
Definition leading_int (v : list N) : Z :=
  match v with 45 :: _ => - Z.of_N (magnitude v) | _ => Z.of_N (magnitude v) end.

(** Unsigned representation in [w] bits. *)
Definition wrap (w : Z) (z : Z) : N := Z.to_N (z mod 2 ^ w).

(** Methods are numbered by their place in this list; 0 if not in it. *)
Definition method_names : list string :=
  ["HEAD"; "GET"; "POST"; "PUT"; "DELETE"; "TRACE"; "OPTIONS"; "CONNECT"; "PATCH"]%string.
Fixpoint place (v : list N) (l : list string) (n : N) : N :=
  match l with
  | [] => 0
  | s :: l' => if list_eqb v (lit s) then n else place v l' (n + 1)
  end.
Definition method_number (v : list N) : N := place v method_names 1.

(** Multipart boundary: what follows the first '=' after the first ';'. *)
Definition boundary_of (v : list N) : option (list N) :=
  match cut_char 59 v with
  | None => None
  | Some (_, r) => match cut_char 61 r with Some (_, b) => Some b | None => None end
  end.

(** The names with a member of their own. *)
Definition known_names : list string :=
  ["HTTP_HOST"; "PATH_INFO"; "HTTP_ACCEPT"; "HTTP_COOKIE"; "SERVER_ADDR"; "REMOTE_ADDR";
   "SERVER_PORT"; "REMOTE_PORT"; "SCRIPT_NAME"; "REQUEST_URI"; "HTTP_ORIGIN"; "HTTP_REFERER";
   "CONTENT_TYPE"; "QUERY_STRING"; "DOCUMENT_ROOT"; "REQUEST_METHOD"; "CONTENT_LENGTH";
   "HTTP_USER_AGENT"; "HTTP_KEEP_ALIVE"; "HTTP_IF_NONE_MATCH"; "HTTP_AUTHORIZATION";
   "HTTP_ACCEPT_CHARSET"; "HTTP_ACCEPT_LANGUAGE"; "HTTP_IF_MODIFIED_SINCE"]%string.
Definition is_known (n : list N) : bool := existsb (fun s => list_eqb n (lit s)) known_names.

Definition numeric_names : list string :=
  ["SERVER_PORT"; "REMOTE_PORT"; "CONTENT_LENGTH"; "HTTP_KEEP_ALIVE"; "HTTP_IF_NONE_MATCH"]%string.
Definition address_names : list string := ["SERVER_ADDR"; "REMOTE_ADDR"]%string.

(** The fields of a url-encoded text. *)
Definition fields (sep v : list N) : list (list N * list N) := form_fields (S (length v)) sep v.

Section Describe.
(** Bytes to string, given the old string (identity on [char]). *)
Variable vts : list N -> list N -> list N.
Variable http_time : list N -> Z.
(** The address a standard text stands for. *)
Variable address_of : list N -> list N.

Definition text nm ps old : list N := fold_left (fun s v => vts v s) (values nm ps) old.
Definition text_fields sep v : list (list N * list N) :=
  map (fun f => (vts (fst f) [], vts (snd f) [])) (fields sep v).

(** The environment that parameters [ps] describe, starting from [e]. *)
Definition describe (e : env) (ps : list (list N * list N)) : env := {|
  e_host := text "HTTP_HOST" ps (e_host e);
  e_origin := text "HTTP_ORIGIN" ps (e_origin e);
  e_userAgent := text "HTTP_USER_AGENT" ps (e_userAgent e);
  e_acceptContentTypes := text "HTTP_ACCEPT" ps (e_acceptContentTypes e);
  e_acceptLanguages := e_acceptLanguages e ++ flat_map languages (values "HTTP_ACCEPT_LANGUAGE" ps);
  e_acceptCharsets := text "HTTP_ACCEPT_CHARSET" ps (e_acceptCharsets e);
  e_authorization := text "HTTP_AUTHORIZATION" ps (e_authorization e);
  e_referer := text "HTTP_REFERER" ps (e_referer e);
  e_contentType :=
    fold_left (fun s v => vts (before 59 v) s) (values "CONTENT_TYPE" ps) (e_contentType e);
  e_root := text "DOCUMENT_ROOT" ps (e_root e);
  e_scriptName := text "SCRIPT_NAME" ps (e_scriptName e);
  e_requestMethod := last_value method_number "REQUEST_METHOD" ps (e_requestMethod e);
  e_requestUri := text "REQUEST_URI" ps (e_requestUri e);
  e_pathInfo := e_pathInfo e ++
    map (fun s => vts s []) (flat_map path_segments (values "PATH_INFO" ps));
  e_etag := last_value (fun v => wrap 32 (leading_int v)) "HTTP_IF_NONE_MATCH" ps (e_etag e);
  e_keepAlive := last_value (fun v => wrap 32 (leading_int v)) "HTTP_KEEP_ALIVE" ps (e_keepAlive e);
  e_contentLength := last_value (fun v => wrap 32 (leading_int v)) "CONTENT_LENGTH" ps (e_contentLength e);
  e_serverAddress := last_value address_of "SERVER_ADDR" ps (e_serverAddress e);
  e_remoteAddress := last_value address_of "REMOTE_ADDR" ps (e_remoteAddress e);
  e_serverPort := last_value (fun v => wrap 16 (leading_int v)) "SERVER_PORT" ps (e_serverPort e);
  e_remotePort := last_value (fun v => wrap 16 (leading_int v)) "REMOTE_PORT" ps (e_remotePort e);
  e_ifModifiedSince := last_value http_time "HTTP_IF_MODIFIED_SINCE" ps (e_ifModifiedSince e);
  e_others := fold_left (fun m p => assoc_set (vts (fst p) []) (vts (snd p) []) m)
    (filter (fun p => negb (is_known (fst p))) ps) (e_others e);
  e_cookies := e_cookies e ++ flat_map (text_fields (lit "; ")) (values "HTTP_COOKIE" ps);
  e_gets := e_gets e ++ flat_map (text_fields (lit "&")) (values "QUERY_STRING" ps);
  e_posts := e_posts e;
  e_files := e_files e;
  e_boundary := fold_left (fun b v => match boundary_of v with Some x => x | None => b end)
    (values "CONTENT_TYPE" ps) (e_boundary e);
  e_postBuffer := e_postBuffer e
|}.
End Describe.

(** At least one byte can be read, and a second one behind a minus sign. *)
Definition readable (after : list N) : Prop :=
  match after with [] => False | [c] => c <> 45 | _ => True end.

(** The values for which the conversions are defined.  [after] is the memory
    behind the value: numbers, paths and addresses are read one character too
    far.  Numbers must fit an [int]; addresses must be standard texts, and one
    that ends in ':' must not be followed by another ':'. *)
Definition var_ok (name value after : list N) : Prop :=
  (forall s, In s numeric_names -> name = lit s -> magnitude value < 2 ^ 31 /\ readable after) /\
  (name = lit "PATH_INFO" -> after <> []) /\
  (forall s, In s address_names -> name = lit s ->
     exists a, address_text value a /\ ~ compat_text value /\ after <> [] /\
       (last value 0 = 58 -> hd 0 after <> 58)).

(** [bytes] are the encodings of the parameters one after the other; [tail]
    is the memory that follows. *)
Inductive params_encoding (tail : list N) : list (list N * list N) -> list N -> Prop :=
| params_nil : params_encoding tail [] []
| params_cons : forall name value enc ps bytes,
    pair_encoding name value enc -> var_ok name value (bytes ++ tail) ->
    params_encoding tail ps bytes ->
    params_encoding tail ((name, value) :: ps) (enc ++ bytes).

(** A PARAMS record as it lies in memory. *)
Record params_record := mkParams {
  p_header : list N;
  p_params : list (list N * list N);
  p_content : list N;
  p_padding : list N
}.

(** It holds whole pairs. *)
Definition params_record_ok (r : params_record) : Prop :=
  params_encoding (p_padding r) (p_params r) (p_content r) /\
  bytes_ok (p_header r ++ p_content r ++ p_padding r) /\ length (p_header r) = 8%nat.

Definition record_memory (r : params_record) : list N * N :=
  (p_header r ++ p_content r ++ p_padding r, len (p_content r)).

(** Filling from one record (its memory and content length) after the other,
    as [Request::handler] does. *)
Fixpoint fill_all vts junk http_time (rs : list (list N * N)) (e : env) : run env :=
  match rs with
  | [] => Done e
  | (mem, contentLength) :: rs' =>
      run_bind (fill vts junk http_time (length mem + 5) mem 8 (8 + contentLength) e)
        (fill_all vts junk http_time rs')
  end.
