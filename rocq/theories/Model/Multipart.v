(** Model of the parsing of POST data (src/http.cpp 451-663). *)
From Coq Require Import String List NArith ZArith Bool.
From Verif Require Import Model.Base Model.HttpCodec Model.Environment.
Import ListNotations.
Local Open Scope N_scope.

(** http.cpp 504-511. *)
Inductive mpstate := M_HEADER | M_NAME | M_FILENAME | M_CONTENT_TYPE | M_BODY.

(** http.cpp 495-511: the pointers as offsets into the buffer
    ([postBufferEnd] is its length), the state, and the insertions made into
    [posts] and [files]. *)
Record mp := mkMp {
  mp_state : mpstate;
  mp_nameStart : nat;
  mp_nameEnd : nat;
  mp_filenameStart : nat;
  mp_filenameEnd : nat;
  mp_ctStart : nat;
  mp_ctEnd : nat;
  mp_bodyStart : nat;
  mp_bodyEnd : nat;
  mp_posts : list (list N * list N);
  mp_files : list (list N * (list N * list N * list N))
}.

(** http.cpp 486-489. *)
Definition cName : list N := lit "name=" ++ [34].
Definition cFilename : list N := lit "filename=" ++ [34].
Definition cContentType : list N := lit "Content-Type: ".
Definition cBody : list N := [13; 10; 13; 10].

(** [bytesLeft >= s.size() && std::equal(s.begin(), s.end(), byte)]. *)
Definition starts (s : list N) (buf : list N) (byte : nat) : bool :=
  Nat.leb (length s) (length buf - byte)
  && list_eqb s (slice buf byte (byte + length s)).

Section Multipart.
(** [vecToString], as in [decodeUrlEncoded]. *)
Variable vts : list N -> list N -> list N.
(** The buffer and the boundary. *)
Variables buf boundary : list N.

(** 644-652: nothing set. *)
Definition mp_reset (posts : list (list N * list N))
    (files : list (list N * (list N * list N * list N))) : mp :=
  let e := length buf in mkMp M_HEADER e e e e e e e e posts files.

(** 598-609: the end of a body whose boundary is at [byte].  In state BODY
    [byte] is at least 4, so [byte-2] stays in the buffer; the reads are at
    offsets from [bodyStart] on. *)
Definition body_end (bodyStart byte : nat) : nat :=
  let bodyEnd := (byte - 2)%nat in
  if Nat.ltb bodyEnd bodyStart then bodyStart
  else if Nat.leb 2 (bodyEnd - bodyStart)
          && list_eqb (slice buf (bodyEnd - 1) bodyEnd) [10]
          && list_eqb (slice buf (bodyEnd - 2) (bodyEnd - 1)) [13]
       then (bodyEnd - 2)%nat else bodyEnd.

(** 611-642: what is stored for a finished part. *)
Definition mp_store (s : mp) (bodyEnd : nat) : mp :=
  let e := length buf in
  if Nat.eqb (mp_nameEnd s) e then mp_reset (mp_posts s) (mp_files s)
  else
    let name := vts (slice buf (mp_nameStart s) (mp_nameEnd s)) [] in
    let body := slice buf (mp_bodyStart s) bodyEnd in
    if negb (Nat.eqb (mp_ctEnd s) e) then
      let contentType := vts (slice buf (mp_ctStart s) (mp_ctEnd s)) [] in
      let filename :=
        if negb (Nat.eqb (mp_filenameEnd s) e)
        then vts (slice buf (mp_filenameStart s) (mp_filenameEnd s)) [] else [] in
      mp_reset (mp_posts s) (mp_files s ++ [(name, (filename, contentType, body))])
    else mp_reset (mp_posts s ++ [(name, vts body [])]) (mp_files s).

(** 513-658: one iteration at [byte]; the result is the value of [byte] for
    the next one ([++byte] included) and the state.  Ending a content type
    does [byte--], so the same byte is looked at again. *)
Definition mp_step (byte : nat) (s : mp) : outcome (nat * mp) :=
  let '(mkMp st ns ne fs fe cs ce bs be posts files) := s in
  let e := length buf in
  match st with
  | M_HEADER =>
      if Nat.eqb ne e && starts cName buf byte then
        let b := (byte + length cName)%nat in
        Val (b, mkMp M_NAME b ne fs fe cs ce bs be posts files)
      else if Nat.eqb fe e && starts cFilename buf byte then
        let b := (byte + length cFilename)%nat in
        Val (b, mkMp M_FILENAME ns ne b fe cs ce bs be posts files)
      else if Nat.eqb ce e && starts cContentType buf byte then
        let b := (byte + length cContentType)%nat in
        Val (b, mkMp M_CONTENT_TYPE ns ne fs fe b ce bs be posts files)
      else if Nat.eqb be e && starts cBody buf byte then
        let b := (byte + length cBody)%nat in
        Val (b, mkMp M_BODY ns ne fs fe cs ce b be posts files)
      else Val (S byte, s)
  | M_NAME =>
      match rd buf byte with
      | None => UB
      | Some c =>
          if c =? 34 then Val (S byte, mkMp M_HEADER ns byte fs fe cs ce bs be posts files)
          else Val (S byte, s)
      end
  | M_FILENAME =>
      match rd buf byte with
      | None => UB
      | Some c =>
          if c =? 34 then Val (S byte, mkMp M_HEADER ns ne fs byte cs ce bs be posts files)
          else Val (S byte, s)
      end
  | M_CONTENT_TYPE =>
      match rd buf byte with
      | None => UB
      | Some c =>
          if (c =? 13) || (c =? 10)
          then Val (byte, mkMp M_HEADER ns ne fs fe cs byte bs be posts files)
          else Val (S byte, s)
      end
  | M_BODY =>
      if starts boundary buf byte then Val (S byte, mp_store s (body_end bs byte))
      else Val (S byte, s)
  end.

(** http.cpp 513-660: the loop of parsePostsMultipart. *)
Fixpoint mp_loop (fuel : nat) (byte : nat) (s : mp) : run mp :=
  if Nat.ltb byte (length buf) then
    match fuel with
    | O => Spin
    | S f =>
        match mp_step byte s with
        | UB => Undef
        | Val (byte', s') => mp_loop f byte' s'
        end
    end
  else Done s.

End Multipart.

(** http.cpp 484-663.  An iteration that does not advance is followed by one
    in state HEADER, which does, so twice the size of the buffer is enough
    fuel. *)
Definition parsePostsMultipart vts (e : env) : run env :=
  let buf := e_postBuffer e in
  match mp_loop vts buf (e_boundary e) (2 * length buf) 0 (mp_reset buf [] []) with
  | Done s => Done (set_files (e_files e ++ mp_files s) (set_posts (e_posts e ++ mp_posts s) e))
  | Spin => Spin
  | Undef => Undef
  end.

(** http.cpp 665-672 and the default separator (http.hpp). *)
Definition parsePostsUrlEncoded vts (junk : nat -> list N) (e : env) : run env :=
  let buf := e_postBuffer e in
  run_bind (decodeUrlEncoded vts (length buf + 1) (junk (length buf)) (lit "&") buf)
    (fun l => Done (set_posts (e_posts e ++ l) e)).

(** http.cpp 451-481. *)
Definition parsePostBuffer vts (junk : nat -> list N) (e : env) : run (bool * env) :=
  match e_postBuffer e with
  | [] => Done (true, e)
  | _ =>
      if list_eqb (lit "multipart/form-data") (e_contentType e) then
        run_bind (parsePostsMultipart vts e) (fun e' => Done (true, e'))
      else if list_eqb (lit "application/x-www-form-urlencoded") (e_contentType e) then
        run_bind (parsePostsUrlEncoded vts junk e) (fun e' => Done (true, e'))
      else Done (false, e)
  end.
