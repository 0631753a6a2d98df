(** Vocabulary for C78: what a user of an HTTP client object asked for. *)
From Coq Require Import String List NArith ZArith Bool Arith.
From Verif Require Import Model.Base Model.WebMaps Model.Streams Model.Chunks Model.Curl Model.Sql Model.CurlObject
  Spec.StreamSpec Spec.ChunkSpec Spec.CurlSpec.
Import ListNotations.

(** Composing a request with the original object. *)
Definition compose (u : uop) : Prop :=
  match u with UPerform _ _ _ | UReset _ | UText false _ => False | _ => True end.

(** What was written to it. *)
Fixpoint texts (us : list uop) : list cop :=
  match us with [] => [] | UText true t :: us' => t :: texts us' | _ :: us' => texts us' end.

(** A string as C sees it. *)
Fixpoint before_zero (s : list N) : list N :=
  match s with [] => [] | c :: r => if (c =? 0)%N then [] else c :: before_zero r end.

(** The strings given, if they can be converted. *)
Definition url_of (strict : bool) (u : uop) : option (list N) :=
  match u with UUrl s => Some (before_zero s) | UUrlW s => option_map before_zero (to_bytes strict s) | _ => None end.
Definition header_of_op (strict : bool) (u : uop) : option (list N) :=
  match u with UHeader s => Some (before_zero s) | UHeaderW s => option_map before_zero (to_bytes strict s) | _ => None end.
Fixpoint given {A} (f : uop -> option A) (us : list uop) : list A :=
  match us with [] => [] | u :: us' => match f u with Some x => x :: given f us' | None => given f us' end end.
Definition verify_of (u : uop) : option bool := match u with UVerify b => Some b | _ => None end.

(** The last of them. *)
Definition latest {A} (l : list A) : option A := match rev l with [] => None | x :: _ => Some x end.

(** How far the host's name is checked, 2 being fully. *)
Definition host_level (v : curlver) (asked : list bool) : N :=
  match v with
  | CurlNew => match latest asked with Some false => 0 | _ => 2 end
  | CurlRefuses => if forallb (fun b => b) asked then 2 else 0
  | CurlOld => match latest asked with None => 2 | Some true => 1 | Some false => 0 end
  end%N.

(** The request that says [text]: libcurl asks for a body only if there is one. *)
Definition handed (text offers : list N) : list (list N) := match text with [] => [] | _ => hand_out text offers end.
Definition asked_for (v : curlver) (strict : bool) (headers : list (list N)) (us : list uop) (text offers : list N) : request :=
  mkQ (latest (given (url_of strict) us)) (announced text) headers
      (match latest (given verify_of us) with Some b => b | None => true end) (host_level v (given verify_of us)) (handed text offers).

(** Plain writing. *)
Definition writes (t : cop) : Prop := match t with CWrite _ | CPut _ => True | _ => False end.
(** No line announces a length. *)
Definition no_length (es : list rev_) : Prop := Forall (fun l => names_length l = false) (lines_of es).
