(** Vocabulary for what a visitor's request says. *)
From Coq Require Import String List NArith.
From Verif Require Import Model.Base Model.Environment Spec.StreamSpec Spec.WideTextSpec.
Import ListNotations.
Local Open Scope N_scope.

(** The texts that arrive as they are, and where. *)
Definition plain_texts : list (string * (env -> list N)) :=
  [("HTTP_HOST", e_host); ("HTTP_ORIGIN", e_origin); ("HTTP_USER_AGENT", e_userAgent); ("HTTP_ACCEPT", e_acceptContentTypes);
   ("HTTP_ACCEPT_CHARSET", e_acceptCharsets); ("HTTP_AUTHORIZATION", e_authorization); ("HTTP_REFERER", e_referer);
   ("DOCUMENT_ROOT", e_root); ("SCRIPT_NAME", e_scriptName); ("REQUEST_URI", e_requestUri)]%string.

(** A path of names: each after a slash. *)
Definition path_of (names : list (list N)) : list N := flat_map (fun n => 47 :: n) names.

(** A form of texts. *)
Definition fields_text (fs : list (list N * list N)) : Prop := Forall (fun f => Forall scalar (fst f) /\ Forall scalar (snd f)) fs.
