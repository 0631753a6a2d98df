(** What a session store should answer, as a function of the log of past calls
    and their replies (newest first) only. *)
From Coq Require Import List NArith ZArith Bool.
From Verif Require Import Model.Base Model.Sessions.
Import ListNotations.
Local Open Scope Z_scope.

Section Spec.
Context {D : Type}.

(** The data of session [id] and when it was last used (created or
    successfully looked up), unless it was never created, was erased, or was
    looked up when it had expired. *)
Fixpoint last_use (keep : Z) (log : list (call D * reply D)) (id : list N) : option (D * Z) :=
  match log with
  | [] => None
  | (CGenerate _ data, RGenerate id' t) :: log' =>
      if list_eqb id' id then Some (data, t) else last_use keep log' id
  | (CGet now _ tr id', _) :: log' =>
      if list_eqb id' id then
        match last_use keep log' id with
        | Some (d, u) => if now - keep <=? u then Some (d, tr) else None
        | None => None
        end
      else last_use keep log' id
  | (CErase id', _) :: log' =>
      if list_eqb id' id then None else last_use keep log' id
  | _ :: log' => last_use keep log' id
  end.

(** The clock readings of a call in the order they are made. *)
Definition times (c : call D) : list Z :=
  match c with
  | CGenerate draws _ => map snd draws
  | CGet now tc tr _ => [now; tc; tr]
  | CErase _ => []
  end.

(** The clock never goes back. *)
Fixpoint nondecreasing (from : Z) (l : list Z) : Prop :=
  match l with
  | [] => True
  | t :: l' => from <= t /\ nondecreasing t l'
  end.
End Spec.
