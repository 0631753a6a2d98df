(** A concrete execution of the whole server in which a callback is used late. *)
From Coq Require Import String List NArith ZArith Bool.
From Verif Require Import Model.Base Model.Protocol Model.Transceiver Model.RequestMap Model.Streams Model.Environment
  Model.Request Model.System Spec.EndianSpec Spec.WireSpec Spec.EnvironmentSpec Spec.RequestSpec Spec.TransceiverSpec Spec.SystemSpec
  Proofs.RequestLifeProofs Spec.SystemCases.
From Verif Require Model.Manager.
Import ListNotations.
Local Open Scope N_scope.

(** An application that asks for something when the request is there and
    answers with what it gets by its callback. *)
Definition asking : application N :=
  mkApp (fun c u =>
    match c with
    | CResponse e m =>
        if (m_type m =? 0)%Z then (u, e, [], false)
        else (u, e, [(false, OpWrite (map (fun c => c mod 256) (m_data m)))], true)
    | _ => default_call c u
    end) (fun _ => (true, true)).

Notation astep := (sstep (fun b _ => b) (repeat 0) (fun _ => 0%Z) Narrow asking 1000 0).
Notation aexec := (sexec (fun b _ => b) (repeat 0) (fun _ => 0%Z) Narrow asking 1000 0).

(** As [drive]. *)
Fixpoint adrive (fuel : nat) (prefer script : list sev) (x : sys (U := N)) : list sev :=
  match fuel with
  | O => []
  | S f =>
      let go v := match astep v x with Some (Done x') => Some (v, x') | _ => None end in
      match fold_right (fun v r => match go v with Some p => Some p | None => r end) None prefer with
      | Some (v, x') => v :: adrive f prefer script x'
      | None =>
          match script with
          | [] => []
          | v :: script' => match go v with Some (_, x') => v :: adrive f prefer script' x' | None => [] end
          end
      end
  end.
Definition aafter (l : list sev) (x : sys (U := N)) : sys (U := N) := match aexec l x with Some (Done x') => x' | _ => x end.

(** The web server sends a whole request, gives it up, and begins another with
    the same id. *)
Definition abort_record : message := record_message 2 5 [] [] 0.
Definition given_up : list message := quick_begin :: quick_rest ++ [abort_record; quick_begin].
Definition given_up_bytes : list N := concat (map m_data given_up).
Definition late_run1 : list sev :=
  adrive 600 (handler_prefer ++ io_prefer) (start1 ++ [SNet (EPeer 1 given_up_bytes)] ++ repeat poll1 8 ++ [poll0]) (y_init 0).

(** Then another thread answers the first one. *)
Definition late_answer : message := mkMsg 1 (lit "secret of the first").
Definition late_mid : sys (U := N) := aafter late_run1 (y_init 0).
Definition late_call : sev := SMan 7 (Manager.APush (mkRid 1 5) late_answer).
Definition late_run2 : list sev :=
  adrive 400 (SMan 7 (Manager.ARun 1) :: handler_prefer ++ io_prefer) [poll0; poll0] (aafter [late_call] late_mid).
Definition late_end : sys (U := N) := aafter late_run2 (aafter [late_call] late_mid).
