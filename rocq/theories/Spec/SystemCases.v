(** Concrete executions of the whole server. *)
From Coq Require Import String List NArith ZArith Bool.
From Verif Require Import Model.Base Model.Protocol Model.Transceiver Model.RequestMap Model.Streams Model.Environment
  Model.Request Model.System Spec.EndianSpec Spec.WireSpec Spec.EnvironmentSpec Spec.RequestSpec Spec.TransceiverSpec Spec.SystemSpec
  Proofs.RequestLifeProofs.
From Verif Require Model.Manager.
Import ListNotations.
Local Open Scope N_scope.

(** A narrow application that answers with the POST values and is done. *)
Definition quick : application N :=
  mkApp (fun c u =>
    match c with
    | CResponse e m =>
        (u, e, [(false, OpWrite (lit "Status: 200" ++ [13; 10; 13; 10]));
                (false, OpWrite (map (fun c => c mod 256) (flat_map snd (e_posts e))))], true)
    | _ => default_call c u
    end) (fun _ => (true, true)).

Notation qstep := (sstep (fun b _ => b) (repeat 0) (fun _ => 0%Z) Narrow quick 1000 0).
Notation qexec := (sexec (fun b _ => b) (repeat 0) (fun _ => 0%Z) Narrow quick 1000 0).
Notation qreach := (sreach (fun b _ => b) (repeat 0) (fun _ => 0%Z) Narrow quick 1000 0).

(** Request 5 on connection 1, which is to be kept. *)
Definition quick_begin : message := record_message 1 5 [0; 1; 1; 0; 0; 0; 0; 0] [] 0.
Definition quick_rest : list message := demo_head ++ demo_body ++ [demo_end].
Definition quick_recs : list (N * list N) := map (fun m => (5, m_data m)) (quick_begin :: quick_rest).
Definition quick_bytes : list N := concat (map snd quick_recs).

(** Take the first of [prefer] that can happen, otherwise go on with [script]. *)
Fixpoint drive (fuel : nat) (prefer script : list sev) (x : sys (U := N)) : list sev :=
  match fuel with
  | O => []
  | S f =>
      let go v := match qstep v x with Some (Done x') => Some (v, x') | _ => None end in
      match fold_right (fun v r => match go v with Some p => Some p | None => r end) None prefer with
      | Some (v, x') => v :: drive f prefer script x'
      | None =>
          match script with
          | [] => []
          | v :: script' => match go v with Some (_, x') => v :: drive f prefer script' x' | None => [] end
          end
      end
  end.

(** What the I/O thread and the handler thread 1 do by themselves. *)
Definition io_prefer : list sev :=
  [SFeed; SMan 0 (Manager.ARun 1); SNet (ERecv (KGive 8) (KGive 500)); SNet EPop; SNet (EWrite (WTake 500)); SNet EDone].
Definition handler_prefer : list sev :=
  [SSend 1; SMan 1 (Manager.AReturn true); SMan 1 (Manager.AReturn false); SMan 1 (Manager.ARun 1)].
Definition poll1 : sev := SNet (EPoll (Some (1, false))).
Definition poll0 : sev := SNet (EPoll None).

(** One request, start to end. *)
Definition start1 : list sev := [SNet (EAccept 1); SMan 1 Manager.ASpawn].
Definition quick_run : list sev :=
  drive 400 (handler_prefer ++ io_prefer) (start1 ++ [SNet (EPeer 1 quick_bytes); poll1; poll1; poll1; poll1; poll1; poll1; poll0]) (y_init 0).

(** The same up to where the response is on the wire and [response] has yet to
    return; then the next request with the same id, the first record of which
    arrives before it does. *)
Definition slow_prefer : list sev := [SSend 1; SMan 1 (Manager.AReturn false); SMan 1 (Manager.ARun 1)] ++ io_prefer.
Definition reuse_run1 : list sev :=
  drive 400 slow_prefer (start1 ++ [SNet (EPeer 1 quick_bytes); poll1; poll1; poll1; poll1; poll1; poll1; poll0]) (y_init 0).
Definition after (l : list sev) (x : sys (U := N)) : sys (U := N) := match qexec l x with Some (Done x') => x' | _ => x end.
Definition reuse_run2 : list sev :=
  drive 400 slow_prefer [SNet (EPeer 1 quick_bytes); poll1; SMan 1 (Manager.AReturn true); poll1; poll1; poll1; poll1; poll1; poll0]
    (after reuse_run1 (y_init 0)).

(** The next request with the same id, coming when the first is gone. *)
Definition again_run : list sev :=
  drive 400 (handler_prefer ++ io_prefer) [SNet (EPeer 1 quick_bytes); poll1; poll1; poll1; poll1; poll1; poll1; poll0]
    (after quick_run (y_init 0)).
