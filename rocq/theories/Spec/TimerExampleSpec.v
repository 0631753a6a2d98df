(** What the timer example should do. *)
From Coq Require Import String List NArith ZArith Bool.
From Verif Require Import Model.Base Model.Streams Model.Environment Model.Request Model.TimerExample Spec.StreamSpec.
Import ListNotations.

(** ** The stopwatch *)
Section Log.
Context {A : Type}.

(** What the log of the stopwatch tells. *)
Definition pushed (l : list (wevent A)) : list item := flat_map (fun e => match e with Pushed i => [i] | _ => [] end) l.
Definition called (l : list (wevent A)) : list item := flat_map (fun e => match e with Called _ i => [i] | _ => [] end) l.

Definition running (s : watch A) : Prop := w_pc s <> WNone /\ w_pc s <> WEnd.

(** The number of turns of the thread; the number of items in a list, and of
    those pushed, that come before [w]. *)
Definition turns (acts : list (waction A)) : nat :=
  length (filter (fun a => match a with ATurn => true | _ => false end) acts).
Definition before (w : Z) (q : list (Z * A)) : nat := length (filter (fun i => fst i <? w)%Z q).
Definition pushes (acts : list (waction A)) : list item :=
  flat_map (fun a => match a with APush i => [i] | _ => [] end) acts.
End Log.

(** ** Requests that wait for messages *)
Local Open Scope N_scope.

(** The responses of an application to the messages: what it writes, what it
    becomes, whether it says that the request is done, and the messages left
    then. *)
Fixpoint replies {U} (A : application U) (e : env) (u : U) (ms : list message)
  : list (bool * sop) * U * bool * list message :=
  match ms with
  | [] => ([], u, false, [])
  | m :: ms' =>
      let '(u', e', ops, b) := a_call A (CResponse e m) u in
      if b then (ops, u', true, ms')
      else let '(ops', u'', b', rest) := replies A e' u' ms' in (ops ++ ops', u'', b', rest)
  end.

(** The last thing done was to flush the output stream. *)
Definition flushed (ops : list (bool * sop)) : Prop := exists pre, ops = pre ++ [(false, OpFlush)].

(** The document of the timer up to [n]. *)
Definition timer_head : list N :=
  lit "Content-Type: text/html; charset=iso-8859-1" ++ [13; 10; 13; 10] ++ lit "<!DOCTYPE html>" ++ [10] ++
  lit "<html lang='en'><head><meta charset='iso-8859-1' /><title>fastcgi++: Timer</title></head><body><p>".
Definition timer_text (n : nat) : list N :=
  timer_head ++ flat_map (fun i => [48 + N.of_nat i] ++ lit "...") (seq 0 n).
