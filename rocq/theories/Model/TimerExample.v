(** Model of the timer example (examples/timer.cpp): its stopwatch, a thread
    that sends messages at given times, and its request. *)
From Coq Require Import String List NArith ZArith Bool.
From Verif Require Import Model.Base Model.WebMaps Model.Streams Model.Environment Model.Request Model.SessionExample.
Import ListNotations.
Local Open Scope Z_scope.

Section Stopwatch.
(** The callback and message of an item. *)
Context {A : Type}.

(** Item, timer.cpp 36-61: the wakeup time and the rest. *)
Definition item : Type := Z * A.

(** Where the thread of the stopwatch is. *)
Inductive wpc :=
| WNone                  (* none, or joined *)
| WTop                   (* 67, waiting for the mutex or holding it *)
| WWait                  (* 70 *)
| WUntil (t : Z)         (* 81 *)
| WEnd.                  (* 84, not joined *)

Inductive wevent :=
| Pushed (i : item)
| Called (now : Z) (i : item).

(** timer.cpp 31-34, 62; [w_now]: the steady clock; [w_stop]: someone waits in
    [join] (120); [w_log]: not in the C++, oldest first. *)
Record watch := mkWatch {
  w_queue : list item;
  w_kill : bool;
  w_pc : wpc;
  w_stop : bool;
  w_now : Z;
  w_log : list wevent
}.

(** Line 176: an object of static storage duration starts as zeros. *)
Definition watch_init (t : Z) : watch := mkWatch [] false WNone false t [].

(** 93-97: [std::set] with [operator<] of 52-55, so an item with the wakeup
    time of another is not inserted. *)
Fixpoint insert (i : item) (q : list item) : list item :=
  match q with
  | [] => [i]
  | j :: q' => if fst i <? fst j then i :: q else if fst i =? fst j then q else j :: insert i q'
  end.

(** [notify_one]: at most the thread waits. *)
Definition notify (pc : wpc) : wpc :=
  match pc with WWait | WUntil _ => WTop | _ => pc end.

(** What may happen next: timer.cpp 63-130. *)
Inductive waction :=
| ATick (d : nat)              (* time passes *)
| APush (i : item)             (* 87-99 *)
| AStart                       (* 101-110 *)
| AStop                        (* 112-119 *)
| AJoin                        (* 120: the thread has ended *)
| ATurn.                       (* the thread goes on *)

Definition watch_log (e : list wevent) (s : watch) : watch :=
  mkWatch (w_queue s) (w_kill s) (w_pc s) (w_stop s) (w_now s) (w_log s ++ e).
Definition goes (pc : wpc) (s : watch) : watch :=
  mkWatch (w_queue s) (w_kill s) pc (w_stop s) (w_now s) (w_log s).

(** One turn of the loop 67-83; the mutex is held except in the waits.  A wait
    may end at any time, whether notified, at its time, or spuriously. *)
Definition turn (s : watch) : watch :=
  match w_pc s with
  | WNone | WEnd => s
  | WWait | WUntil _ => goes WTop s
  | WTop =>
      if w_kill s then goes WEnd s
      else match w_queue s with
           | [] => goes WWait s
           | i :: q =>
               if fst i <=? w_now s
               then mkWatch q (w_kill s) WTop (w_stop s) (w_now s) (w_log s ++ [Called (w_now s) i])
               else goes (WUntil (fst i)) s
           end
  end.

(** Simplified: [stop] is not called by two threads at a time. *)
Definition wact (a : waction) (s : watch) : watch :=
  match a with
  | ATick d => mkWatch (w_queue s) (w_kill s) (w_pc s) (w_stop s) (w_now s + Z.of_nat d) (w_log s)
  | APush i => mkWatch (insert i (w_queue s)) (w_kill s) (notify (w_pc s)) (w_stop s) (w_now s) (w_log s ++ [Pushed i])
  | AStart =>
      match w_pc s with
      | WNone => mkWatch (w_queue s) false WTop (w_stop s) (w_now s) (w_log s)
      | _ => s
      end
  | AStop =>
      match w_pc s with
      | WNone => s
      | pc => mkWatch (w_queue s) true (notify pc) true (w_now s) (w_log s)
      end
  | AJoin =>
      match w_pc s with
      | WEnd => if w_stop s then mkWatch (w_queue s) (w_kill s) WNone false (w_now s) (w_log s) else s
      | _ => s
      end
  | ATurn => turn s
  end.

(** Auxiliary, no counterpart in the code: the execution, one step after
    another. *)
Definition wrun (acts : list waction) (s : watch) : watch := fold_left (fun s a => wact a s) acts s.
End Stopwatch.
Arguments watch : clear implicits.
Arguments waction : clear implicits.
Arguments wevent : clear implicits.

(** The request, timer.cpp 129-173: [m_time], and the wakeup times pushed,
    in seconds since [m_startTime].  [dec]: how a number looks. *)
Local Open Scope N_scope.
Definition timer_app (dec : N -> list N) : application (N * list N) :=
  mkApp (fun c u =>
           match c with
           | CResponse e _ =>
               if fst u <? 5 then
                 ((fst u + 1, snd u ++ [fst u + 1]), e,
                  map (pair false)
                    ((if fst u =? 0 then
                        [nw "Content-Type: text/html; charset=iso-8859-1"; OpWrite [13; 10; 13; 10]; nw "<!DOCTYPE html>"; OpWrite [10];
                         nw "<html lang='en'><head><meta charset='iso-8859-1' /><title>fastcgi++: Timer</title></head><body><p>"]
                      else []) ++
                     [OpWrite (dec (fst u)); nw "..."; OpFlush]),
                  false)
               else (u, e, map (pair false) [nw "5</p></body></html>"], true)
           | _ => default_call c u
           end) (fun _ => (true, true)).
