(** Model of [Http::Sessions] (include/fastcgi++/http.hpp 522-601, 683-747).
    Every operation holds [m_mutex] for its whole duration, so operations are
    atomic steps.  Calls of [std::time] are inputs. *)
From Coq Require Import List NArith ZArith Bool.
From Verif Require Import Model.Base.
Import ListNotations.
Local Open Scope Z_scope.

Section Sessions.
Context {D : Type}.   (* the data behind the shared pointer *)

(** One element of [m_sessions]: the key's bytes, the key's mutable
    [m_timestamp] and the data. *)
Record session := mkS { s_id : list N; s_time : Z; s_data : D }.

(** http.hpp 526-544.  [m_sessions] is a [std::map] ordered by [memcmp] of the
    15 bytes; only equality of keys matters to the operations, so it is an
    association list with unique keys.  [m_expiration] is represented by the
    time it spells. *)
Record sessions := mkSS {
  ss_keepAlive : Z;
  ss_cleanup : Z;
  ss_map : list session;
  ss_expiration : Z
}.

(** [find] of the std::map of sessions: http.hpp 720. *)
Fixpoint s_find (m : list session) (id : list N) : option session :=
  match m with
  | [] => None
  | s :: m' => if list_eqb (s_id s) id then Some s else s_find m' id
  end.

(** [erase] of the std::map of sessions: http.hpp 593, 712, 724. *)
Fixpoint s_erase (m : list session) (id : list N) : list session :=
  match m with
  | [] => []
  | s :: m' => if list_eqb (s_id s) id then m' else s :: s_erase m' id
  end.

(** [refresh], http.hpp 444-448, on the element with the given key. *)
Fixpoint s_refresh (m : list session) (id : list N) (t : Z) : list session :=
  match m with
  | [] => []
  | s :: m' => if list_eqb (s_id s) id then mkS (s_id s) t (s_data s) :: m'
               else s :: s_refresh m' id t
  end.

(** Constructor, http.hpp 555-560; setExpiration, 733-746. *)
Definition sessions_new (keepAlive now : Z) : sessions :=
  mkSS keepAlive (now + keepAlive) [] (now + keepAlive + keepAlive).

(** generate, http.hpp 683-697: [draws] are the random ids and creation times
    of the successive [SessionId()] temporaries; [None] when they run out. *)
Fixpoint generate (draws : list (list N * Z)) (data : D) (ss : sessions)
  : option (list N * sessions) :=
  match draws with
  | [] => None
  | (id, t) :: draws' =>
      match s_find (ss_map ss) id with
      | Some _ => generate draws' data ss
      | None => Some (id, mkSS (ss_keepAlive ss) (ss_cleanup ss)
                              (mkS id t data :: ss_map ss) (ss_expiration ss))
      end
  end.

(** get, http.hpp 699-731.  [now], [tc] and [tr] are the results of the calls
    of [std::time] at 703, 716 and 447. *)
Definition get (now tc tr : Z) (id : list N) (ss : sessions) : option D * sessions :=
  let oldest := now - ss_keepAlive ss in
  let ss1 :=
    if ss_cleanup ss <=? now then
      mkSS (ss_keepAlive ss) (tc + ss_keepAlive ss)
           (filter (fun s => negb (s_time s <? oldest)) (ss_map ss))
           (tc + ss_keepAlive ss + ss_keepAlive ss)
    else ss in
  match s_find (ss_map ss1) id with
  | Some s =>
      if s_time s <? oldest then
        (None, mkSS (ss_keepAlive ss1) (ss_cleanup ss1) (s_erase (ss_map ss1) id)
                    (ss_expiration ss1))
      else
        (Some (s_data s),
         mkSS (ss_keepAlive ss1) (ss_cleanup ss1) (s_refresh (ss_map ss1) id tr)
              (ss_expiration ss1))
  | None => (None, ss1)
  end.

(** erase, http.hpp 590-594. *)
Definition erase (id : list N) (ss : sessions) : sessions :=
  mkSS (ss_keepAlive ss) (ss_cleanup ss) (s_erase (ss_map ss) id) (ss_expiration ss).

(** size, http.hpp 571-575. *)
Definition size (ss : sessions) : nat := length (ss_map ss).

(** A call, with its clock readings and random draws. *)
Inductive call :=
| CGenerate (draws : list (list N * Z)) (data : D)
| CGet (now tc tr : Z) (id : list N)
| CErase (id : list N).

(** Auxiliary, no counterpart in the code: what a call answers. *)
Inductive reply :=
| RGenerate (id : list N) (t : Z)
| RGet (d : option D)
| RErase
| RNever.                 (* generate did not return with these draws *)

Definition step (c : call) (ss : sessions) : reply * sessions :=
  match c with
  | CGenerate draws data =>
      match generate draws data ss with
      | Some (id, ss') =>
          (RGenerate id (match s_find (ss_map ss') id with Some s => s_time s | None => 0 end), ss')
      | None => (RNever, ss)
      end
  | CGet now tc tr id => let '(r, ss') := get now tc tr id ss in (RGet r, ss')
  | CErase id => (RErase, erase id ss)
  end.

(** A run of calls: the log of calls and replies, newest first. *)
Fixpoint run_calls (cs : list call) (log : list (call * reply)) (ss : sessions)
  : list (call * reply) * sessions :=
  match cs with
  | [] => (log, ss)
  | c :: cs' => let '(r, ss') := step c ss in run_calls cs' ((c, r) :: log) ss'
  end.

End Sessions.
Arguments session : clear implicits.
Arguments sessions : clear implicits.
Arguments call : clear implicits.
Arguments reply : clear implicits.
