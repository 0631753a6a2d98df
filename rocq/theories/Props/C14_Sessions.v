(** C14, C53: session lifetime and cookie expiration. *)
From Coq Require Import List NArith ZArith Lia.
From Verif Require Import Model.Base Model.Sessions Spec.SessionSpec Proofs.SessionProofs.
Import ListNotations.
Local Open Scope Z_scope.

(** C14, any clock, even one that jumps back: what a lookup returns is the
    data of a session that was generated, not erased since, and last used no
    more than the keep-alive time ago. *)
Theorem C14_get_sound : forall (D : Type) keep t0 cs now tc tr id (d : D) log (ss : sessions D),
  run_calls cs [] (sessions_new keep t0) = (log, ss) ->
  fst (get now tc tr id ss) = Some d ->
  exists u, last_use keep log id = Some (d, u) /\ now - keep <= u.
Proof. exact @get_sound. Qed.
Print Assumptions C14_get_sound.

(** C14, clock that never goes back: exactly those sessions are returned. *)
Theorem C14_get_exact : forall (D : Type) keep t0 cs now tc tr id (d : D) log (ss : sessions D),
  run_calls cs [] (sessions_new keep t0) = (log, ss) ->
  nondecreasing t0 (flat_map times cs ++ [now; tc; tr]) ->
  (fst (get now tc tr id ss) = Some d <->
   exists u, last_use keep log id = Some (d, u) /\ now - keep <= u).
Proof. exact @get_exact. Qed.
Print Assumptions C14_get_exact.

(** Two sessions, one kept alive by lookups past a sweep, one left to expire;
    the first generate draws an id already in use and draws again. *)
Example C14_get_exact_ex :
  let cs := [ CGenerate [([1%N], 100)] 7; CGenerate [([1%N], 101); ([2%N], 101)] 8;
              CGet 109 109 109 [1%N]; CGet 111 111 111 [1%N] ] in
  let ss := snd (run_calls cs [] (sessions_new 10 100)) in
  nondecreasing 100 (flat_map times cs ++ [112; 112; 112]) /\
  fst (get 112 112 112 [1%N] ss) = Some 7 /\ fst (get 112 112 112 [2%N] ss) = None /\
  fst (get 111 111 111 [2%N] ss) = Some 8.
Proof. cbn. repeat split; lia. Qed.

(** C14.  A generated id belongs to no session that is still alive, no other
    session is touched, and the number of sessions grows by one. *)
Theorem C14_generate_fresh : forall (D : Type) keep t0 cs draws (data : D) id ss' log (ss : sessions D),
  run_calls cs [] (sessions_new keep t0) = (log, ss) ->
  generate draws data ss = Some (id, ss') ->
  nondecreasing t0 (flat_map times cs) ->
  (forall d u, last_use keep log id = Some (d, u) -> u < last (flat_map times cs) t0 - keep) /\
  (forall id', id' <> id -> s_find (ss_map ss') id' = s_find (ss_map ss) id') /\
  size ss' = S (size ss).
Proof. exact @generate_fresh. Qed.
Print Assumptions C14_generate_fresh.

Example C14_generate_fresh_ex :
  let cs := [ CGenerate [([1%N], 100)] 7 ] in
  let ss := snd (run_calls cs [] (sessions_new 10 100)) in
  exists ss', generate [([1%N], 101); ([1%N], 101); ([2%N], 102)] 8 ss = Some ([2%N], ss') /\
    size ss' = 2%nat.
Proof. eexists. split; reflexivity. Qed.

(** C14.  The reported size is the number of distinct ids stored. *)
Theorem C14_size_counts : forall (D : Type) keep t0 cs log (ss : sessions D),
  run_calls cs [] (sessions_new keep t0) = (log, ss) ->
  exists ids, NoDup ids /\ length ids = size ss /\
    forall id, In id ids <-> s_find (ss_map ss) id <> None.
Proof. exact @size_counts. Qed.
Print Assumptions C14_size_counts.

Example C14_size_counts_ex :
  size (snd (run_calls [ CGenerate [([1%N], 100)] 7; CGenerate [([2%N], 100)] 7; CErase [1%N] ]
               [] (sessions_new 10 100))) = 1%nat.
Proof. reflexivity. Qed.

(** C53.  Right after a lookup the cookie expiration time is later than the
    expiry of every session used up to then. *)
Theorem C53_expiration_after_get : forall (D : Type) keep t0 cs now tc tr id log (ss : sessions D),
  run_calls cs [] (sessions_new keep t0) = (log, ss) ->
  0 < keep -> now <= tc ->
  now + keep < ss_expiration (snd (get now tc tr id ss)).
Proof. exact @expiration_after_get. Qed.
Print Assumptions C53_expiration_after_get.

Example C53_expiration_after_get_ex :
  ss_expiration (snd (get 500 501 501 [1%N]
    (snd (run_calls [ @CGenerate nat [([1%N], 100)] 7%nat ] [] (sessions_new 10 100))))) = 521.
Proof. reflexivity. Qed.

(** C53.  Without a lookup it is not: for every keep-alive there is a history
    of one generate after which the session lives on while the cookie
    expiration lies in the past. *)
Theorem C53_expiration_stale_refuted : forall keep, 0 <= keep ->
  exists (cs : list (call nat)) (now : Z) log (ss : sessions nat) (id : list N),
    run_calls cs [] (sessions_new keep 0) = (log, ss) /\
    nondecreasing 0 (flat_map times cs ++ [now; now; now]) /\
    fst (get now now now id ss) = Some 7%nat /\
    ss_expiration ss < now.
Proof. exact expiration_stale. Qed.
Print Assumptions C53_expiration_stale_refuted.

Example C53_expiration_stale_ex :
  ss_expiration (snd (run_calls [ CGenerate [([1%N], 1000)] 7%nat ] [] (sessions_new 10 0))) = 20.
Proof. reflexivity. Qed.
