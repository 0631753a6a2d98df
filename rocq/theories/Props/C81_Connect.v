(** C81: connecting by name. *)
From Coq Require Import List NArith Bool Arith.
From Verif Require Import Model.Base Model.Sockets Model.Listen Spec.ListenSpec Proofs.ListenProofs Proofs.ConnectProofs.
Import ListNotations.
Local Open Scope N_scope.

(** Who is listening on a name is who is reached, also with every name that has
    the same first 107 bytes, until [listen] is called for such a name again or
    someone else touches the file. *)
Theorem C81_reaches : forall l s k name mode owner group s1 h l2 s2 other fd abstract,
  lreach l s -> listen_unix k name mode owner group s = (s1 :: h, LRet true) -> name <> [] ->
  lexec l2 s1 = Some s2 -> Forall (elsewhere (sun_path name)) l2 -> sun_path other = sun_path name -> findN fd (l_open s2) = None ->
  snd (connect_unix (Some fd) true abstract other s2) = CConn fd (l_next s).
Proof. exact connect_reaches. Qed.
Print Assumptions C81_reaches.

(** What is reached is listening, by a call of [listen] that returned true and
    was for this name as far as 107 bytes go. *)
Theorem C81_only : forall l files zero s fd ok abstract name s' fd' id,
  lexec l (l_init files zero) = Some s -> connect_unix fd ok abstract name s = (s', CConn fd' id) -> name <> [] ->
  In id (l_listening s) /\ l_open s' = (fd', l_next s) :: l_open s
  /\ exists l1 k name0 mode owner group l2 s1 s2 h, l = l1 ++ LUnix k name0 mode owner group :: l2
     /\ lexec l1 (l_init files zero) = Some s1 /\ listen_unix k name0 mode owner group s1 = (s2 :: h, LRet true)
     /\ l_next s1 = id /\ sun_path name0 = sun_path name.
Proof. exact connect_only. Qed.
Print Assumptions C81_only.

(** An attempt that fails leaves nothing behind. *)
Theorem C81_failed : forall l s fd ok abstract name s', lreach l s -> connect_unix fd ok abstract name s = (s', CInvalid) ->
  l_open s' = l_open s /\ l_files s' = l_files s /\ l_listening s' = l_listening s /\ l_listeners s' = l_listeners s /\ l_filenames s' = l_filenames s.
Proof. exact connect_fails. Qed.
Print Assumptions C81_failed.

(** "A name that is being listened on is refused" is false: [listen] takes it
    over, the first listener goes on listening, and nothing leads to it any
    more, whatever happens later. *)
Theorem C81_taken_over : forall l s id name k mode owner group s1 h l2 s2 f,
  lreach l s -> file_at name (l_files s) = Some f -> f_sock f = Some id -> In id (l_listening s) ->
  listen_unix k name mode owner group s = (s1 :: h, LRet true) -> lexec l2 s1 = Some s2 ->
  In id (l_listening s2) /\ forall fd ok abstract other s' fd', other <> [] -> connect_unix fd ok abstract other s2 <> (s', CConn fd' id).
Proof. exact taken_over. Qed.
Print Assumptions C81_taken_over.

(** Cases: a listener on a name and one on an interface; reached, not reached
    without permission, and nobody there. *)
Definition kgood (fd : N) : kans := mkK true (Some fd) true (493, (0, 0)) None None true true true true.
Definition here : path := [47; 115].
Definition run2 : list lop := [LUnix (kgood 5) here 0xffffffff None None; LTcp [Some (6, true)]].
Example C81_ex :
  match lexec run2 (l_init [] false) with
  | Some s => (snd (connect_unix (Some 9) true None here s), snd (connect_unix (Some 9) false None here s),
               snd (connect_unix (Some 9) true None [47] s), snd (connect_unix None true None here s))
  | None => (CNot, CNot, CNot, CNot)
  end = (CConn 9 1, CInvalid, CInvalid, CInvalid).
Proof. vm_compute. reflexivity. Qed.
Example C81_ex_elsewhere : Forall (elsewhere here) [LTcp [Some (6, true)]; LUnix (kgood 7) [47; 116] 0xffffffff None None; LOther [47] None].
Proof. repeat constructor; vm_compute; discriminate. Qed.
(** Taken over: both listen, the second is reached. *)
Example C81_ex_taken :
  match lexec (run2 ++ [LUnix (kgood 7) here 0xffffffff None None]) (l_init [] false) with
  | Some s => (l_listening s, snd (connect_unix (Some 9) true None here s))
  | None => ([], CNot)
  end = ([3; 2; 1]%nat, CConn 9 3).
Proof. vm_compute. reflexivity. Qed.
(** Two different names of 108 bytes: who wants the one gets the other. *)
Example C81_ex_long :
  let a := repeat 97 107 in
  match lexec [LUnix (kgood 5) (a ++ [98]) 0xffffffff None None] (l_init [] false) with
  | Some s => (snd (connect_unix (Some 9) true None (a ++ [99]) s), file_at (a ++ [98]) (l_files s))
  | None => (CNot, None)
  end = (CConn 9 1, None).
Proof. vm_compute. reflexivity. Qed.
