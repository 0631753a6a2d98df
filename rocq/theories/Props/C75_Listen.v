(** C75: what listening on a name does to files and descriptors. *)
From Coq Require Import List NArith Bool Arith.
From Verif Require Import Model.Base Model.Sockets Model.Listen Spec.ListenSpec Proofs.ListenProofs.
Import ListNotations.
Local Open Scope N_scope.

(** C75.  Listening on a name of at most 107 bytes that returns true adds one
    listener, on a socket file of that name with the mode and owner asked for,
    records the name, and touches no other file. *)
Theorem C75_listens : forall l s k name mode owner group s' h,
  lreach l s -> listen_unix k name mode owner group s = (s' :: h, LRet true) -> (0 < length name <= 107)%nat ->
  exists fd f, k_fd k = Some fd /\ findN fd (l_open s) = None
    /\ l_open s' = (fd, l_next s) :: l_open s
    /\ l_listening s' = l_next s :: l_listening s
    /\ l_listeners s' = fd :: l_listeners s
    /\ l_filenames s' = l_filenames s ++ [name]
    /\ file_at name (l_files s') = Some f /\ f_sock f = Some (l_next s) /\ as_asked k mode owner group f
    /\ (forall p, p <> name -> file_at p (l_files s') = file_at p (l_files s)).
Proof. exact listens. Qed.
Print Assumptions C75_listens.

(** Between any two system calls of [listen], a socket on which connections
    can be made and that was not there before has a file that already has the
    mode and owner asked for. *)
Theorem C75_guarded : forall l s k name mode owner group h out w,
  lreach l s -> listen_unix k name mode owner group s = (h, out) -> In w h -> name <> [] ->
  forall id, In id (l_listening w) ->
  In id (l_listening s)
  \/ id = l_next s /\ exists f, file_at (sun_path name) (l_files w) = Some f /\ f_sock f = Some id /\ as_asked k mode owner group f.
Proof. exact guarded. Qed.
Print Assumptions C75_guarded.

(** If it returns false no descriptor stays open and nothing is recorded.  A
    file that was there under the name may be gone; a new socket file is left
    only if chown, chmod or listen failed or the name is too long. *)
Theorem C75_failed : forall l s k name mode owner group s' h,
  lreach l s -> listen_unix k name mode owner group s = (s' :: h, LRet false) ->
  l_open s' = l_open s /\ l_listening s' = l_listening s /\ l_listeners s' = l_listeners s /\ l_filenames s' = l_filenames s
  /\ forall p, file_at p (l_files s') = file_at p (l_files s)
     \/ (p = name /\ file_at p (l_files s') = None)
     \/ (p = sun_path name /\ (exists f, file_at p (l_files s') = Some f /\ f_sock f = Some (l_next s))
         /\ (k_chown k = false \/ k_chmod k = false \/ k_listen k = false \/ (107 < length name)%nat)).
Proof. exact failed. Qed.
Print Assumptions C75_failed.

(** Behaviour is undefined only with an owner and a group of which one is
    unknown to the system. *)
Theorem C75_undefined : forall l s k name mode owner group,
  lreach l s -> snd (listen_unix k name mode owner group s) = LUndef ->
  owner <> None /\ group <> None /\ (k_user k = None \/ k_group k = None).
Proof. exact undefined. Qed.
Print Assumptions C75_undefined.

(** Listening on an interface: no descriptor of a failed attempt stays open. *)
Theorem C75_interface : forall l s t s', lreach l s ->
  (listen_tcp t s = (s', LRet false) ->
     l_files s' = l_files s /\ l_open s' = l_open s /\ l_listening s' = l_listening s /\ l_listeners s' = l_listeners s
     /\ l_filenames s' = l_filenames s)
  /\ (listen_tcp t s = (s', LRet true) ->
     exists fd id, In (Some (fd, true)) t /\ findN fd (l_open s) = None
       /\ l_files s' = l_files s /\ l_open s' = (fd, id) :: l_open s /\ l_listening s' = id :: l_listening s
       /\ l_listeners s' = fd :: l_listeners s /\ l_filenames s' = l_filenames s).
Proof. exact tcp_reach. Qed.
Print Assumptions C75_interface.

(** Destroying the group ends all listening, closes every descriptor but 0 if
    that was not listened on, removes the recorded files as far as the system
    allows and touches no others. *)
Theorem C75_destroyed : forall l s may, lreach l s ->
  let s' := group_destroy may s in
  l_listening s' = []
  /\ (forall fd id, In (fd, id) (l_open s') <-> fd = 0 /\ In (fd, id) (l_open s) /\ ~ In fd (l_listeners s))
  /\ (forall p, In p (l_filenames s) -> may p = true -> file_at p (l_files s') = None)
  /\ (forall p, ~ In p (l_filenames s) -> file_at p (l_files s') = file_at p (l_files s)).
Proof. exact destroyed. Qed.
Print Assumptions C75_destroyed.

(** No socket file outlives the group, if every name fits and no call failed
    after its bind. *)
Theorem C75_no_socket_left : forall l s, Forall smooth l -> lreach l s ->
  forall p f, file_at p (l_files (group_destroy (fun _ => true) s)) = Some f -> f_sock f = None.
Proof. exact no_socket_left. Qed.
Print Assumptions C75_no_socket_left.

(** A longer name can be listened on only without mode and owner.  Its first
    107 bytes are then the file, which outlives the group, and the name can
    not be listened on again, whatever the kernel answers. *)
Theorem C75_long_name : forall l s k name mode owner group s' h,
  lreach l s -> (107 < length name)%nat -> listen_unix k name mode owner group s = (s' :: h, LRet true) ->
  ~ In (sun_path name) (l_filenames s) ->
  (mode = 0xffffffff /\ (owner = None \/ group = None))
  /\ (exists f, file_at (sun_path name) (l_files s') = Some f /\ f_sock f = Some (l_next s))
  /\ forall may, let d := group_destroy may s' in
     file_at (sun_path name) (l_files d) = file_at (sun_path name) (l_files s')
     /\ forall zero k' mode' owner' group',
        snd (listen_unix k' name mode' owner' group' (mkL (l_files d) zero 1 [] [] [])) <> LRet true.
Proof. exact long_name. Qed.
Print Assumptions C75_long_name.

(** "A failed listen leaves no file" is false: if ::listen fails the socket
    file stays, even when the group is destroyed. *)
Theorem C75_left_over_refuted : exists k name mode s' h f,
  listen_unix k name mode None None (l_init [] false) = (s' :: h, LRet false)
  /\ forall may, file_at name (l_files (group_destroy may s')) = Some f /\ f_sock f <> None.
Proof. exact left_over. Qed.
Print Assumptions C75_left_over_refuted.

(** "A failed listen removes nothing" is false, nor need what it removes be a
    socket. *)
Theorem C75_removes_refuted : exists k name s0 s' h f,
  lreach [] s0 /\ file_at name (l_files s0) = Some f /\ f_sock f = None
  /\ listen_unix k name 0xffffffff None None s0 = (s' :: h, LRet false)
  /\ file_at name (l_files s') = None.
Proof. exact removes_any. Qed.
Print Assumptions C75_removes_refuted.

(** "The owner is set" is false if no group is given. *)
Theorem C75_owner_alone_refuted : exists k name o s' h f,
  listen_unix k name 0xffffffff (Some o) None (l_init [] false) = (s' :: h, LRet true)
  /\ file_at name (l_files s') = Some f /\ k_user k <> Some (fst (f_owner f)).
Proof. exact owner_alone. Qed.
Print Assumptions C75_owner_alone_refuted.

(** "An unknown owner makes it return false" is false. *)
Theorem C75_unknown_owner_refuted : exists k name o g,
  snd (listen_unix k name 0xffffffff (Some o) (Some g) (l_init [] false)) = LUndef.
Proof. exact unknown_owner. Qed.
Print Assumptions C75_unknown_owner_refuted.

(** Concrete cases.  A run with a named socket with mode 0660 and owner, one on
    an interface whose first address is taken, descriptor 0, and another
    program's file: three listeners ... *)
Definition ex_run : list lop :=
  [LOther [47; 120] (Some (420, (0, 0))); LUnix good sockname 432 (Some [119]) (Some [119]); LTcp [None; Some (6, false); Some (6, true)]; LDefault true].
Example C75_ex_run :
  match lexec ex_run (l_init [(sockname, (420, (0, 0)))] true) with
  | Some s => (l_listeners s, l_filenames s, map fst (l_open s), file_at sockname (l_files s),
               l_files (group_destroy (fun _ => true) s), l_open (group_destroy (fun _ => true) s))
  | None => ([], [], [], None, [], [])
  end
  = ([0; 6; 5], [sockname], [6; 5; 0], Some (mkFile (Some 1%nat) 432 (1000, 100)),
     [([47; 120], mkFile None 420 (0, 0))], []).
Proof. vm_compute. reflexivity. Qed.
Example C75_ex_smooth : Forall smooth ex_run.
Proof. repeat constructor. Qed.
(** ... and a name of 110 bytes: it is listened on, and not a second time. *)
Definition longname : path := repeat 97 110.
Example C75_ex_long :
  match listen_unix good longname 0xffffffff None None (l_init [] false) with
  | (s :: _, LRet true) =>
      (match file_at longname (l_files s) with None => true | _ => false end,
       match file_at (repeat 97 107) (l_files (group_destroy (fun _ => true) s)) with None => false | _ => true end,
       snd (listen_unix good longname 0xffffffff None None (group_destroy (fun _ => true) s)))
  | _ => (false, false, LNot)
  end = (true, true, LRet false).
Proof. vm_compute. reflexivity. Qed.
