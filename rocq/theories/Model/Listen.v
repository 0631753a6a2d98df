(** Model of what [SocketGroup::listen] does to descriptors and files
    (src/sockets.cpp 160-170, 204-368) and [connect] with a name (370-402): the sequence of system calls, with
    what the kernel answers as input, and the destructor.

    Simplified: two names are the same file exactly if they are the same text;
    the warnings of [set_reuse] (187-202) and the log are left out. *)
From Coq Require Import List NArith Bool Arith.
From Verif Require Import Model.Base Model.Sockets.
Import ListNotations.
Local Open Scope N_scope.

(** The name of a file. *)
Definition path := list N.
Fixpoint path_eqb (a b : path) : bool :=
  match a, b with
  | [], [] => true
  | x :: a, y :: b => N.eqb x y && path_eqb a b
  | _, _ => false
  end.

(** A file: the socket bound to it, if it is one; its mode and owner. *)
Record file := mkFile { f_sock : option nat; f_mode : N; f_owner : N * N }.

(** The kernel's side and the group's m_listeners and m_filenames.  Sockets
    are numbered as they are made, descriptors refer to them. *)
Record lst := mkL {
  l_files : list (path * file);
  l_open : list (N * nat);
  l_next : nat;
  l_listening : list nat;       (* sockets on which ::listen succeeded *)
  l_listeners : list N;
  l_filenames : list path
}.

(** Auxiliary, no counterpart in the code: what the file system has at a path.
    *)
Fixpoint file_at (p : path) (l : list (path * file)) : option file :=
  match l with [] => None | (q, f) :: l => if path_eqb q p then Some f else file_at p l end.
Definition file_drop (p : path) (l : list (path * file)) : list (path * file) :=
  filter (fun x => negb (path_eqb (fst x) p)) l.
Definition file_put (p : path) (f : file) (l : list (path * file)) : list (path * file) :=
  (p, f) :: file_drop p l.

(** Auxiliary, no counterpart in the code: updates of one part of the state.
    *)
Definition set_files v s := mkL v (l_open s) (l_next s) (l_listening s) (l_listeners s) (l_filenames s).
Definition set_fds v s := mkL (l_files s) v (l_next s) (l_listening s) (l_listeners s) (l_filenames s).
Definition set_heard v s := mkL (l_files s) (l_open s) (l_next s) v (l_listeners s) (l_filenames s).

(** What the kernel answers in one call of [listen] with a name. *)
Record kans := mkK {
  k_remove : bool;              (* an existing file may be removed *)
  k_fd : option N;              (* socket *)
  k_bind : bool;
  k_new : N * (N * N);          (* mode and owner of a new file *)
  k_user : option N;            (* getpwnam *)
  k_group : option N;           (* getgrnam *)
  k_chown : bool; k_chmod : bool; k_listen : bool;
  k_undo : bool                 (* the remove after a failed bind *)
}.

(** std::remove: true for success and for ENOENT. *)
Definition sys_remove (allowed : bool) (p : path) (s : lst) : lst * bool :=
  match file_at p (l_files s) with
  | None => (s, true)
  | Some _ => if allowed then (set_files (file_drop p (l_files s)) s, true) else (s, false)
  end.
Definition sys_socket (fd : N) (s : lst) : lst :=
  mkL (l_files s) ((fd, l_next s) :: l_open s) (S (l_next s)) (l_listening s) (l_listeners s) (l_filenames s).
(** Closing the only descriptor of a socket ends it. *)
Definition sys_close (fd : N) (s : lst) : lst :=
  match findN fd (l_open s) with
  | Some id => set_heard (filter (fun x => negb (Nat.eqb x id)) (l_listening s)) (set_fds (dropN fd (l_open s)) s)
  | None => s
  end.
(** bind: the name must be free.  An empty sun_path is an abstract address,
    for which there is no file. *)
Definition sys_bind (ok : bool) (new : N * (N * N)) (id : nat) (p : path) (s : lst) : option lst :=
  match p, file_at p (l_files s) with
  | [], _ => if ok then Some s else None
  | _, Some _ => None
  | _, None => if ok then Some (set_files (file_put p (mkFile (Some id) (fst new) (snd new)) (l_files s)) s) else None
  end.
Definition sys_chown (ok : bool) (p : path) (o : N * N) (s : lst) : option lst :=
  match file_at p (l_files s) with
  | Some f => if ok then Some (set_files (file_put p (mkFile (f_sock f) (f_mode f) o) (l_files s)) s) else None
  | None => None
  end.
Definition sys_chmod (ok : bool) (p : path) (m : N) (s : lst) : option lst :=
  match file_at p (l_files s) with
  | Some f => if ok then Some (set_files (file_put p (mkFile (f_sock f) m (f_owner f)) (l_files s)) s) else None
  | None => None
  end.
Definition sys_listen (ok : bool) (id : nat) (s : lst) : option lst :=
  if ok then Some (set_heard (id :: l_listening s) s) else None.

(** The result: what [listen] returns, undefined behaviour, or that the kernel
    would not answer so.  Beside it the states after each system call, the last
    first. *)
Inductive lout := LRet (b : bool) | LUndef | LNot.

(** 250-253: sun_path has 108 bytes, of which the last stays zero. *)
Definition sun_path (name : path) : path := firstn 107 name.

(** 269-282: [owner] and [group] both given. *)
Definition chown_step (k : kans) (name : path) (owner group : option path) (s : lst) : outcome (option lst) :=
  match owner, group with
  | Some _, Some _ =>
      match k_user k, k_group k with
      | Some u, Some g => Val (sys_chown (k_chown k) name (u, g) s)
      | _, _ => UB              (* 274: passwd->pw_uid, grp->gr_gid *)
      end
  | _, _ => Val (Some s)
  end.
(** 284-295. *)
Definition chmod_step (k : kans) (name : path) (mode : N) (s : lst) : option lst :=
  if N.eqb mode 0xffffffff then Some s else sys_chmod (k_chmod k) name mode s.

(** 229-309. *)
Definition listen_unix (k : kans) (name : path) (mode : N) (owner group : option path) (s : lst) : list lst * lout :=
  let '(s1, removed) := sys_remove (k_remove k) name s in
  if negb removed then ([s1], LRet false)
  else match k_fd k with
  | None => ([s1], LRet false)
  | Some fd =>
      match findN fd (l_open s1) with
      | Some _ => ([], LNot)
      | None =>
          let s2 := sys_socket fd s1 in
          match sys_bind (k_bind k) (k_new k) (l_next s1) (sun_path name) s2 with
          | None =>
              let s3 := sys_close fd s2 in
              ([fst (sys_remove (k_undo k) name s3); s3; s2; s1], LRet false)
          | Some s3 =>
              match chown_step k name owner group s3 with
              | UB => ([s3; s2; s1], LUndef)
              | Val None => ([sys_close fd s3; s3; s2; s1], LRet false)
              | Val (Some s4) =>
                  match chmod_step k name mode s4 with
                  | None => ([sys_close fd s4; s4; s3; s2; s1], LRet false)
                  | Some s5 =>
                      match sys_listen (k_listen k) (l_next s1) s5 with
                      | None => ([sys_close fd s5; s5; s4; s3; s2; s1], LRet false)
                      | Some s6 =>
                          ([mkL (l_files s6) (l_open s6) (l_next s6) (l_listening s6) (fd :: l_listeners s6) (l_filenames s6 ++ [name]);
                            s6; s5; s4; s3; s2; s1], LRet true)
                      end
                  end
              end
          end
      end
  end.

(** 204-227: [listen] on descriptor 0, which is open or not. *)
Definition listen_default (ok : bool) (s : lst) : lst * lout :=
  if memN 0 (l_listeners s) then (s, LRet false)
  else match findN 0 (l_open s) with
  | Some id =>
      if ok then (mkL (l_files s) (l_open s) (l_next s) (id :: l_listening s) (0 :: l_listeners s) (l_filenames s), LRet true)
      else (s, LRet false)
  | None => (s, LRet false)
  end.

(** 341-367, the attempts of the loop in order (which addresses they are for
    is in Model/Sockets.v): no socket, or a socket with which bind and listen
    went well or not. *)
Fixpoint listen_tcp (l : list (option (N * bool))) (s : lst) : lst * lout :=
  match l with
  | [] => (s, LRet false)
  | None :: l => listen_tcp l s
  | Some (fd, ok) :: l =>
      match findN fd (l_open s) with
      | Some _ => (s, LNot)
      | None =>
          let id := l_next s in
          let s1 := sys_socket fd s in
          if ok
          then (mkL (l_files s1) (l_open s1) (l_next s1) (id :: l_listening s1) (fd :: l_listeners s1) (l_filenames s1), LRet true)
          else listen_tcp l (sys_close fd s1)
      end
  end.

(** ::connect to a name: the socket whose file it is, if that is listening and
    the kernel allows it.  An empty name is an abstract address; what is there
    is [abstract]. *)
Definition sys_connect (ok : bool) (abstract : option nat) (p : path) (s : lst) : option nat :=
  match p with
  | [] => abstract
  | _ =>
      match file_at p (l_files s) with
      | Some f =>
          match f_sock f with
          | Some id => if ok && existsb (Nat.eqb id) (l_listening s) then Some id else None
          | None => None
          end
      | None => None
      end
  end.
(** 370-402: connect to a name.  [CConn]: a socket with this descriptor,
    connected to that one; [CInvalid]: an invalid socket; [CNot] as above.  The
    group's m_sockets is in Model/Sockets.v. *)
Inductive cout := CConn (fd : N) (to : nat) | CInvalid | CNot.
Definition connect_unix (fd : option N) (ok : bool) (abstract : option nat) (name : path) (s : lst) : lst * cout :=
  match fd with
  | None => (s, CInvalid)
  | Some fd =>
      match findN fd (l_open s) with
      | Some _ => (s, CNot)
      | None =>
          let s1 := sys_socket fd s in
          match sys_connect ok abstract (sun_path name) s1 with
          | Some id => (s1, CConn fd id)
          | None => (sys_close fd s1, CInvalid)
          end
      end
  end.

(** 160-170; [may]: whether the kernel allows a file to be removed. *)
Definition group_destroy (may : path -> bool) (s : lst) : lst :=
  let s1 := fold_left (fun s fd => sys_close fd s) (l_listeners s) s in
  fold_left (fun s p => fst (sys_remove (may p) p s)) (l_filenames s) s1.

(** What can happen: calls, and other programs putting and removing files that
    are no sockets. *)
Inductive lop :=
| LUnix (k : kans) (name : path) (mode : N) (owner group : option path)
| LDefault (ok : bool)
| LTcp (l : list (option (N * bool)))
| LOther (p : path) (f : option (N * (N * N))).

(** One call: sockets.cpp 160-402. *)
Definition lstep (o : lop) (s : lst) : option lst :=
  match o with
  | LUnix k name mode owner group =>
      match listen_unix k name mode owner group s with
      | (s' :: _, LRet _) => Some s'
      | _ => None
      end
  | LDefault ok => match listen_default ok s with (s', LRet _) => Some s' | _ => None end
  | LTcp l => match listen_tcp l s with (s', LRet _) => Some s' | _ => None end
  | LOther p None => Some (set_files (file_drop p (l_files s)) s)
  | LOther p (Some (m, o)) => Some (set_files (file_put p (mkFile None m o) (l_files s)) s)
  end.
Fixpoint lexec (l : list lop) (s : lst) : option lst :=
  match l with
  | [] => Some s
  | o :: l => match lstep o s with Some s' => lexec l s' | None => None end
  end.

(** Before: some files, none of which is a socket, and descriptor 0 may be a
    socket (number 0) given by the program's parent. *)
Definition l_init (files : list (path * (N * (N * N)))) (zero : bool) : lst :=
  mkL (map (fun x => (fst x, mkFile None (fst (snd x)) (snd (snd x)))) files) (if zero then [(0, 0%nat)] else []) 1 [] [] [].
