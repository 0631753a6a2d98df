(** The whole server: the network and the transceiver (Model/Transceiver.v),
    the manager and its threads (Model/Manager.v), the requests
    (Model/Request.v) and management records (Model/Management.v), tied
    together as in [Manager_base::Manager_base] (src/manager.cpp 33-58) and
    [Manager::makeRequest] (include/fastcgi++/manager.hpp 300-316).

    Thread 0 is the I/O thread, which runs [Transceiver::handler]; the others
    are handler threads or threads of the application.  The message that
    [Transceiver::receive] passes to [m_sendMessage], which is
    [Manager_base::push], is pushed before that thread does anything else.

    The end of the I/O thread is in Model/Shutdown.v.  Not modelled: several managers, what an
    application does besides answering its calls and pushing messages. *)
From Coq Require Import String List NArith ZArith Bool Arith.
From Verif Require Import Model.Base Model.Endian Model.Protocol Model.Block Model.Transceiver
  Model.RequestMap Model.Streams Model.Environment Model.Management.
From Verif Require Model.Manager Model.Request.
Import ListNotations.
Import Request.
Local Open Scope N_scope.

(** The bytes of a block; none of those handed to [m_sendMessage] is
    undetermined (C17). *)
Definition bytes_of (l : list obyte) : list N := map (fun b => match b with Some v => v | None => 0 end) l.

(** transceiver.cpp 181-188 and 196-198: the arguments of [m_sendMessage];
    [badFcgiId] is 0xffff (protocol.hpp 60). *)
Definition push_of (x : msg) : rid * message :=
  match x with
  | MRecord id s data => (mkRid s id, mkMsg 0 (bytes_of data))
  | MClosed s => (mkRid s 65535, mkMsg 0 [])
  end.

(** manager.cpp 380-384. *)
Definition begins (m : message) : bool :=
  (m_type m =? 0)%Z && match rd (m_data m) 1 with Some t => t =? T_BEGIN_REQUEST | None => false end.

(** Something a thread has yet to hand to [Transceiver::send]: for which
    request (none: a management reply), the connection, the record and whether
    it is the final one. *)
Record parcel := mkP { p_req : option nat; p_sock : N; p_data : list obyte; p_kill : bool }.

Section System.
Variable vts : list N -> list N -> list N.
Variable junk : nat -> list N.
Variable http_time : list N -> Z.
Variable k : chars.
Context {U : Type}.
Variable A : application U.
Variable maxPost : N.   (* of the request class *)
Variable fresh_user : U.  (* what the constructor of the request class leaves *)

(** manager.cpp 385-399, protocol.hpp 219-247 ([kill] is [!(flags & 1)]): [None] when the record is too
    short to have a body. *)
Definition begin_config (id : rid) (m : message) : option config :=
  match from16 (skipn 8 (m_data m)), rd (m_data m) 10 with
  | Some role, Some flags => Some (mkCfg (r_id id) role (negb (N.odd flags)) maxPost)
  | _, _ => None
  end.

(** [y_fed]: how many of the messages of the transceiver have been handed to
    [push].  [y_cfg], [y_rq]: the requests by number.  [y_out], [y_ret]: what
    a thread handling a message has yet to send, and whether the request is
    complete behind it.  History, not in the C++: [y_tr] (events of the
    transceiver), [y_sent] (all that was sent), [y_at] (how many messages had
    been pushed when a request was created). *)
Record sys := mkSys {
  y_net : trx;
  y_man : Manager.state message;
  y_fed : nat;
  y_cfg : nat -> config;
  y_rq : nat -> rq U;
  y_out : nat -> list parcel;
  y_ret : nat -> bool;
  y_tr : list tev;
  y_sent : list parcel;
  y_at : nat -> nat
}.

(** Auxiliary, no counterpart in the code: the state before anything happens.
    *)
Definition y_init : sys :=
  mkSys t_init (Manager.st_init message) 0 (fun _ => mkCfg 0 0 false 0) (fun _ => rq_init fresh_user)
    (fun _ => []) (fun _ => false) [] [] (fun _ => O).

(** Auxiliary, no counterpart in the code: updates of one part of the state.
    *)
Definition with_man (m : Manager.state message) (x : sys) : sys :=
  mkSys (y_net x) m (y_fed x) (y_cfg x) (y_rq x) (y_out x) (y_ret x) (y_tr x) (y_sent x) (y_at x).

(** Auxiliary, no counterpart in the code: where a thread is. *)
Definition base_of (x : sys) (t : nat) := Manager.t_base (Manager.s_threads (y_man x) t).
Definition push_at (x : sys) (t : nat) := Manager.t_push (Manager.s_threads (y_man x) t).
Definition sig_at (x : sys) (t : nat) := Manager.t_sig (Manager.s_threads (y_man x) t).

(** The I/O thread is not in a call of [push] and owes none. *)
Definition io_free (x : sys) : bool :=
  match push_at x 0 with None => (y_fed x =? length (t_msgs (y_net x)))%nat | Some _ => false end.

(** An event of the transceiver. *)
Definition net_step (e : tev) (x : sys) : option (run sys) :=
  match tstep e (y_net x) with
  | None => None
  | Some UB => Some Undef
  | Some (Val n) =>
      Some (Done (mkSys n (y_man x) (y_fed x) (y_cfg x) (y_rq x) (y_out x) (y_ret x) (y_tr x ++ [e]) (y_sent x) (y_at x)))
  end.

(** The application does this only as described at the top: it pushes messages
    of its own (message.hpp 40-47: type not 0) with the callback of a request
    (manager.hpp 313), the I/O thread is none of the handler threads, and
    connections are invalid when the transceiver has closed them. *)
Definition allowed (t : nat) (a : Manager.action message) (x : sys) : bool :=
  match a with
  | Manager.APush id m =>
      negb (t =? 0)%nat && negb (m_type m =? 0)%Z
      && existsb (fun o => let r := Manager.o_rid (Manager.s_objs (y_man x) o) in
                           (r_socket r =? r_socket id) && (r_id r =? r_id id)) (seq 0 (Manager.s_next (y_man x)))
  | Manager.ASpawn => negb (t =? 0)%nat
  | Manager.AClose sk => s_born (t_socks (y_net x) sk) && negb (s_valid (t_socks (y_net x) sk))
  | Manager.AReturn complete =>
      match y_out x t with [] => Bool.eqb complete (y_ret x t) | _ => false end
  | Manager.ARun _ =>
      match sig_at x t, push_at x t, base_of x t, y_out x t with
      | None, None, Manager.RGot _ _, _ => true
      | None, None, _, _ :: _ => false
      | _, _, _, _ => true
      end
  | _ => true
  end.

(** What a step of a thread does besides changing the manager: a request is
    made (manager.cpp 385-399); a request handles the message just taken
    (request.cpp 63-164; the effect on the request shows at once, since no
    other thread looks at it before the thread returns, what it sends follows
    piece by piece); a management record is handled (manager.cpp 138-252; the
    loop there either ends at once or never). *)
Definition work (t : nat) (a : Manager.action message) (x : sys) : run sys :=
  match a with
  | Manager.ARun _ =>
      match sig_at x t, push_at x t, base_of x t with
      | None, Some (Manager.PFind id m), _ =>
          match map_find id (Manager.s_requests (y_man x)) with
          | Some _ => Done x
          | None =>
              if begins m then
                match begin_config id m with
                | None => Undef
                | Some c =>
                    let o := Manager.s_next (y_man x) in
                    Done (mkSys (y_net x) (y_man x) (y_fed x) (Manager.fupd (y_cfg x) o c)
                            (Manager.fupd (y_rq x) o (rq_init fresh_user)) (y_out x) (y_ret x) (y_tr x) (y_sent x)
                            (Manager.fupd (y_at x) o (y_fed x)))
                end
              else Done x
          end
      | None, None, Manager.RCheck id o =>
          match Manager.o_queue (Manager.s_objs (y_man x) o) with
          | [] => Done x
          | m :: _ =>
              run_bind (Request.step vts junk http_time k A (y_cfg x o) m (y_rq x o)) (fun p =>
                let new := skipn (length (q_sent (y_rq x o))) (q_sent (snd p)) in
                Done (mkSys (y_net x) (y_man x) (y_fed x) (y_cfg x) (Manager.fupd (y_rq x) o (snd p))
                        (Manager.fupd (y_out x) t (map (fun r => mkP (Some o) (r_socket id) (fst r) (snd r)) new))
                        (Manager.fupd (y_ret x) t (fst p)) (y_tr x) (y_sent x) (y_at x)))
          end
      | None, None, Manager.HLocal =>
          match Manager.s_local (y_man x) with
          | [] => Done x
          | (m, sk) :: _ =>
              if (m_type m =? 0)%Z then
                run_bind (localHandler 1 (m_data m)) (fun l =>
                  Done (mkSys (y_net x) (y_man x) (y_fed x) (y_cfg x) (y_rq x)
                          (Manager.fupd (y_out x) t (map (fun r => mkP None sk r false) l))
                          (y_ret x) (y_tr x) (y_sent x) (y_at x)))
              else Done x
          end
      | _, _, _ => Done x
      end
  | _ => Done x
  end.

(** What can happen. *)
Inductive sev :=
| SNet (e : tev)                              (* the network and the I/O thread *)
| SFeed                                       (* the I/O thread calls push *)
| SMan (t : nat) (a : Manager.action message) (* a thread of the manager *)
| SSend (t : nat).                            (* a thread calls Transceiver::send *)

Definition sstep (v : sev) (x : sys) : option (run sys) :=
  match v with
  | SNet e =>
      match e with
      | ESend _ _ _ => None
      | EPeer _ _ => net_step e x
      | _ => if io_free x then net_step e x else None
      end
  | SFeed =>
      match nth_error (t_msgs (y_net x)) (y_fed x) with
      | None => None
      | Some p =>
          match Manager.step begins 0 (Manager.APush (fst (push_of p)) (snd (push_of p))) (y_man x) with
          | None => None
          | Some m =>
              Some (Done (mkSys (y_net x) m (S (y_fed x)) (y_cfg x) (y_rq x) (y_out x) (y_ret x) (y_tr x) (y_sent x) (y_at x)))
          end
      end
  | SMan t a =>
      if allowed t a x then
        match Manager.step begins t a (y_man x) with
        | None => None
        | Some m => Some (run_bind (work t a x) (fun x' => Done (with_man m x')))
        end
      else None
  | SSend t =>
      match sig_at x t, push_at x t, base_of x t, y_out x t with
      | None, None, Manager.RProc _ _, p :: r | None, None, Manager.HRelock, p :: r =>
          match tstep (ESend (p_sock p) (p_data p) (p_kill p)) (y_net x) with
          | Some (Val n) =>
              Some (Done (mkSys n (y_man x) (y_fed x) (y_cfg x) (y_rq x) (Manager.fupd (y_out x) t r) (y_ret x)
                            (y_tr x ++ [ESend (p_sock p) (p_data p) (p_kill p)]) (y_sent x ++ [p]) (y_at x)))
          | _ => None
          end
      | _, _, _, _ => None
      end
  end.

(** Executions. *)
Fixpoint sexec (l : list sev) (x : sys) : option (run sys) :=
  match l with
  | [] => Some (Done x)
  | v :: l' =>
      match sstep v x with
      | Some (Done x') => sexec l' x'
      | r => r
      end
  end.
End System.
