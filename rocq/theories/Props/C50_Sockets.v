(** C48, C50: listening, connecting and the socket table. *)
From Coq Require Import List NArith ZArith Bool Arith.
From Verif Require Import Model.Sockets Spec.SocketSpec Proofs.SocketProofs Proofs.SocketSize Proofs.SocketEnd.
Import ListNotations.

(** C50.  In every history of operations and kernel answers every system call
    on a connection is made on a descriptor that is open and belongs to it. *)
Theorem C50_never_wrong : forall l, gexec l g_init <> Wrong.
Proof. exact never_wrong. Qed.
Print Assumptions C50_never_wrong.

(** A socket is valid exactly when its descriptor is open and its own; it is
    then polled and found in the table. *)
Theorem C50_valid_open : forall s, greachable s -> forall d fd,
  (is_socket s d fd true <-> In (fd, KConn d) (g_open s)) /\
  (is_socket s d fd true -> In fd (g_poll s) /\ In (fd, d) (g_map s)).
Proof. exact valid_open. Qed.
Print Assumptions C50_valid_open.

(** Whatever is polled is known: the wake end, a listener or a valid socket. *)
Theorem C50_polled_known : forall s, greachable s -> forall fd, In fd (g_poll s) ->
  fd = wake_fd \/ In fd (g_listeners s) \/ exists d, In (fd, d) (g_map s) /\ is_socket s d fd true.
Proof. exact polled_known. Qed.
Print Assumptions C50_polled_known.

(** Once closed a socket stays so, whatever happens, even if its descriptor
    number is given to another connection: reading and writing give -1 and
    touch nothing, closing again does nothing. *)
Theorem C50_stays_closed : forall l s s' d fd, greachable s -> is_socket s d fd false -> gexec l s = Ok s' RNone ->
  is_socket s' d fd false /\ (forall k, gstep (ORead d k) s' = Ok s' (RNum (-1))) /\
  (forall k, gstep (OWrite d k) s' = Ok s' (RNum (-1))) /\ gstep (OClose d) s' = Ok s' RNone.
Proof. exact stays_closed. Qed.
Print Assumptions C50_stays_closed.

(** The table holds the valid sockets and one dead one for each descriptor
    number that the kernel has ever refused for polling, and its size counts
    them all. *)
Theorem C50_size : forall l s, gexec l g_init = Ok s RNone ->
  length (g_map s) = valid_count s + length (nodup N.eq_dec (refused l g_init [])) /\
  (forall fd d, is_socket s d fd true -> In (fd, d) (g_map s) /\ ~ In fd (refused l g_init [])) /\
  (forall fd d, In (fd, d) (g_map s) -> is_socket s d fd true \/ is_socket s d fd false /\ In fd (refused l g_init [])).
Proof. exact size_exact. Qed.
Print Assumptions C50_size.

(** So as long as the kernel takes every connection for polling, the size
    counts the valid sockets. *)
Theorem C50_size_taken : forall l s, gexec l g_init = Ok s RNone -> forallb adds l = true ->
  length (g_map s) = valid_count s /\ forall fd d, In (fd, d) (g_map s) <-> is_socket s d fd true.
Proof. exact size_right. Qed.
Print Assumptions C50_size_taken.

(** A connection taken in is kept, unless the kernel refuses it for polling or
    has ever refused that descriptor number. *)
Theorem C50_adopted : forall l s o s' r fd v, gexec l g_init = Ok s RNone -> gstep o s = Ok s' r ->
  is_socket s' (length (g_data s)) fd v -> v = adds o && negb (memN fd (refused l g_init [])).
Proof. exact adopted_exact. Qed.
Print Assumptions C50_adopted.

(** Two accepted, one connected, one hung up and closed, its descriptor number
    used again. *)
Example C50_example : exists s, gexec sockets_case g_init = Ok s RNone /\ forallb adds sockets_case = true /\
  greachable s /\ is_socket s 1 7 false /\ is_socket s 3 7 true /\ length (g_map s) = 3 /\ In 7%N (g_poll s).
Proof.
  eexists. split; [vm_compute; reflexivity|]. split; [reflexivity|]. split; [exists sockets_case; vm_compute; reflexivity|].
  split; [exists (mkDat 7 false true); repeat split|]. split; [exists (mkDat 7 true false); repeat split|]. cbn; auto.
Qed.

(** One refused, its number used again twice, another one kept. *)
Definition C50_refusals : list gop :=
  refused_case ++ [OPoll true (POn 5 plain) (ANew 6 true true); OPoll true (POn 5 plain) (ANew 7 true true); OConnect 6 false].
Example C50_ex_size : exists s s', gexec C50_refusals g_init = Ok s RNone /\ length (g_map s) = 2 /\ valid_count s = 1 /\
  refused C50_refusals g_init [] = [6; 6]%N /\ gstep (OConnect 8 true) s = Ok s' (RSock 4) /\ is_socket s' (length (g_data s)) 8 true.
Proof.
  eexists; eexists. split; [vm_compute; reflexivity|]. split; [reflexivity|]. split; [reflexivity|]. split; [vm_compute; reflexivity|].
  split; [vm_compute; reflexivity|]. exists (mkDat 8 true false); repeat split.
Qed.

(** That the size counts the open connections is false: a refused one stays
    in the table and is counted... *)
Theorem C50_size_refuted : exists l s, gexec l g_init = Ok s RNone /\ length (g_map s) = 1 /\ valid_count s = 0.
Proof. exact size_wrong. Qed.
Print Assumptions C50_size_refuted.

(** ...and the next connection that is given that descriptor number is closed
    at once although everything works. *)
Theorem C50_adopted_refuted : exists l s s', gexec l g_init = Ok s RNone /\ g_accept s = true /\
  gstep (OPoll true (POn 5 plain) (ANew 6 true true)) s = Ok s' RNone /\
  is_socket s' (length (g_data s)) 6 false /\ findN 6 (g_open s') = None.
Proof. exact connection_dropped. Qed.
Print Assumptions C50_adopted_refuted.

(** C48.  What listening does with [n] candidates: the first is tried once,
    then the second over and over. *)
Theorem C48_listen : forall works n fuel, 2 <= fuel ->
  listen_on works n fuel =
    if n =? 0 then TNone else if works 0 0 then TGot 0 else if n =? 1 then TNone
    else if existsb (works 1) (seq 1 (fuel - 1)) then TGot 1 else TSpin.
Proof. exact listen_all. Qed.
Print Assumptions C48_listen.

(** So with three candidates of which only the third works it never ends. *)
Theorem C48_listen_refuted : exists works n, (forall i j, works i j = (i =? 2)) /\ n = 3 /\ forall fuel, listen_on works n fuel = TSpin.
Proof. exact listen_spins. Qed.
Print Assumptions C48_listen_refuted.

(** Connecting tries the first two and ends. *)
Theorem C48_connect : forall works n fuel, 3 <= fuel ->
  connect_to works n fuel =
    if n =? 0 then TNone else if works 0 0 then TGot 0 else if n =? 1 then TNone else if works 1 1 then TGot 1 else TNone.
Proof. exact connect_all. Qed.
Print Assumptions C48_connect.

Theorem C48_connect_refuted : exists works n, (forall i j, works i j = (i =? 2)) /\ n = 3 /\ forall fuel, 3 <= fuel -> connect_to works n fuel = TNone.
Proof. exact connect_ignores. Qed.
Print Assumptions C48_connect_refuted.

Example C48_example : listen_on (fun i _ => i =? 1) 3 5 = TGot 1 /\ connect_to (fun i _ => i =? 1) 3 5 = TGot 1.
Proof. split; reflexivity. Qed.

(** Destroying the group closes every descriptor of it, each with the
    connection it belongs to, and no Socket kept by the program is valid after
    it, so that none touches the group again. *)
Theorem C50_ended : forall s, greachable s ->
  exists s', gend s = Some s' /\ g_open s' = [] /\ g_map s' = []
    /\ forall d fd v, is_socket s d fd v -> exists fd', is_socket s' d fd' false.
Proof. exact group_ended. Qed.
Print Assumptions C50_ended.

Example C50_ex_ended :
  match gexec [OListen 5; OConnect 6 true; OConnect 7 false; OConnect 8 true; OClose 0] g_init with
  | Ok s _ => (map fst (g_open s), option_map g_open (gend s))
  | _ => ([], None)
  end = ([8; 5; wake_fd]%N, Some []).
Proof. vm_compute. reflexivity. Qed.
