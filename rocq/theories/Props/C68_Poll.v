(** C68: the poll list on systems without epoll. *)
From Coq Require Import List NArith Bool.
From Verif Require Import Model.PollList Spec.PollSpec Proofs.PollProofs.
Import ListNotations.
Local Open Scope N_scope.

(** The list is a set: each descriptor once, just those registered. *)
Theorem C68_list : forall cs, NoDup (snd (p_calls cs [])) /\ forall fd, In fd (snd (p_calls cs [])) <-> registered fd cs.
Proof. exact list_ok. Qed.
Print Assumptions C68_list.

(** [add] succeeds just when the descriptor was not registered, [del] just when
    it was. *)
Theorem C68_add : forall cs fd b, (exists r, fst (p_calls (cs ++ [PAdd fd]) []) = r ++ [b]) -> (b = true <-> ~ registered fd cs).
Proof. exact add_result. Qed.
Print Assumptions C68_add.

Theorem C68_del : forall cs fd b, (exists r, fst (p_calls (cs ++ [PDel fd]) []) = r ++ [b]) -> (b = true <-> registered fd cs).
Proof. exact del_result. Qed.
Print Assumptions C68_del.

(** [poll] tells of a registered descriptor that is ready, with its events,
    whenever there is one, and does not fail if the system call keeps its
    promise. *)
Theorem C68_poll : forall l a, kept a l ->
  match p_poll a l with
  | PNothing => forall fd, ~ ready a fd
  | PEvent fd ev => In fd l /\ ready a fd /\ forall r, a = AEvents r -> ev = r fd
  | PFail => False
  end.
Proof. exact poll_right. Qed.
Print Assumptions C68_poll.

(** A descriptor that stays ready is told of after at most as many polls as
    there are descriptors, if none that was told of gets ready again in the
    meantime. *)
Theorem C68_waits : forall b cs rs, registered b cs -> (length (snd (p_calls cs [])) <= length rs)%nat ->
  Forall (fun r => r b <> 0) rs ->
  (forall rs1 r rs2 r' fd, rs = rs1 ++ r :: rs2 -> In r' rs2 ->
     reported fd (p_poll (AEvents r) (snd (p_calls cs []))) -> fd <> b -> r' fd = 0) ->
  exists r, In r rs /\ reported b (p_poll (AEvents r) (snd (p_calls cs []))).
Proof. exact waits_calls. Qed.
Print Assumptions C68_waits.

(** REFUTED without this: as long as a descriptor registered earlier is ready
    at each poll, because its peer keeps sending, say, the later one is never
    told of. *)
Theorem C68_starved_refuted : forall a b cs rs, earlier a b cs -> Forall (fun r => r a <> 0) rs ->
  Forall (fun r => ~ reported b (p_poll (AEvents r) (snd (p_calls cs [])))) rs.
Proof. exact starved. Qed.
Print Assumptions C68_starved_refuted.

Example C68_example : earlier 4 6 [PAdd 3; PAdd 4; PAdd 5; PAdd 6; PDel 5; PDel 9] /\
  p_calls [PAdd 3; PAdd 4; PAdd 5; PAdd 6; PDel 5; PDel 9; PAdd 4] [] = ([true; true; true; true; true; false; false], [3; 4; 6]) /\
  p_poll (AEvents (fun fd => if 4 <=? fd then 1 else 0)) [3; 4; 6] = PEvent 4 1 /\
  kept (AEvents (fun fd => if 4 <=? fd then 1 else 0)) [3; 4; 6].
Proof.
  split.
  - exists [PAdd 3], [PAdd 5], [PDel 5; PDel 9]. split; [reflexivity|]. split; [discriminate|]. split.
    + intros (x & y & E & _). repeat (destruct x as [|? x]; try discriminate).
    + split; intros I; cbn in I; repeat (destruct I as [I|I]; [discriminate|]); exact I.
  - split; [reflexivity|]. split; [reflexivity|]. exists 6. split; [right; right; now left|discriminate].
Qed.

(** Polls in which each descriptor is ready until it was told of. *)
Example C68_waits_example : exists rs, length rs = 3%nat /\ Forall (fun r => r 6 <> 0) rs /\
  map (fun r => p_poll (AEvents r) [3; 4; 6]) rs = [PEvent 3 1; PEvent 4 1; PEvent 6 1].
Proof.
  exists [(fun _ => 1); (fun fd => if 4 <=? fd then 1 else 0); (fun fd => if 6 <=? fd then 1 else 0)].
  split; [reflexivity|]. split; [repeat (apply Forall_cons; [discriminate|]); constructor|reflexivity].
Qed.
