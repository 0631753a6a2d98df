(** Vocabulary for statements about the mail sender. *)
From Coq Require Import String List NArith Bool.
From Verif Require Import Model.Base Model.Mailer.
Import ListNotations.

(** Some execution leads to [s]. *)
Definition mreachable (origin : list N) (s : mst) : Prop := exists l, mexec origin l m_init = Some s.

Fixpoint queued (l : list mlog) : list mail :=
  match l with [] => [] | LQueued e :: r => e :: queued r | _ :: r => queued r end.
Fixpoint purged (l : list mlog) : list mail :=
  match l with [] => [] | LPurged e :: r => e :: purged r | _ :: r => purged r end.
Definition addressed (e : mail) : bool := negb (list_eqb (m_to e) []).

(** The conversation on the latest connection. *)
Inductive tev := Heard (l : list N) | Said (b : list N).
Fixpoint conv_from (t : list tev) (l : list mlog) : list tev :=
  match l with
  | [] => t
  | LConnect :: r => conv_from [] r
  | LLine x :: r => conv_from (t ++ [Heard x]) r
  | LSent b :: r => conv_from (t ++ [Said b]) r
  | _ :: r => conv_from t r
  end.
Definition conv (l : list mlog) : list tev := conv_from [] l.
Fixpoint heard (t : list tev) : list (list N) :=
  match t with [] => [] | Heard l :: r => l :: heard r | _ :: r => heard r end.
Fixpoint said (t : list tev) : list N :=
  match t with [] => [] | Said b :: r => b ++ said r | _ :: r => said r end.

(** The bytes read on the latest connection. *)
Fixpoint received_from (b : list N) (l : list mlog) : list N :=
  match l with
  | [] => b
  | LConnect :: r => received_from [] r
  | LRead x :: r => received_from (b ++ x) r
  | _ :: r => received_from b r
  end.
Definition received (l : list mlog) : list N := received_from [] l.

(** Bytes as lines, without their ends, and what comes behind the last. *)
Definition split_step (st : list (list N) * list N) (c : N) : list (list N) * list N :=
  if N.eqb c 10 then (fst st ++ [snd st], []) else (fst st, snd st ++ [c]).
Definition split_lf (b : list N) : list (list N) * list N := fold_left split_step b ([], []).
(** A line without its carriage return. *)
Definition chomp (l : list N) : list N := match rev l with 13%N :: r => rev r | _ => l end.

(** A line feed was found in the variable before anything was read into it. *)
Definition bad_junk (l : list mlog) : Prop := In (LJunk 10) l.

(** RFC 5321.  A reply line that begins with [p]. *)
Definition answers (p : string) (l : list N) : Prop := exists r, l = (lit p ++ r)%list.
Definition command (s : list N) : list N := s ++ [10%N].

(** The server greets, names its extensions, 8BITMIME among them. *)
Definition greeted (origin : list N) (t : list tev) : Prop :=
  exists g a b z, t = Heard g :: Said (command (lit "EHLO " ++ origin)) :: map Heard (a ++ [lit "250-8BITMIME"] ++ b ++ [z]) /\
    answers "220 " g /\ Forall (answers "250-") a /\ Forall (answers "250-") b /\ answers "250 " z.

(** The whole conversation by which email [e] is handed over: the last thing
    heard says that the server has taken it. *)
Definition handed_over (origin : list N) (e : mail) (t : list tev) : Prop :=
  exists h m r d q, greeted origin h /\ answers "250 " m /\ answers "250 " r /\ answers "354 " d /\ answers "250 " q /\
    t = h ++ [Said (command (lit "MAIL FROM: <" ++ m_from e ++ lit ">")); Heard m;
              Said (command (lit "RCPT TO: <" ++ m_to e ++ lit ">")); Heard r;
              Said (command (lit "DATA")); Heard d] ++
        map Said (m_body e) ++ [Said ([13; 10] ++ lit "." ++ [13; 10])%N; Heard q].

(** ** A server that plays its part *)

(** The line [raw] and its line feed arrive in these pieces. *)
Definition pieces (raw : list N) (segs : list (list N)) : Prop :=
  concat segs = (raw ++ [10])%N /\ ~ In 10%N raw /\ raw <> [] /\ Forall (fun x => x <> []) segs.
Definition arrives (seg : list N) : menv := mkEnv true true seg false 0 [].
Definition turns (segs : list (list N)) : list mact := flat_map (fun seg => [AGo; ANet (arrives seg)]) segs.

(** ** What the server makes of the data: RFC 5321, 4.1.1.4 and 4.5.2 *)

Definition crlf (a b : N) : bool := N.eqb a 13 && N.eqb b 10.

(** At the beginning of a line ([true]) or within it: the content and what
    comes behind the end of the data, when that has been found.  A line of a
    single dot is that end; another first dot is taken away. *)
Fixpoint receive_data (start : bool) (b : list N) : option (list N * list N) :=
  match b with
  | [] => None
  | c :: r =>
      if start && N.eqb c 46 then
        match r with
        | x :: y :: r' => if crlf x y then Some ([], r') else receive_data false r
        | _ => None
        end
      else
        match r with
        | x :: r' =>
            if crlf c x
            then match receive_data true r' with Some (t, u) => Some (c :: x :: t, u) | None => None end
            else match receive_data false r with Some (t, u) => Some (c :: t, u) | None => None end
        | [] => None
        end
  end.

(** Some line begins with a dot. *)
Fixpoint dotted (start : bool) (b : list N) : bool :=
  match b with
  | [] => false
  | c :: r =>
      (start && N.eqb c 46) ||
      match r with
      | x :: r' => if crlf c x then dotted true r' else dotted false r
      | [] => false
      end
  end.

(** The server's line [l] arrives in these pieces, with or without a carriage
    return. *)
Definition sends (l : list N) (segs : list (list N)) : Prop := exists raw, pieces raw segs /\ chomp raw = l.
(** The sender has nothing to do but send [e]. *)
Definition ready (e : mail) (q : list mail) (s : mst) : Prop :=
  x_pc s = MTop /\ x_state s = DISCONNECTED /\ x_sock s <> SOpen /\ m_to (x_email s) = [] /\
  x_queue s = e :: q /\ m_to e <> [] /\ x_term s = false.
