(** The form of a printed address, and the recommended form of RFC 5952,
    written independently of the model. *)
From Coq Require Import String List NArith ZArith Bool.
From Verif Require Import Model.Base Spec.AddressSpec.
Import ListNotations.
Local Open Scope N_scope.

(** The eight 16 bit words of an address, first byte most significant. *)
Fixpoint words (a : list N) : list N :=
  match a with
  | hi :: lo :: a' => 256 * hi + lo :: words a'
  | _ => []
  end.

(** A numeral of digits and lower case letters without leading zeros. *)
Definition plain_char (c : N) : Prop := 48 <= c <= 57 \/ 97 <= c <= 102.
Definition canonical (base : N) (t : list N) (v : N) : Prop :=
  numeral_of base t v /\ Forall plain_char t /\ (hd 0 t = 48 -> t = [48]).

(** Texts with [sep] between them. *)
Fixpoint join (sep : N) (ts : list (list N)) : list N :=
  match ts with
  | [] => []
  | [t] => t
  | t :: ts' => t ++ sep :: join sep ts'
  end.

Definition groups_form (t ws : list N) : Prop :=
  exists ts, Forall2 (canonical 16) ts ws /\ t = join 58 ts.
Definition quad_form (t bs : list N) : Prop :=
  exists ts, Forall2 (canonical 10) ts bs /\ t = join 46 ts.

(** [n] words from word [i] on are zero. *)
Definition zeros (ws : list N) (i n : nat) : Prop :=
  (1 <= n)%nat /\ (i + n <= length ws)%nat /\
  forall j, (i <= j)%nat -> (j < i + n)%nat -> nth j ws 1 = 0.

(** No more words in a row are zero anywhere. *)
Definition longest (ws : list N) (i n : nat) : Prop :=
  zeros ws i n /\ forall j m, zeros ws j m -> (m <= n)%nat.

(** "::" in place of the [n] words from word [i] on. *)
Definition gap_form (t ws : list N) (i n : nat) : Prop :=
  exists t1 t2, groups_form t1 (firstn i ws) /\ groups_form t2 (skipn (i + n) ws) /\
    t = t1 ++ [58; 58] ++ t2.

(** Addresses ::ffff:0:0/96. *)
Definition mapped (a : list N) : Prop := firstn 12 a = repeat 0 10 ++ [255; 255].

(** RFC 5952, 4 and 5. *)
Inductive rfc5952 : list N -> list N -> Prop :=
| rfc_mapped : forall q a, mapped a -> quad_form q (skipn 12 a) ->
    rfc5952 ([58; 58; 102; 102; 102; 102; 58] ++ q) a
| rfc_plain : forall t a, ~ mapped a -> (forall i n, zeros (words a) i n -> n = 1%nat) ->
    groups_form t (words a) -> rfc5952 t a
| rfc_gap : forall t a i n, ~ mapped a -> (2 <= n)%nat -> longest (words a) i n ->
    (forall j, longest (words a) j n -> (i <= j)%nat) ->
    gap_form t (words a) i n -> rfc5952 t a.

(** The same with a single zero word also left out, and the last of the
    longest runs instead of the first. *)
Inductive printed_form : list N -> list N -> Prop :=
| pf_mapped : forall q a, mapped a -> quad_form q (skipn 12 a) ->
    printed_form ([58; 58; 102; 102; 102; 102; 58] ++ q) a
| pf_plain : forall t a, ~ mapped a -> (forall i n, ~ zeros (words a) i n) ->
    groups_form t (words a) -> printed_form t a
| pf_gap : forall t a i n, ~ mapped a -> longest (words a) i n ->
    (forall j, longest (words a) j n -> (j <= i)%nat) ->
    gap_form t (words a) i n -> printed_form t a.
