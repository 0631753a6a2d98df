(** Texts that are no addresses and are taken for addresses all the same. *)
From Coq Require Import String List NArith ZArith Bool Arith Lia.
From Verif Require Import Model.Base Model.WebMaps Model.HttpCodec Model.Address
  Spec.EndianSpec Spec.AddressSpec Spec.LooseSpec Proofs.Arith Proofs.AddressProofs
  Proofs.AddressPrintProofs Proofs.ExtractProofs Proofs.LooseProofs.
Import ListNotations.
Local Open Scope N_scope.

(** Standard texts are made of digits, colons and dots, and their groups are
    of at most four digits. *)
Definition plain (c : N) : Prop := 46 <= c <= 58 /\ c <> 47 \/ 65 <= c <= 70 \/ 97 <= c <= 102.

Lemma digit_plain : forall b c d, b <= 16 -> digit b c d -> plain c /\ c <> 58 /\ c <> 46.
Proof. intros b c d B H. unfold plain. destruct H; lia. Qed.

Lemma numeral_plain : forall b t v, b <= 16 -> numeral_of b t v -> Forall plain t /\ ~ In 58 t /\ ~ In 46 t.
Proof.
  intros b t v B H. induction H as [c d D|t v c d H IH D].
  - apply digit_plain in D as (P & C & E); auto. split; [|split].
    + constructor; [exact P|constructor].
    + intros [I|[]]; auto.
    + intros [I|[]]; auto.
  - apply digit_plain in D as (P & C & E); auto. destruct IH as (A1 & A2 & A3). split; [|split].
    + apply Forall_app. split; auto.
    + intro I. apply in_app_or in I as [I|[I|[]]]; auto.
    + intro I. apply in_app_or in I as [I|[I|[]]]; auto.
Qed.

Definition short (f : list N) : Prop := (length f <= 4)%nat \/ In 46 f.

Lemma fields_app : forall a b, fields (a ++ 58 :: b) = fields a ++ fields b.
Proof.
  induction a as [|c a IH]; intro b; cbn; [reflexivity|]. rewrite IH. destruct (c =? 58); [reflexivity|].
  destruct (fields_some a) as (fs & f & E). rewrite E. destruct fs; reflexivity.
Qed.

Lemma fields_single : forall t, ~ In 58 t -> fields t = [t].
Proof. intros t N. exact (fields_tail t [] [] [] N eq_refl). Qed.

Lemma group_plain : forall t bs, group_text t bs -> Forall plain t /\ Forall short (fields t).
Proof.
  intros t bs (L & v & H & _). apply numeral_plain in H as (A & B & _); [|lia]. split; auto.
  rewrite fields_single by assumption. constructor; [left; exact L|constructor].
Qed.

Lemma quad_plain : forall t bs, quad_text t bs -> Forall plain t /\ Forall short (fields t).
Proof.
  intros t bs (t1 & t2 & t3 & t4 & v1 & v2 & v3 & v4 & (_ & H1 & _) & (_ & H2 & _) & (_ & H3 & _) & (_ & H4 & _) & -> & _).
  apply numeral_plain in H1 as (A1 & B1 & _), H2 as (A2 & B2 & _), H3 as (A3 & B3 & _), H4 as (A4 & B4 & _); try lia.
  assert (D : plain 46) by (unfold plain; lia). split.
  - repeat (apply Forall_app; split); auto.
  - rewrite fields_single.
    + constructor; [|constructor]. right. apply in_or_app. right. now left.
    + intro I. repeat (apply in_app_or in I as [I|I]); auto; destruct I as [I|[]]; discriminate I.
Qed.

Lemma pieces_plain : forall t bs, pieces_text t bs -> Forall plain t /\ Forall short (fields t).
Proof.
  intros t bs H. induction H as [t bs H|t bs H|t bs t' bs' H H' IH].
  - exact (group_plain _ _ H).
  - exact (quad_plain _ _ H).
  - apply group_plain in H as (A & B). destruct IH as (A' & B'). split.
    + apply Forall_app. split; auto. constructor; auto. unfold plain. lia.
    + cbn [app]. rewrite fields_app. apply Forall_app. auto.
Qed.

Lemma address_plain : forall t a, address_text t a -> Forall plain t /\ Forall short (fields t).
Proof.
  assert (C : plain 58) by (unfold plain; lia).
  assert (Z : Forall short (fields [])) by (repeat constructor; cbn; lia).
  intros t a H. destruct H as [t bs H _|t1 b1 t2 b2 n H1 H2 _ _|t bs H].
  - exact (pieces_plain _ _ H).
  - assert (P1 : Forall plain t1 /\ Forall short (fields t1)).
    { destruct H1 as [|t bs H _]; [auto|exact (pieces_plain _ _ H)]. }
    assert (P2 : Forall plain t2 /\ Forall short (fields t2)).
    { destruct H2 as [(-> & _)|H]; [auto|exact (pieces_plain _ _ H)]. }
    destruct P1 as (A1 & S1), P2 as (A2 & S2). split.
    + apply Forall_app. split; [exact A1|]. exact (Forall_cons _ C (Forall_cons _ C A2)).
    + cbn [app]. rewrite fields_app. apply Forall_app. split; auto.
      change (58 :: t2) with ([] ++ 58 :: t2). rewrite fields_app. apply Forall_app. auto.
  - exact (quad_plain _ _ H).
Qed.

Lemma sign_witness :
  exists t a, (forall b, ~ address_text t b) /\ is_address a /\
    forall junk, length junk = 16%nat -> extract 100 t junk = Done (Some a, []).
Proof.
  exists (lit "10.-1.+0.4"), (repeat 0 10 ++ [255; 255; 10; 255; 0; 4]). split; [|split].
  - intros b H. apply address_plain in H as (H & _).
    assert (P : plain 45) by (apply (proj1 (Forall_forall _ _) H); cbn; tauto). unfold plain in P. lia.
  - split; [reflexivity|]. repeat constructor.
  - intros junk L. do 16 (destruct junk as [|? junk]; [discriminate L|]). destruct junk; [|discriminate L].
    vm_compute. reflexivity.
Qed.

Lemma group_witness :
  exists t a, (forall b, ~ address_text t b) /\ is_address a /\
    (forall junk, length junk = 16%nat -> extract 100 t junk = Done (Some a, [])) /\
    assign 100 (t ++ [0]) (length t) (repeat 0 16) = Done a.
Proof.
  exists (lit "::12345"), (repeat 0 14 ++ [0x23; 0x45]). split; [|split; [|split]].
  - intros b H. apply address_plain in H as (_ & H).
    assert (P : short (lit "12345")) by (apply (proj1 (Forall_forall _ _) H); cbn; tauto).
    destruct P as [P|P]; [cbn in P; lia|cbn in P; intuition discriminate].
  - split; [reflexivity|]. repeat constructor.
  - intros junk L. do 16 (destruct junk as [|? junk]; [discriminate L|]). destruct junk; [|discriminate L].
    vm_compute. reflexivity.
  - vm_compute. reflexivity.
Qed.

Lemma rest_witness :
  exists t a, (forall b, ~ address_text t b) /\ is_address a /\
    assign 100 (t ++ [0]) (length t) (repeat 0 16) = Done a.
Proof.
  exists (lit "10.x.y.4z"), (repeat 0 10 ++ [255; 255; 10; 0; 0; 4]). split; [|split].
  - intros b H. apply address_plain in H as (H & _).
    assert (P : plain 120) by (apply (proj1 (Forall_forall _ _) H); cbn; tauto). unfold plain in P. lia.
  - split; [reflexivity|]. repeat constructor.
  - vm_compute. reflexivity.
Qed.

Lemma indeterminate_witness :
  exists t, (exists junk1 junk2 a b, length junk1 = 16%nat /\ length junk2 = 16%nat /\ a <> b /\
    extract 100 t junk1 = Done (Some a, []) /\ extract 100 t junk2 = Done (Some b, []) /\
    assign 100 (t ++ [0]) (length t) junk1 = Done a /\ assign 100 (t ++ [0]) (length t) junk2 = Done b).
Proof.
  exists (lit "1:2.3.4.5"), (repeat 7 16), (repeat 9 16), ([0; 1; 2; 3; 4; 5] ++ repeat 7 10), ([0; 1; 2; 3; 4; 5] ++ repeat 9 10).
  split; [reflexivity|]. split; [reflexivity|]. split; [discriminate|].
  vm_compute. repeat split.
Qed.
