(** C12, C13: base64 and session id texts. *)
From Coq Require Import String List NArith ZArith.
From Verif Require Import Model.Base Model.HttpCodec Spec.Base64Spec Proofs.Base64Proofs.
Import ListNotations.
Local Open Scope N_scope.

(** C12.  Encoding gives the RFC 4648 text, of 4*ceil(n/3) characters, and
    decoding it into any destination with room for 3*ceil(n/3) bytes, whatever
    it held before, gives the bytes back and their number. *)
Theorem C12_round_trip : forall s fe fd dst,
  bytes_ok s -> (2 * length s + 4 <= fe)%nat -> (2 * length s + 3 <= fd)%nat ->
  (3 * ((length s + 2) / 3) <= length dst)%nat ->
  exists text tail,
    base64Encode fe s = Done text /\ text = b64 s /\
    length text = (4 * ((length s + 2) / 3))%nat /\
    base64Decode fd text dst = Done (map Some s ++ tail, length s) /\
    length (map Some s ++ tail) = length dst.
Proof. exact base64_round_trip. Qed.
Print Assumptions C12_round_trip.

Example C12_round_trip_ex :
  base64Encode 20 (lit "any c") = Done (lit "YW55IGM=") /\
  base64Decode 20 (lit "YW55IGM=") (repeat None 7)
    = Done (map Some (lit "any c") ++ [None; None], 5%nat) /\
  base64Decode 20 (lit "YQ==") (repeat None 3) = Done ([Some 97; Some 0; None], 1%nat).
Proof. repeat split; reflexivity. Qed.

(** C12.  On every text whatever, well formed or not, decoding ends, writes
    only inside a destination of 3*ceil(n/4) bytes and reports no more. *)
Theorem C12_decode_safe : forall s f dst,
  (length s + 3 <= f)%nat -> (3 * ((length s + 3) / 4) <= length dst)%nat ->
  exists dst' m, base64Decode f s dst = Done (dst', m)
   /\ length dst' = length dst /\ (m <= 3 * ((length s + 3) / 4))%nat.
Proof. exact base64_decode_safe. Qed.
Print Assumptions C12_decode_safe.

Example C12_decode_safe_ex :
  base64Decode 10 (lit "YW5=W!") (repeat None 6) = Done ([Some 97; Some 110; None; None; None; None], 2%nat) /\
  base64Decode 10 (lit "YW55=") (repeat None 6)
    = Done (map Some (lit "any") ++ [Some 0; None; None], 3%nat) /\
  base64Decode 10 (lit "YW55W!") (repeat None 6)
    = Done (map Some (lit "any") ++ [None; None; None], 0%nat).
Proof. repeat split; reflexivity. Qed.

(** C13.  Printing a session id gives 20 characters, and constructing an id
    from any text starting with them gives the id back. *)
Theorem C13_round_trip : forall id fe fd,
  bytes_ok id -> length id = 15%nat -> (40 <= fe)%nat -> (40 <= fd)%nat ->
  exists text, sessionIdPrint fe id = Done text /\ length text = 20%nat /\
    forall suffix, sessionIdOfString fd (text ++ suffix) = Done (map Some id).
Proof. exact session_round_trip. Qed.
Print Assumptions C13_round_trip.

Example C13_round_trip_ex :
  sessionIdPrint 40 [0; 1; 2; 3; 4; 5; 6; 7; 8; 9; 255; 254; 253; 252; 251]
  = Done (lit "AAECAwQFBgcICf/+/fz7").
Proof. reflexivity. Qed.

(** C13.  Distinct ids have distinct texts. *)
Theorem C13_distinct_ids_distinct_texts : forall id1 id2 f,
  bytes_ok id1 -> bytes_ok id2 -> length id1 = 15%nat -> length id2 = 15%nat -> (40 <= f)%nat ->
  sessionIdPrint f id1 = sessionIdPrint f id2 -> id1 = id2.
Proof. exact session_distinct. Qed.
Print Assumptions C13_distinct_ids_distinct_texts.

(** C13.  The id built from a text is fully determined exactly when the text
    has at least 20 characters and the first 20 are in the alphabet; otherwise
    some of its bytes keep whatever the memory held. *)
Theorem C13_determined_iff_well_formed : forall s f, (40 <= f)%nat ->
  exists data, sessionIdOfString f s = Done data /\ length data = 15%nat /\
    ((20 <= length s)%nat /\ Forall b64_alphabet (firstn 20 s) <-> ~ In None data).
Proof. exact session_determined. Qed.
Print Assumptions C13_determined_iff_well_formed.

Example C13_determined_ex :
  sessionIdOfString 40 (lit "abcd") = Done ([Some 105; Some 183; Some 29] ++ repeat None 12).
Proof. reflexivity. Qed.
