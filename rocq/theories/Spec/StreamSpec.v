(** What a history of stream operations should put on the wire. *)
From Coq Require Import String List NArith ZArith Bool.
From Verif Require Import Model.Base Model.WebMaps Model.Streams Spec.WireSpec Spec.EscapeSpec.
Import ListNotations.
Local Open Scope N_scope.

Definition escape (e : encoding) (s : list N) : list N :=
  match e with
  | E_NONE => s
  | E_HTML => html_escape s
  | E_URL => url_escape s
  end.

(** Result of reading an input stream: up to the first empty read. *)
Fixpoint stream_data (reads : list (list N)) : list N :=
  match reads with
  | [] => []
  | [] :: _ => []
  | r :: reads' => r ++ stream_data reads'
  end.

(** The text of a history; [conv] turns written characters into bytes, raw
    dumps are bytes already. *)
Fixpoint text_of (conv : list N -> list N) (e : encoding) (os : list sop) : list N :=
  match os with
  | [] => []
  | OpWrite s :: os' => conv (escape e s) ++ text_of conv e os'
  | OpPut c :: os' => conv [c] ++ text_of conv e os'
  | OpEnc e' :: os' => text_of conv e' os'
  | OpDump d :: os' => d ++ text_of conv e os'
  | OpDumpStream r :: os' => stream_data r ++ text_of conv e os'
  | OpFlush :: os' => text_of conv e os'
  end.

(** [r], whatever its indeterminate bytes turn out to be, is one well-formed
    record carrying [content], which is not empty, and its length is a
    multiple of eight. *)
Definition carries (type id : N) (r : list (option N)) (content : list N) : Prop :=
  content <> [] /\ (8 | N.of_nat (length r)) /\
  (exists bytes, may_be r bytes) /\
  forall bytes, may_be r bytes -> is_record type id content bytes.

(** UTF-8 (RFC 3629) by arithmetic. *)
Definition scalar (c : N) : Prop := c < 0xd800 \/ (0xdfff < c /\ c <= 0x10ffff).

Definition utf8_1 (c : N) : list N :=
  if c <? 128 then [c]
  else if c <? 2048 then [192 + c / 64; 128 + c mod 64]
  else if c <? 65536 then [224 + c / 4096; 128 + c / 64 mod 64; 128 + c mod 64]
  else [240 + c / 262144; 128 + c / 4096 mod 64; 128 + c / 64 mod 64; 128 + c mod 64].

Definition utf8 (s : list N) : list N := flat_map utf8_1 s.

(** A decoder: number of continuation bytes from the lead byte, then base 64
    digits. *)
Fixpoint utf8_decode (b : list N) : option (list N) :=
  let cons (c : N) (r : option (list N)) :=
    match r with Some l => Some (c :: l) | None => None end in
  match b with
  | [] => Some []
  | x :: r =>
      if x <? 128 then cons x (utf8_decode r)
      else if (192 <=? x) && (x <? 224) then
        match r with
        | y :: r' => if (128 <=? y) && (y <? 192)
                     then cons ((x - 192) * 64 + (y - 128)) (utf8_decode r') else None
        | _ => None
        end
      else if (224 <=? x) && (x <? 240) then
        match r with
        | y :: z :: r' => if (128 <=? y) && (y <? 192) && (128 <=? z) && (z <? 192)
            then cons ((x - 224) * 4096 + (y - 128) * 64 + (z - 128)) (utf8_decode r') else None
        | _ => None
        end
      else if (240 <=? x) && (x <? 248) then
        match r with
        | y :: z :: w :: r' => if (128 <=? y) && (y <? 192) && (128 <=? z) && (z <? 192)
                                  && (128 <=? w) && (w <? 192)
            then cons ((x - 240) * 262144 + (y - 128) * 4096 + (z - 128) * 64 + (w - 128))
                      (utf8_decode r') else None
        | _ => None
        end
      else None
  end.

(** Inverse of HTML escaping. *)
Fixpoint html_unescape (s : list N) : list N :=
  match s with
  | [] => []
  | c :: r =>
      if c =? 38 then
        match r with
        | 97 :: 109 :: 112 :: 59 :: r' => 38 :: html_unescape r'
        | 108 :: 116 :: 59 :: r' => 60 :: html_unescape r'
        | 103 :: 116 :: 59 :: r' => 62 :: html_unescape r'
        | 113 :: 117 :: 111 :: 116 :: 59 :: r' => 34 :: html_unescape r'
        | 97 :: 112 :: 111 :: 115 :: 59 :: r' => 39 :: html_unescape r'
        | _ => c :: html_unescape r
        end
      else c :: html_unescape r
  end.
