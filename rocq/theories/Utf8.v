(** UTF-8 as implemented by Rust's [std::str::from_utf8] / [String::from_utf8] /
    [str::as_bytes] (called in src/connection/parse_buf.rs:176-222,
    src/types/value/conversion.rs:67 and 76, src/connection/packets/err.rs:95 and 103).
    The standard library is not part of /repo; this is a transcription of its documented
    behaviour (well-formed byte sequences of Unicode table 3-7). *)
From Coq Require Import ZArith List Bool.
From Verif Require Import Base.
Import ListNotations.
Open Scope Z_scope.

(** Rust [char]: a Unicode scalar value (element of [str], src/types/value/text.rs:18). *)
Definition scalar_ok (c : Z) : Prop := 0 <= c < 55296 \/ 57344 <= c < 1114112.

(** [str]: only scalar values (src/types/value/text.rs:73). *)
Definition str_ok (s : str) : Prop := Forall scalar_ok s.

(** [char::encode_utf8], behind [str::as_bytes] (src/types/value/conversion.rs:67). *)
Definition utf8_encode_char (c : Z) : bytes :=
  if c <? 128 then [c]
  else if c <? 2048 then [192 + c / 64; 128 + c mod 64]
  else if c <? 65536 then [224 + c / 4096; 128 + (c / 64) mod 64; 128 + c mod 64]
  else [240 + c / 262144; 128 + (c / 4096) mod 64; 128 + (c / 64) mod 64; 128 + c mod 64].

(** [str::as_bytes] / [String::into_bytes] (src/types/value/conversion.rs:67). *)
Definition utf8_encode (s : str) : bytes := flat_map utf8_encode_char s.

(** A continuation byte (std::str::from_utf8, see file header). *)
Definition cont (b : Z) : bool := (128 <=? b) && (b <? 192).

(** [std::str::from_utf8] (src/connection/parse_buf.rs:185): [None] is Utf8Error. *)
Fixpoint utf8_decode (l : bytes) : option str :=
  match l with
  | [] => Some []
  | b0 :: r0 =>
    if b0 <? 128 then option_map (cons b0) (utf8_decode r0)
    else if b0 <? 194 then None
    else if b0 <? 224 then
      match r0 with
      | b1 :: r1 =>
        if cont b1 then option_map (cons ((b0 - 192) * 64 + (b1 - 128))) (utf8_decode r1)
        else None
      | _ => None
      end
    else if b0 <? 240 then
      match r0 with
      | b1 :: b2 :: r2 =>
        if cont b1 && cont b2
           && (if b0 =? 224 then 160 <=? b1 else true)
           && (if b0 =? 237 then b1 <? 160 else true)
        then option_map (cons ((b0 - 224) * 4096 + (b1 - 128) * 64 + (b2 - 128))) (utf8_decode r2)
        else None
      | _ => None
      end
    else if b0 <? 245 then
      match r0 with
      | b1 :: b2 :: b3 :: r3 =>
        if cont b1 && cont b2 && cont b3
           && (if b0 =? 240 then 144 <=? b1 else true)
           && (if b0 =? 244 then b1 <? 144 else true)
        then option_map (cons ((b0 - 240) * 262144 + (b1 - 128) * 4096 + (b2 - 128) * 64 + (b3 - 128)))
                        (utf8_decode r3)
        else None
      | _ => None
      end
    else None
  end.
