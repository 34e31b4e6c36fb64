(** src/types/hex.rs and the parts of crate hex it uses.  A [Hex] is its byte string; texts are
    given as their UTF-8 bytes, which is what [hex::decode] works on. *)
From Coq Require Import ZArith List Bool.
From Verif Require Import Base ValueText.
Import ListNotations.
Open Scope Z_scope.

(** [hex::FromHexError] (crate hex, src/types/hex.rs:19) *)
Inductive hex_error : Type :=
| HOddLength
| HInvalidCharacter (c index : Z).

(** [val] of crate hex, called by [hex::decode] (src/types/hex.rs:24, 35) *)
Definition hex_char (c index : Z) : res hex_error Z :=
  if (65 <=? c) && (c <=? 70) then Ok (c - 65 + 10)
  else if (97 <=? c) && (c <=? 102) then Ok (c - 97 + 10)
  else if (48 <=? c) && (c <=? 57) then Ok (c - 48)
  else Err (HInvalidCharacter c index).

(** Loop of [hex::decode] over pairs (src/types/hex.rs:24, 35); [index] counts characters. *)
Fixpoint hex_decode_pairs (index : Z) (l : bytes) : res hex_error bytes :=
  match l with
  | a :: b :: r =>
    rbind (hex_char a index) (fun h =>
    rbind (hex_char b (index + 1)) (fun w =>
    rbind (hex_decode_pairs (index + 2) r) (fun t => Ok (Z.lor (Z.shiftl h 4) w :: t))))
  | _ => Ok []
  end.

(** [hex::decode] (src/types/hex.rs:24, 35) *)
Definition hex_decode (l : bytes) : res hex_error bytes :=
  if negb (lenZ l mod 2 =? 0) then Err HOddLength else hex_decode_pairs 0 l.

(** [Hex::try_from_hex]: src/types/hex.rs:19-26; [data[..2]] panics on short input. *)
Definition hex_try_from_hex (data : bytes) : res hex_error bytes :=
  if lenZ data <? 2 then Panic
  else
  let data := if list_eqb (takeZ 2 data) [48; 120] || list_eqb (takeZ 2 data) [48; 88]
              then dropZ 2 data else data in
  hex_decode data.

(** [FromStr for Hex]: src/types/hex.rs:31-36 *)
Definition hex_from_str (s : bytes) : res hex_error bytes :=
  let s := if starts_with s [48; 120] || starts_with s [48; 88] then dropZ 2 s else s in
  hex_decode s.

(** [Display for Hex]: src/types/hex.rs:82-87 *)
Definition hex_display (b : bytes) : str := [48; 120] ++ hex_encode b.
