(** src/utils/crypt.rs: RSA-OAEP encryption of the password and parsing of the server's public
    key.  SHA-1 (crate sha1) and the random seed (crate rand) are parameters; big integers
    (crate num) are [Z]; base64 (crate base64) is transcribed from its documentation. *)
From Coq Require Import String ZArith List Bool.
From Verif Require Import Base Types Scramble.
Import ListNotations.
Open Scope Z_scope.

(** src/utils/crypt.rs:118-122 *)
Record public_key : Type := mkKey { pk_modulus : Z; pk_exponent : Z }.

(** Slice indexing [s[i]] (panics): src/utils/crypt.rs:21, 33, 39, 50, 61, 66 *)
Definition at_ (s : bytes) (i : Z) : res crypt_error Z :=
  match index_opt s i with Some b => Ok b | None => Panic end.

(** Slicing [&s[a..b]] (panics unless [a <= b <= len]): src/utils/crypt.rs:28, 44, 55, 67, 102 *)
Definition slice (s : bytes) (a b : Z) : res crypt_error bytes :=
  if (a <=? b) && (b <=? lenZ s) then Ok (takeZ (b - a) (dropZ a s)) else Panic.

(** Slicing [&s[a..]]: src/utils/crypt.rs:29, 34, 42, 45, 53, 56, 64, 68 *)
Definition slice_from (s : bytes) (a : Z) : res crypt_error bytes := slice s a (lenZ s).

(** src/utils/crypt.rs:20-36 on a 64-bit machine; returns the length and the rest. *)
Definition eat_len (der : bytes) : res crypt_error (Z * bytes) :=
  rbind (at_ der 0) (fun b =>
  if Z.land b 128 =? 128 then
    let len := Z.land b 127 in
    if 8 <? len then Err InvalidPem
    else
      rbind (slice der 1 (len + 1)) (fun digits =>
      rbind (slice_from der (len + 1)) (fun rest =>
      Ok (be_val digits, rest)))
  else
    rbind (slice_from der 1) (fun rest => Ok (b, rest))).

(** The first byte is the tag, then the length: src/utils/crypt.rs:39-43, 50-54, 61-65 *)
Definition eat_tag (tag : Z) (der : bytes) : res crypt_error (Z * bytes) :=
  rbind (at_ der 0) (fun b =>
  if negb (b =? tag) then Err InvalidPem
  else rbind (slice_from der 1) eat_len).

(** src/utils/crypt.rs:38-47 *)
Definition der_eat_uint (der : bytes) : res crypt_error (Z * bytes) :=
  rbind (eat_tag 2 der) (fun '(len, der1) =>
  rbind (slice der1 0 len) (fun digits =>
  rbind (slice_from der1 len) (fun rest =>
  Ok (be_val digits, rest)))).

(** src/utils/crypt.rs:49-58 *)
Definition eat_sequence (der : bytes) : res crypt_error (bytes * bytes) :=
  rbind (eat_tag 48 der) (fun '(len, der1) =>
  rbind (slice der1 0 len) (fun sequence =>
  rbind (slice_from der1 len) (fun rest =>
  Ok (sequence, rest)))).

(** src/utils/crypt.rs:60-70 *)
Definition eat_bit_string (der : bytes) : res crypt_error (Z * bytes * bytes) :=
  rbind (eat_tag 3 der) (fun '(len, der1) =>
  rbind (at_ der1 0) (fun unused_bits =>
  rbind (slice der1 1 len) (fun bit_string =>
  rbind (slice_from der1 len) (fun rest =>
  Ok (unused_bits, bit_string, rest))))).

(** src/utils/crypt.rs:73-78 *)
Definition try_from_pkcs1 (der : bytes) : res crypt_error public_key :=
  rbind (eat_sequence der) (fun '(pub_key, _) =>
  rbind (der_eat_uint pub_key) (fun '(modulus, pub_key1) =>
  rbind (der_eat_uint pub_key1) (fun '(exponent, _) =>
  Ok (mkKey modulus exponent)))).

(** src/utils/crypt.rs:80-88 *)
Definition try_from_pkcs8 (der : bytes) : res crypt_error public_key :=
  rbind (eat_sequence der) (fun '(seq_data, _) =>
  rbind (eat_sequence seq_data) (fun '(_, seq_data1) =>
  rbind (eat_bit_string seq_data1) (fun '(unused_bits, pub_key, _) =>
  if negb (unused_bits =? 0) then Err InvalidPem
  else try_from_pkcs1 pub_key))).

(** Value of a base64 digit (base64 crate, [alphabet::STANDARD]; src/utils/crypt.rs:109) *)
Definition b64_val (c : Z) : option Z :=
  if (65 <=? c) && (c <=? 90) then Some (c - 65)
  else if (97 <=? c) && (c <=? 122) then Some (c - 71)
  else if (48 <=? c) && (c <=? 57) then Some (c + 4)
  else if c =? 43 then Some 62
  else if c =? 47 then Some 63
  else None.

(** [STANDARD.decode] (base64 crate, padding mode RequireCanonical, no trailing bits allowed):
    src/utils/crypt.rs:109.  [None] is DecodeError. *)
Fixpoint b64_decode (l : bytes) : option bytes :=
  match l with
  | [] => Some []
  | a :: b :: c :: d :: r =>
    match b64_val a, b64_val b with
    | Some va, Some vb =>
      match b64_val c, b64_val d with
      | Some vc, Some vd =>
        option_map (fun rest => va * 4 + vb / 16 :: (vb mod 16) * 16 + vc / 4 :: (vc mod 4) * 64 + vd :: rest)
                   (b64_decode r)
      | Some vc, None =>
        if (d =? 61) && (match r with [] => true | _ => false end) && (vc mod 4 =? 0)
        then Some [va * 4 + vb / 16; (vb mod 16) * 16 + vc / 4]
        else None
      | None, _ =>
        if (c =? 61) && (d =? 61) && (match r with [] => true | _ => false end) && (vb mod 16 =? 0)
        then Some [va * 4 + vb / 16]
        else None
      end
    | _, _ => None
    end
  | _ => None
  end.

(** src/utils/crypt.rs:97: the bytes removed before matching *)
Definition pem_space (b : Z) : bool :=
  (b =? 32) || (b =? 10) || (b =? 9) || (b =? 13) || (b =? 11) || (b =? 12).

(** src/utils/crypt.rs:91-92 *)
Definition PKCS1_BEGIN : bytes := s2l "-----BEGINRSAPUBLICKEY-----".
(** src/utils/crypt.rs:92 *)
Definition PKCS1_END : bytes := s2l "-----ENDRSAPUBLICKEY-----".
(** src/utils/crypt.rs:93 *)
Definition PKCS8_BEGIN : bytes := s2l "-----BEGINPUBLICKEY-----".
(** src/utils/crypt.rs:93 *)
Definition PKCS8_END : bytes := s2l "-----ENDPUBLICKEY-----".

(** [slice::ends_with] (src/utils/crypt.rs:101) *)
Definition ends_with (l s : bytes) : bool := starts_with (rev l) (rev s).

(** src/utils/crypt.rs:90-114 *)
Definition try_from_pem (pem : bytes) : res crypt_error public_key :=
  let pem := filter (fun x => negb (pem_space x)) pem in
  rbind
    (if starts_with pem PKCS1_BEGIN && ends_with pem PKCS1_END
     then rmap (fun body => (body, true)) (slice pem (lenZ PKCS1_BEGIN) (lenZ pem - lenZ PKCS1_END))
     else if starts_with pem PKCS8_BEGIN && ends_with pem PKCS8_END
     then rmap (fun body => (body, false)) (slice pem (lenZ PKCS8_BEGIN) (lenZ pem - lenZ PKCS8_END))
     else Err InvalidPem)
    (fun '(body, is_pkcs_1) =>
       match b64_decode body with
       | None => Err InvalidPem
       | Some body => if (is_pkcs_1 : bool) then try_from_pkcs1 body else try_from_pkcs8 body
       end).

(** [BigUint::bits] (crate num): src/utils/crypt.rs:130 *)
Definition bits (n : Z) : Z := if n <=? 0 then 0 else Z.log2 n + 1.

(** src/utils/crypt.rs:129-131 *)
Definition num_octets (k : public_key) : Z := Z.shiftr (bits (pk_modulus k) + 6) 3.

(** [to_be_bytes] of a [k]-byte integer: src/utils/crypt.rs:182, 190 *)
Definition be_bytes (k : nat) (n : Z) : bytes := rev (le_bytes k n).

(** [BigUint::to_bytes_be] (crate num; zero gives one zero byte): src/utils/crypt.rs:148 *)
Definition to_bytes_be (n : Z) : bytes := be_bytes (Z.to_nat (Z.max 1 ((bits n + 7) / 8))) n.

(** src/utils/crypt.rs:165 *)
Definition HASH_LEN : Z := 20.

(** src/utils/crypt.rs:171-194 *)
Definition mgf1 (sha1 : bytes -> bytes) (seed : bytes) (len : Z) : res crypt_error bytes :=
  if Z.shiftl HASH_LEN 32 <? len then Err MessageTooLong
  else
    let full := flat_map (fun i => sha1 (seed ++ be_bytes 4 (Z.of_nat i))) (List.seq 0 (Z.to_nat (len / HASH_LEN))) in
    let remaining := len mod HASH_LEN in
    if 0 <? remaining
    then Ok (full ++ takeZ remaining (sha1 (seed ++ be_bytes 4 (len / HASH_LEN))))
    else Ok full.

(** src/utils/crypt.rs:214-246; [seed]: the bytes the random generator yields at 226-228. *)
Definition pad (sha1 : bytes -> bytes) (seed data : bytes) (n : Z) : res crypt_error bytes :=
  let seed_len := HASH_LEN in
  if n <? 1 + seed_len + HASH_LEN + 2 + 1 + lenZ data then Err MessageTooLong
  else
    let msg_len := n - seed_len - 1 in
    let filling_len := msg_len - lenZ data in
    let msg := (sha1 [] ++ repeatZ 0 (filling_len - 1 - HASH_LEN) ++ [1]) ++ data in
    rbind (mgf1 sha1 seed (lenZ msg)) (fun msg_mask =>
    let msg' := xor msg msg_mask in
    rbind (mgf1 sha1 msg' seed_len) (fun seed_mask =>
    Ok (0 :: xor seed seed_mask ++ msg'))).

(** src/utils/crypt.rs:141-157.  [octets - encrypted.len()] below zero panics in debug builds;
    in release builds it wraps and the slice at 153 panics. *)
Definition encrypt_padded (sha1 : bytes -> bytes) (seed : bytes) (key : public_key) (data : bytes)
  : res crypt_error bytes :=
  let octets := num_octets key in
  rbind (pad sha1 seed data octets) (fun padded =>
  let encrypted := to_bytes_be ((be_val padded ^ pk_exponent key) mod pk_modulus key) in
  let fill := octets - lenZ encrypted in
  if fill <? 0 then Panic
  else Ok (repeatZ 0 fill ++ encrypted)).

(** The loop of src/connection/auth.rs:105-107 from position [i] on. *)
Fixpoint mask_from (nonce : bytes) (i : Z) (pass : bytes) : bytes :=
  match pass with
  | [] => []
  | b :: r => Z.lxor b (nth (Z.to_nat (i mod lenZ nonce)) nonce 0) :: mask_from nonce (i + 1) r
  end.

(** src/connection/auth.rs:105-107; the remainder by zero panics. *)
Definition mask_password (nonce pass : bytes) : res crypt_error bytes :=
  match nonce, pass with
  | [], _ :: _ => Panic
  | _, _ => Ok (mask_from nonce 0 pass)
  end.
