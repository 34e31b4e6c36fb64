(** Specification of password scrambles, RSA-OAEP and public key files, written from the MySQL
    documentation (mysql_native_password, caching_sha2_password), RFC 8017 (PKCS #1), RFC 5280 /
    X.690 (DER), RFC 4648 (base64) and RFC 7468 (PEM).  Independent of the model. *)
From Coq Require Import String Ascii ZArith List.
Import ListNotations.
Open Scope Z_scope.

(** Byte strings. *)
Definition octets (l : list Z) : Prop := Forall (fun b => 0 <= b < 256) l.

(** A hash function with [n]-byte output. *)
Definition hash_fun (n : nat) (h : list Z -> list Z) : Prop :=
  forall x, length (h x) = n /\ octets (h x).

(** Position-wise exclusive or of two strings of the same length. *)
Definition xor_all (a b : list Z) : list Z := map (fun p => Z.lxor (fst p) (snd p)) (combine a b).

(** mysql_native_password, server side: [stored] is SHA1(SHA1(password)); the candidate
    SHA1(password) is recovered from the scramble and must hash to [stored]. *)
Definition native_accepts (sha1 : list Z -> list Z) (stored nonce scramble : list Z) : Prop :=
  sha1 (xor_all scramble (sha1 (nonce ++ stored))) = stored.

(** caching_sha2_password fast authentication, server side: [stored] is
    SHA256(SHA256(password)). *)
Definition sha2_accepts (sha256 : list Z -> list Z) (stored nonce scramble : list Z) : Prop :=
  sha256 (xor_all scramble (sha256 (stored ++ nonce))) = stored.

(** I2OSP (RFC 8017, 4.1): big-endian string of [k] bytes. *)
Definition i2osp (n : Z) (k : nat) : list Z :=
  map (fun i => (n / 256 ^ Z.of_nat (k - 1 - i)) mod 256) (seq 0 k).

(** OS2IP (RFC 8017, 4.2). *)
Fixpoint os2ip (l : list Z) : Z :=
  match l with
  | [] => 0
  | b :: r => b * 256 ^ Z.of_nat (length r) + os2ip r
  end.

(** MGF1 (RFC 8017, B.2.1) for a 20-byte hash: the leading [len] bytes of
    Hash(seed || C0) || Hash(seed || C1) || ... *)
Definition mgf (h : list Z -> list Z) (seed : list Z) (len : nat) : list Z :=
  firstn len (flat_map (fun i => h (seed ++ i2osp (Z.of_nat i) 4)) (seq 0 (S (len / 20)))).

(** What is left after the padding zeros and the separating 0x01. *)
Fixpoint after_separator (l : list Z) : option (list Z) :=
  match l with
  | 0 :: r => after_separator r
  | 1 :: r => Some r
  | _ => None
  end.

(** EME-OAEP decoding (RFC 8017, 7.1.2 step 3) with empty label. *)
Definition oaep_decode (h : list Z -> list Z) (em : list Z) : option (list Z) :=
  match em with
  | y :: rest =>
    let masked_seed := firstn 20 rest in
    let masked_db := skipn 20 rest in
    let seed := xor_all masked_seed (mgf h masked_db 20) in
    let db := xor_all masked_db (mgf h seed (length masked_db)) in
    if andb (y =? 0) (if list_eq_dec Z.eq_dec (firstn 20 db) (h []) then true else false)
    then after_separator (skipn 20 db)
    else None
  | [] => None
  end.

(** Number of bytes of the modulus (RFC 8017: k). *)
Definition modulus_octets (n : Z) (k : nat) : Prop := 256 ^ (Z.of_nat k - 1) <= n < 256 ^ Z.of_nat k.

(** The private exponent undoes the public one. *)
Definition rsa_pair (n e d : Z) : Prop :=
  1 < n /\ 0 < e /\ 0 < d /\ forall m, 0 <= m < n -> ((m ^ e) mod n) ^ d mod n = m.

(** RSAES-OAEP decryption (RFC 8017, 7.1.2). *)
Definition rsaes_oaep_decrypt (h : list Z -> list Z) (n d : Z) (k : nat) (c : list Z) : option (list Z) :=
  if Nat.eqb (length c) k
  then oaep_decode h (i2osp ((os2ip c) ^ d mod n) k)
  else None.

(** The server removes the nonce, repeated as often as needed. *)
Definition xor_nonce (nonce m : list Z) : list Z :=
  map (fun p => Z.lxor (snd p) (nth (fst p mod length nonce) nonce 0))
      (combine (seq 0 (length m)) m).

(** DER lengths (X.690, 8.1.3 and 10.1): short form below 128, otherwise the number of
    big-endian bytes (at most eight here) and the bytes without leading zero. *)
Inductive der_length : Z -> list Z -> Prop :=
| der_short : forall n, 0 <= n < 128 -> der_length n [n]
| der_long : forall n k, (1 <= k <= 8)%nat -> 128 <= n -> modulus_octets n k ->
    der_length n (128 + Z.of_nat k :: i2osp n k).

(** Tag, length, contents. *)
Inductive der_tlv (tag : Z) (contents : list Z) : list Z -> Prop :=
| der_tlv_intro : forall w, der_length (Z.of_nat (length contents)) w ->
    der_tlv tag contents (tag :: w ++ contents).

(** Non-negative INTEGER (X.690, 8.3): big-endian, with a leading zero byte exactly when the
    first bit would be set; zero is one zero byte. *)
Inductive der_integer : Z -> list Z -> Prop :=
| der_integer_intro : forall n k contents w, (1 <= k)%nat -> 0 <= n -> contents = i2osp n k ->
    n < 256 ^ Z.of_nat k / 2 -> (k = 1%nat \/ 256 ^ (Z.of_nat k - 1) / 2 <= n) ->
    der_tlv 2 contents w -> der_integer n w.

(** RSAPublicKey (RFC 8017, A.1.1). *)
Inductive pkcs1_key (n e : Z) : list Z -> Prop :=
| pkcs1_intro : forall wn we w, der_integer n wn -> der_integer e we -> der_tlv 48 (wn ++ we) w ->
    pkcs1_key n e w.

(** SubjectPublicKeyInfo with algorithm rsaEncryption (RFC 5280, 4.1 and RFC 8017, A.1). *)
Definition rsa_encryption : list Z := [6; 9; 42; 134; 72; 134; 247; 13; 1; 1; 1; 5; 0].

Inductive pkcs8_key (n e : Z) : list Z -> Prop :=
| pkcs8_intro : forall key alg bits w, pkcs1_key n e key ->
    der_tlv 48 rsa_encryption alg -> der_tlv 3 (0 :: key) bits -> der_tlv 48 (alg ++ bits) w ->
    pkcs8_key n e w.

(** ASCII text. *)
Definition ascii_text (s : string) : list Z :=
  map (fun a => Z.of_nat (nat_of_ascii a)) (list_ascii_of_string s).

(** The base64 alphabet (RFC 4648, table 1). *)
Definition base64_digit (v : Z) : Z :=
  nth (Z.to_nat v) (ascii_text "ABCDEFGHIJKLMNOPQRSTUVWXYZabcdefghijklmnopqrstuvwxyz0123456789+/") 0.

(** Base64 with padding (RFC 4648, section 4). *)
Inductive base64 : list Z -> list Z -> Prop :=
| base64_nil : base64 [] []
| base64_1 : forall x, base64 [x]
    [base64_digit (x / 4); base64_digit ((x mod 4) * 16); 61; 61]
| base64_2 : forall x y, base64 [x; y]
    [base64_digit (x / 4); base64_digit ((x mod 4) * 16 + y / 16); base64_digit ((y mod 16) * 4); 61]
| base64_3 : forall x y z l w, base64 l w -> base64 (x :: y :: z :: l)
    (base64_digit (x / 4) :: base64_digit ((x mod 4) * 16 + y / 16) ::
     base64_digit ((y mod 16) * 4 + z / 64) :: base64_digit (z mod 64) :: w).

(** Space, tab, line feed, vertical tab, form feed, carriage return. *)
Definition white (b : Z) : Prop := In b [9; 10; 11; 12; 13; 32].

(** The same text with white space inserted anywhere. *)
Inductive spaced : list Z -> list Z -> Prop :=
| spaced_nil : spaced [] []
| spaced_keep : forall x l w, spaced l w -> spaced (x :: l) (x :: w)
| spaced_white : forall b l w, white b -> spaced l w -> spaced l (b :: w).

(** A PEM file (RFC 7468): label lines around the base64 text of the DER bytes, broken into
    lines by white space. *)
Inductive pem_file (label : string) (der : list Z) : list Z -> Prop :=
| pem_file_intro : forall b64 body pre mid post,
    base64 der b64 -> spaced b64 body ->
    Forall white pre -> Forall white mid -> Forall white post ->
    pem_file label der
      (pre ++ ascii_text (append "-----BEGIN " (append label "-----")) ++ mid ++ body
           ++ ascii_text (append "-----END " (append label "-----")) ++ post).

(** * What a lenient reader accepts

    Lengths may have leading zeros, integers are read as unsigned, and bytes after the expected
    elements are ignored. *)
Inductive loose_length : Z -> list Z -> Prop :=
| loose_short : forall n, 0 <= n < 128 -> loose_length n [n]
| loose_long : forall digits, (length digits <= 8)%nat ->
    loose_length (os2ip digits) (128 + Z.of_nat (length digits) :: digits).

Inductive loose_tlv (tag : Z) (contents : list Z) : list Z -> Prop :=
| loose_tlv_intro : forall w, loose_length (Z.of_nat (length contents)) w ->
    loose_tlv tag contents (tag :: w ++ contents).

Inductive loose_pkcs1 (n e : Z) : list Z -> Prop :=
| loose_pkcs1_intro : forall cn ce wn we w ignored1 ignored2, n = os2ip cn -> e = os2ip ce ->
    loose_tlv 2 cn wn -> loose_tlv 2 ce we -> loose_tlv 48 (wn ++ we ++ ignored1) w ->
    loose_pkcs1 n e (w ++ ignored2).

Inductive loose_pkcs8 (n e : Z) : list Z -> Prop :=
| loose_pkcs8_intro : forall algorithm alg key bits w ignored1 ignored2, loose_pkcs1 n e key ->
    loose_tlv 48 algorithm alg -> loose_tlv 3 (0 :: key) bits -> loose_tlv 48 (alg ++ bits ++ ignored1) w ->
    loose_pkcs8 n e (w ++ ignored2).

(** Label lines are compared without their spaces. *)
Inductive loose_pem (n e : Z) (w : list Z) : Prop :=
| loose_pem_1 : forall der b64, octets der -> base64 der b64 -> loose_pkcs1 n e der ->
    spaced (ascii_text "-----BEGINRSAPUBLICKEY-----" ++ b64 ++ ascii_text "-----ENDRSAPUBLICKEY-----") w ->
    loose_pem n e w
| loose_pem_8 : forall der b64, octets der -> base64 der b64 -> loose_pkcs8 n e der ->
    spaced (ascii_text "-----BEGINPUBLICKEY-----" ++ b64 ++ ascii_text "-----ENDPUBLICKEY-----") w ->
    loose_pem n e w.

(** * Files cut short

    What is there follows the grammar as far as it goes, but an element ends before its time. *)
Inductive cut_length : list Z -> Prop :=
| cut_length_none : cut_length []
| cut_length_digits : forall k digits, (length digits < k <= 8)%nat -> cut_length (128 + Z.of_nat k :: digits).

Inductive cut_tlv (tag : Z) : list Z -> Prop :=
| cut_tlv_none : cut_tlv tag []
| cut_tlv_length : forall w, cut_length w -> cut_tlv tag (tag :: w)
| cut_tlv_contents : forall n w c, loose_length n w -> Z.of_nat (length c) < n -> cut_tlv tag (tag :: w ++ c).

(** A bit string also lacks something if it has no octet counting its unused bits. *)
Inductive cut_bits : list Z -> Prop :=
| cut_bits_tlv : forall s, cut_tlv 3 s -> cut_bits s
| cut_bits_empty : forall w rest, loose_tlv 3 [] w -> cut_bits (w ++ rest).

Inductive cut_pkcs1 : list Z -> Prop :=
| cut_pkcs1_outer : forall s, cut_tlv 48 s -> cut_pkcs1 s
| cut_pkcs1_modulus : forall c w ignored, loose_tlv 48 c w -> cut_tlv 2 c -> cut_pkcs1 (w ++ ignored)
| cut_pkcs1_exponent : forall cn wn c w ignored, loose_tlv 2 cn wn -> cut_tlv 2 c -> loose_tlv 48 (wn ++ c) w ->
    cut_pkcs1 (w ++ ignored).

Inductive cut_pkcs8 : list Z -> Prop :=
| cut_pkcs8_outer : forall s, cut_tlv 48 s -> cut_pkcs8 s
| cut_pkcs8_algorithm : forall c w ignored, loose_tlv 48 c w -> cut_tlv 48 c -> cut_pkcs8 (w ++ ignored)
| cut_pkcs8_bits : forall algorithm alg c w ignored, loose_tlv 48 algorithm alg -> cut_bits c ->
    loose_tlv 48 (alg ++ c) w -> cut_pkcs8 (w ++ ignored)
| cut_pkcs8_key : forall algorithm alg key bits w ignored1 ignored2, cut_pkcs1 key ->
    loose_tlv 48 algorithm alg -> loose_tlv 3 (0 :: key) bits -> loose_tlv 48 (alg ++ bits ++ ignored1) w ->
    cut_pkcs8 (w ++ ignored2).

(** The two label lines share hyphens. *)
Definition shared_hyphens (name : string) (l : list Z) : Prop :=
  exists k, (5 <= k < 10)%nat /\
    l = ascii_text (append "-----BEGIN" name) ++ repeat 45 k ++ ascii_text (append "END" (append name "-----")).

Inductive cut_pem (w : list Z) : Prop :=
| cut_pem_labels : forall name l, name = "RSAPUBLICKEY"%string \/ name = "PUBLICKEY"%string ->
    shared_hyphens name l -> spaced l w -> cut_pem w
| cut_pem_1 : forall der b64, octets der -> base64 der b64 -> cut_pkcs1 der ->
    spaced (ascii_text "-----BEGINRSAPUBLICKEY-----" ++ b64 ++ ascii_text "-----ENDRSAPUBLICKEY-----") w ->
    cut_pem w
| cut_pem_8 : forall der b64, octets der -> base64 der b64 -> cut_pkcs8 der ->
    spaced (ascii_text "-----BEGINPUBLICKEY-----" ++ b64 ++ ascii_text "-----ENDPUBLICKEY-----") w ->
    cut_pem w.
