(** Keys whose modulus has one bit more than a number of whole bytes. *)
From Coq Require Import String ZArith List Bool Lia.
From Verif Require Import Base BaseFacts Types Crypt Spec_Crypt Crypt_proofs.
Import ListNotations.
Open Scope Z_scope.

Lemma num_octets_short : forall n e k, (1 <= k)%nat -> 256 ^ (Z.of_nat k - 1) <= n < 2 * 256 ^ (Z.of_nat k - 1) ->
  num_octets (mkKey n e) = Z.of_nat k - 1.
Proof.
  intros n e k Hk H. unfold num_octets. cbn [pk_modulus].
  replace (Z.of_nat k - 1) with (Z.of_nat (k - 1)) in * by lia. rewrite pow256_2 in H.
  rewrite <- Z.pow_succ_r in H by lia.
  assert (0 < 2 ^ (8 * Z.of_nat (k - 1))) by (apply Z.pow_pos_nonneg; lia).
  rewrite (bits_unique n (Z.succ (8 * Z.of_nat (k - 1)))); try lia.
  - rewrite Z.shiftr_div_pow2 by lia. change (2 ^ 3) with 8. lia.
  - replace (Z.succ (8 * Z.of_nat (k - 1)) - 1) with (8 * Z.of_nat (k - 1)) by lia. exact H.
Qed.

Lemma odd_too_long : forall sha1 seed n e k data, (1 <= k)%nat -> 256 ^ (Z.of_nat k - 1) <= n < 2 * 256 ^ (Z.of_nat k - 1) ->
  Z.of_nat k < 45 + Z.of_nat (length data) ->
  encrypt_padded sha1 seed (mkKey n e) data = Err MessageTooLong.
Proof.
  intros h seed n e k data Hk Hn Hl. unfold encrypt_padded. rewrite (num_octets_short n e k Hk Hn).
  unfold pad, HASH_LEN. cbv zeta.
  destruct (Z.ltb_spec (Z.of_nat k - 1) (1 + 20 + 20 + 2 + 1 + lenZ data)) as [_|Hx]; [reflexivity|].
  unfold lenZ in Hx. lia.
Qed.

Lemma odd_encrypt : forall sha1 seed n e k data, hash_fun 20 sha1 -> length seed = 20%nat -> octets seed -> octets data ->
  256 ^ (Z.of_nat k - 1) <= n < 2 * 256 ^ (Z.of_nat k - 1) -> 45 + Z.of_nat (length data) <= Z.of_nat k <= 20 * 2 ^ 32 ->
  encrypt_padded sha1 seed (mkKey n e) data = Panic \/
  exists c, encrypt_padded sha1 seed (mkKey n e) data = Ok c /\ length c = (k - 1)%nat.
Proof.
  intros h seed n e k data Hh Hs Hso Hd Hn Hk. unfold encrypt_padded. rewrite (num_octets_short n e k ltac:(lia) Hn).
  destruct (pad_ok h seed data (Z.of_nat k - 1) Hh Hs Hso Hd ltac:(unfold lenZ; lia)) as (em & Hpad & _).
  rewrite Hpad. cbn [rbind pk_exponent pk_modulus]. set (x := to_bytes_be _).
  destruct (Z.ltb_spec (Z.of_nat k - 1 - lenZ x) 0) as [Hx|Hx]; [now left|]. right. eexists. split; [reflexivity|].
  unfold repeatZ. rewrite app_length, repeat_length. unfold lenZ in *. lia.
Qed.
