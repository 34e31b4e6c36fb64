(** Property C40, for keys whose modulus has one bit more than a number of whole bytes (1025 bits,
    for example): no password is ever handed to a server with such a key. *)
From Coq Require Import String ZArith List Bool Lia.
From Verif Require Import Base BaseFacts Types Crypt Spec_Crypt Crypt_proofs OddModulus_proofs Properties_Crypt.
Import ListNotations.
Open Scope Z_scope.

(** Whatever the password, the nonce and the seed are: it is refused as too long (one byte earlier
    than the standard has it), or the client panics, or it sends a text one byte too short, which a
    server has to refuse. *)
Theorem C40_odd_modulus_refuted : forall sha1 seed n e d k nonce pass,
  hash_fun 20 sha1 -> length seed = 20%nat -> octets seed -> rsa_pair n e d ->
  (1 <= k)%nat -> 256 ^ (Z.of_nat k - 1) <= n < 2 * 256 ^ (Z.of_nat k - 1) -> Z.of_nat k <= 20 * 2 ^ 32 ->
  nonce <> [] -> octets nonce -> octets pass ->
  exists masked, mask_password nonce (pass ++ [0]) = Ok masked /\
  (Z.of_nat k < 46 + Z.of_nat (length pass) -> encrypt_padded sha1 seed (mkKey n e) masked = Err MessageTooLong) /\
  (46 + Z.of_nat (length pass) <= Z.of_nat k ->
   encrypt_padded sha1 seed (mkKey n e) masked = Panic \/
   exists c, encrypt_padded sha1 seed (mkKey n e) masked = Ok c /\ length c = (k - 1)%nat /\
     rsaes_oaep_decrypt sha1 n d k c = None).
Proof.
  intros sha1 seed n e d k nonce pass Hh Hs Hso Hr Hk Hn Hb Hnn Hno Hp.
  assert (Ho : octets (pass ++ [0])) by (apply Forall_app; split; [exact Hp | repeat constructor; lia]).
  exists (xor_nonce nonce (pass ++ [0])). split; [now apply mask_password_xor|].
  assert (Hl : length (xor_nonce nonce (pass ++ [0])) = S (length pass))
    by (rewrite xor_nonce_length, app_length; cbn; lia).
  split; intros Hk'.
  - apply (odd_too_long sha1 seed n e k); auto. rewrite Hl. lia.
  - destruct (odd_encrypt sha1 seed n e k (xor_nonce nonce (pass ++ [0])) Hh Hs Hso) as [E | (c & E & L)]; auto.
    + now apply xor_nonce_ok.
    + rewrite Hl. lia.
    + right. exists c. split; [exact E|]. split; [exact L|]. unfold rsaes_oaep_decrypt.
      destruct (Nat.eqb_spec (length c) k) as [F|_]; [lia | reflexivity].
Qed.
Print Assumptions C40_odd_modulus_refuted.

(** A key of 409 bits (52 bytes): both happen. *)
Example C40_odd_modulus_case :
  rsa_pair bad_modulus 3 bad_private /\ 256 ^ (Z.of_nat 52 - 1) <= bad_modulus < 2 * 256 ^ (Z.of_nat 52 - 1) /\
  46 + Z.of_nat (length (ascii_text "secret")) <= Z.of_nat 52 /\
  encrypt_padded (toy_hash 20) (repeat 1 20) (mkKey bad_modulus 3) (ascii_text "secret") = Panic /\
  exists c, encrypt_padded (toy_hash 20) (repeat 2 20) (mkKey bad_modulus 3) (ascii_text "secret") = Ok c /\ length c = 51%nat.
Proof.
  split; [apply bad_key|]. split; [split; vm_compute; congruence|]. split; [vm_compute; congruence|].
  split; [vm_compute; reflexivity|].
  destruct (encrypt_padded (toy_hash 20) (repeat 2 20) (mkKey bad_modulus 3) (ascii_text "secret")) as [c|x|] eqn:E;
    vm_compute in E; try discriminate. injection E as <-. eexists. split; reflexivity.
Qed.
