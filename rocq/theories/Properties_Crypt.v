(** Properties C38-C41. *)
From Coq Require Import String ZArith List Bool Lia.
From Verif Require Import Base BaseFacts Types Scramble Crypt Spec_Wire Spec_Crypt ParseBuf_proofs Crypt_proofs Pem_proofs Cut_proofs.
Import ListNotations.
Open Scope Z_scope.

(** A hash function for the examples: every output byte is a checksum of the input. *)
Definition toy_hash (n : nat) (x : list Z) : list Z := repeat (fold_left (fun a b => (a * 31 + b + 7) mod 256) x 3) n.

Lemma toy_hash_ok : forall n, hash_fun n (toy_hash n).
Proof.
  intros n x. unfold toy_hash. split. { apply repeat_length. }
  apply Forall_forall. intros b Hb. apply repeat_spec in Hb. subst b.
  induction x as [|y x IH] using rev_ind; [cbn; lia|]. rewrite fold_left_app. cbn [fold_left].
  apply Z.mod_pos_bound. lia.
Qed.

(** C38: the scramble for mysql_native_password. *)
Theorem C38_native_scramble_accepted : forall sha1 nonce password, hash_fun 20 sha1 ->
  (password <> [] ->
   exists s, scramble_native sha1 nonce password = Some s /\ length s = 20%nat /\ octets s
             /\ native_accepts sha1 (sha1 (sha1 password)) nonce s)
  /\ scramble_native sha1 nonce [] = None.
Proof. intros. split; [intros; apply native_scramble_ok; assumption|reflexivity]. Qed.
Print Assumptions C38_native_scramble_accepted.

Example C38_example : hash_fun 20 (toy_hash 20) /\ [115; 101] <> [] /\
  scramble_native (toy_hash 20) [1; 2; 3] [115; 101] = Some (repeat 179 20).
Proof. split; [apply toy_hash_ok|]. split; [discriminate|vm_compute; reflexivity]. Qed.

(** C39: the scramble for caching_sha2_password. *)
Theorem C39_sha2_scramble_accepted : forall sha256 nonce password, hash_fun 32 sha256 ->
  (password <> [] ->
   exists s, scramble_sha256 sha256 nonce password = Some s /\ length s = 32%nat /\ octets s
             /\ sha2_accepts sha256 (sha256 (sha256 password)) nonce s)
  /\ scramble_sha256 sha256 nonce [] = None.
Proof. intros. split; [intros; apply sha2_scramble_ok; assumption|reflexivity]. Qed.
Print Assumptions C39_sha2_scramble_accepted.

Example C39_example : hash_fun 32 (toy_hash 32) /\ [115; 101] <> [] /\
  scramble_sha256 (toy_hash 32) [1; 2; 3] [115; 101] = Some (repeat 51 32).
Proof. split; [apply toy_hash_ok|]. split; [discriminate|vm_compute; reflexivity]. Qed.

(** C40: what the client sends as encrypted password is decrypted by the server.  [pass] is the
    password, the client encrypts it with its NUL terminator, masked with the nonce
    (auth.rs:67-69, 105-111).  The bit length of the modulus must not be 1 modulo 8 (the first
    inequality); otherwise the claim is false, see below.  The bound on the key size
    (20 * 2^32 bytes) is that of MGF1. *)
Theorem C40_encrypted_password_decrypts_partial : forall sha1 seed n e d k nonce pass,
  hash_fun 20 sha1 -> length seed = 20%nat -> octets seed -> rsa_pair n e d ->
  2 * 256 ^ (Z.of_nat k - 1) <= n < 256 ^ Z.of_nat k -> Z.of_nat k <= 20 * 2 ^ 32 ->
  nonce <> [] -> octets nonce -> octets pass ->
  (45 + Z.of_nat (length pass) <= Z.of_nat k ->
   exists masked c, mask_password nonce (pass ++ [0]) = Ok masked
     /\ encrypt_padded sha1 seed (mkKey n e) masked = Ok c
     /\ option_map (xor_nonce nonce) (rsaes_oaep_decrypt sha1 n d k c) = Some (pass ++ [0]))
  /\ ((1 <= k)%nat -> Z.of_nat k < 45 + Z.of_nat (length pass) ->
      exists masked, mask_password nonce (pass ++ [0]) = Ok masked
        /\ encrypt_padded sha1 seed (mkKey n e) masked = Err MessageTooLong).
Proof.
  intros sha1 seed n e d k nonce pass Hh Hs Hso Hr Hn Hkb Hne Hno Hp.
  assert (Hl : length (xor_nonce nonce (pass ++ [0])) = S (length pass)).
  { rewrite xor_nonce_length, app_length. cbn [length]. lia. }
  split.
  - intros Hk. exists (xor_nonce nonce (pass ++ [0])).
    destruct (encrypt_ok sha1 seed n e d k (xor_nonce nonce (pass ++ [0]))) as (c & Hc1 & Hc2); auto.
    { apply xor_nonce_ok; [assumption|]. apply Forall_app. split; [assumption|repeat constructor; lia]. }
    { rewrite Hl. lia. }
    exists c. split; [apply mask_password_xor; assumption|]. split; [exact Hc1|].
    rewrite Hc2. cbn [option_map]. rewrite xor_nonce_twice. reflexivity.
  - intros Hk1 Hk. exists (xor_nonce nonce (pass ++ [0])). split; [apply mask_password_xor; assumption|].
    apply (encrypt_too_long sha1 seed n e k); [assumption|assumption|]. rewrite Hl. lia.
Qed.
Print Assumptions C40_encrypted_password_decrypts_partial.

(** A 408-bit key with public exponent 3. *)
Definition good_primes : list Z :=
  [47; 53; 59; 71; 83; 89; 101; 107; 113; 131; 137; 149; 167; 173; 179; 191; 197; 227; 233;
     239; 251; 257; 263; 269; 281; 293; 311; 317; 347; 353; 359; 383; 389; 401; 419; 431; 443;
     449; 461; 467; 479; 491; 503; 509; 521; 557; 563; 569; 587; 593; 599].
Definition good_modulus : Z := 543880850946743684129312289747811334100731542096480981674978032875508010175802630123247289225392037185280596564095650372583.
Definition good_private : Z := 120680186966752788696530308130767441772054690001214718280810667.

Lemma good_key : rsa_pair good_modulus 3 good_private.
Proof.
  replace good_modulus with (product good_primes) by (vm_compute; reflexivity).
  apply multi_prime_rsa; try (vm_compute; reflexivity).
Qed.

Example C40_example :
  hash_fun 20 (toy_hash 20) /\ rsa_pair good_modulus 3 good_private
  /\ 2 * 256 ^ (Z.of_nat 51 - 1) <= good_modulus < 256 ^ Z.of_nat 51
  /\ 45 + Z.of_nat (length (ascii_text "secret")) <= Z.of_nat 51
  /\ exists c, encrypt_padded (toy_hash 20) (repeat 9 20) (mkKey good_modulus 3)
                 (xor_nonce [1; 2; 3] (ascii_text "secret" ++ [0])) = Ok c
               /\ length c = 51%nat /\ nth 0 c 0 <> 0.
Proof.
  split; [apply toy_hash_ok|]. split; [apply good_key|].
  split; [split; vm_compute; congruence|]. split; [vm_compute; congruence|].
  destruct (encrypt_padded (toy_hash 20) (repeat 9 20) (mkKey good_modulus 3)
              (xor_nonce [1; 2; 3] (ascii_text "secret" ++ [0]))) as [c|x|] eqn:E; vm_compute in E; try discriminate.
  injection E as <-. eexists. split; [reflexivity|]. split; [reflexivity|vm_compute; congruence].
Qed.

(** With a 409-bit modulus [num_octets] is one too small, and the client panics. *)
Definition bad_primes : list Z :=
  [101; 107; 113; 131; 137; 149; 167; 173; 179; 191; 197; 227; 233; 239; 251; 257; 263; 269;
     281; 293; 311; 317; 347; 353; 359; 383; 389; 401; 419; 431; 443; 449; 461; 467; 479; 491;
     503; 509; 521; 557; 563; 569; 587; 593; 599; 617; 641; 647; 653].
Definition bad_modulus : Z := 1178995742874242474169513582825576797966447080968300130709355600865408125095911888612039224205924827961779975000843319038257.
Definition bad_private : Z := 239888664336350055579688295430671865961523347197536574143562667.

Lemma bad_key : rsa_pair bad_modulus 3 bad_private.
Proof.
  replace bad_modulus with (product bad_primes) by (vm_compute; reflexivity).
  apply multi_prime_rsa; try (vm_compute; reflexivity).
Qed.

Theorem C40_encrypted_password_decrypts_refuted : exists sha1 seed n e d k data,
  hash_fun 20 sha1 /\ length seed = 20%nat /\ octets seed /\ rsa_pair n e d /\ modulus_octets n k
  /\ 45 + Z.of_nat (length data) <= Z.of_nat k /\ octets data
  /\ encrypt_padded sha1 seed (mkKey n e) data = Panic.
Proof.
  exists (toy_hash 20), (repeat 1 20), bad_modulus, 3, bad_private, 52%nat, (ascii_text "secret").
  split; [apply toy_hash_ok|]. split; [reflexivity|]. split; [repeat constructor; lia|]. split; [apply bad_key|].
  split; [split; vm_compute; congruence|]. split; [vm_compute; congruence|].
  split; [repeat constructor; lia|]. vm_compute. reflexivity.
Qed.
Print Assumptions C40_encrypted_password_decrypts_refuted.

(** C41: public keys written by the standards are read back. *)
Theorem C41_public_key_parsed_partial : forall n e der w, octets der ->
  (pkcs1_key n e der /\ pem_file "RSA PUBLIC KEY" der w) \/ (pkcs8_key n e der /\ pem_file "PUBLIC KEY" der w) ->
  try_from_pem w = Ok (mkKey n e).
Proof.
  intros n e der w Ho [[H1 H2]|[H1 H2]]; [eapply pem_pkcs1_ok|eapply pem_pkcs8_ok]; eassumption.
Qed.
Print Assumptions C41_public_key_parsed_partial.

(** Exactly the files of the lenient grammar are accepted, with their modulus and exponent. *)
Theorem C41_accepted_files : forall n e w, octets w -> try_from_pem w = Ok (mkKey n e) <-> loose_pem n e w.
Proof. exact pem_iff. Qed.
Print Assumptions C41_accepted_files.

(** Exactly the files cut short, or whose label lines share hyphens, panic; everything else that is
    refused is refused as an invalid file. *)
Theorem C41_panics : forall w, octets w -> try_from_pem w = Panic <-> cut_pem w.
Proof. exact pem_panic. Qed.
Print Assumptions C41_panics.

Theorem C41_errors : forall w e, try_from_pem w = Err e -> e = InvalidPem.
Proof. exact pem_err. Qed.
Print Assumptions C41_errors.

Example C41_errors_case :
  try_from_pem (ascii_text "-----BEGIN PUBLIC KEY----- MA%= -----END PUBLIC KEY-----") = Err InvalidPem
  /\ try_from_pem (ascii_text "-----BEGIN PUBLIC KEY----- MAA= -----END PUBLIC KEY-----") = Panic.
Proof. split; vm_compute; reflexivity. Qed.

(** Malformed files can panic: the text without any key bytes, and overlapping label lines. *)
Theorem C41_malformed_rejected_refuted :
  (exists w, octets w /\ (forall n e, ~ loose_pem n e w) /\ try_from_pem w = Panic
     /\ w = ascii_text "-----BEGIN PUBLIC KEY----------END PUBLIC KEY-----")
  /\ try_from_pem (ascii_text "-----BEGIN PUBLIC KEY-----END PUBLIC KEY-----") = Panic.
Proof.
  assert (Hp : try_from_pem (ascii_text "-----BEGIN PUBLIC KEY----------END PUBLIC KEY-----") = Panic)
    by (vm_compute; reflexivity).
  split; [|vm_compute; reflexivity].
  exists (ascii_text "-----BEGIN PUBLIC KEY----------END PUBLIC KEY-----").
  assert (Ho : octets (ascii_text "-----BEGIN PUBLIC KEY----------END PUBLIC KEY-----")).
  { apply Forall_forall. intros x Hx.
    assert (Hb : forallb (fun b => (0 <=? b) && (b <? 256)) (ascii_text "-----BEGIN PUBLIC KEY----------END PUBLIC KEY-----") = true)
      by (vm_compute; reflexivity).
    rewrite forallb_forall in Hb. apply Hb in Hx. apply andb_true_iff in Hx.
    rewrite Z.leb_le, Z.ltb_lt in Hx. exact Hx. }
  split; [exact Ho|]. split; [|split; [exact Hp|reflexivity]].
  intros n e H. apply pem_iff in H; [|exact Ho]. rewrite Hp in H. discriminate.
Qed.
Print Assumptions C41_malformed_rejected_refuted.

Example C41_example : exists der, octets der /\ pkcs8_key 51873 17 der
  /\ pem_file "PUBLIC KEY" der
       (ascii_text "-----BEGIN PUBLIC KEY-----" ++ [10] ++ (ascii_text "MBwwDQYJKoZIhvcNAQEBBQADCwAwCA"
        ++ [13; 10] ++ ascii_text "IDAMqhAgER" ++ [10]) ++ ascii_text "-----END PUBLIC KEY-----" ++ [10]).
Proof.
  exists [48; 28; 48; 13; 6; 9; 42; 134; 72; 134; 247; 13; 1; 1; 1; 5; 0; 3; 11; 0; 48; 8; 2; 3; 0; 202; 161; 2; 1; 17].
  split. { repeat (apply Forall_cons; [lia|]). apply Forall_nil. }
  split.
  - apply (pkcs8_intro _ _ [48; 8; 2; 3; 0; 202; 161; 2; 1; 17]
             [48; 13; 6; 9; 42; 134; 72; 134; 247; 13; 1; 1; 1; 5; 0]
             [3; 11; 0; 48; 8; 2; 3; 0; 202; 161; 2; 1; 17]).
    + apply (pkcs1_intro _ _ [2; 3; 0; 202; 161] [2; 1; 17]).
      * apply (der_integer_intro 51873 3 [0; 202; 161]);
          [lia|lia|reflexivity|vm_compute; reflexivity|right; vm_compute; congruence|].
        apply (der_tlv_intro 2 [0; 202; 161] [3]). apply der_short. cbn. lia.
      * apply (der_integer_intro 17 1 [17]);
          [lia|lia|reflexivity|vm_compute; reflexivity|left; reflexivity|].
        apply (der_tlv_intro 2 [17] [1]). apply der_short. cbn. lia.
      * apply (der_tlv_intro 48 [2; 3; 0; 202; 161; 2; 1; 17] [8]). apply der_short. cbn. lia.
    + apply (der_tlv_intro 48 rsa_encryption [13]). apply der_short. cbn. lia.
    + apply (der_tlv_intro 3 (0 :: [48; 8; 2; 3; 0; 202; 161; 2; 1; 17]) [11]). apply der_short. cbn. lia.
    + apply (der_tlv_intro 48 [48; 13; 6; 9; 42; 134; 72; 134; 247; 13; 1; 1; 1; 5; 0; 3; 11; 0; 48; 8; 2; 3; 0; 202; 161; 2; 1; 17] [28]). apply der_short. cbn. lia.
  - apply (pem_file_intro "PUBLIC KEY" _ (ascii_text "MBwwDQYJKoZIhvcNAQEBBQADCwAwCAIDAMqhAgER")
             (ascii_text "MBwwDQYJKoZIhvcNAQEBBQADCwAwCA" ++ [13; 10] ++ ascii_text "IDAMqhAgER" ++ [10]) [] [10] [10]).
    + repeat apply base64_3. apply base64_nil.
    + vm_compute. repeat (first [apply spaced_keep | apply spaced_white; [unfold white; cbn; intuition|]]). apply spaced_nil.
    + constructor.
    + constructor; [unfold white; cbn; intuition|constructor].
    + constructor; [unfold white; cbn; intuition|constructor].
Qed.
