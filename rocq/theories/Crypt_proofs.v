(** Lemmas about scrambles, RSA-OAEP and public key parsing. *)
From Coq Require Import String ZArith List Bool Lia Znumtheory Zpow_facts.
From Verif Require Import Base BaseFacts Types Scramble Crypt Spec_Wire Spec_Crypt ParseBuf_proofs.
Import ListNotations.
Open Scope Z_scope.

(** * Exclusive or *)

Lemma lxor_byte : forall a b, 0 <= a < 256 -> 0 <= b < 256 -> 0 <= Z.lxor a b < 256.
Proof.
  intros a b Ha Hb. split. { apply Z.lxor_nonneg. lia. }
  destruct (Z.eq_dec (Z.lxor a b) 0) as [->|Hn]; [lia|].
  assert (0 <= Z.lxor a b) by (apply Z.lxor_nonneg; lia).
  assert (Hlog : forall x, 0 <= x < 256 -> Z.log2 x < 8).
  { intros x Hx. destruct (Z.eq_dec x 0) as [->|]; [reflexivity|]. apply Z.log2_lt_pow2; [lia|].
    change (2 ^ 8) with 256. lia. }
  change 256 with (2 ^ 8). apply Z.log2_lt_pow2; [lia|].
  pose proof (Z.log2_lxor a b ltac:(lia) ltac:(lia)).
  pose proof (Hlog a Ha). pose proof (Hlog b Hb). lia.
Qed.

Lemma xor_length : forall l r, length (xor l r) = length l.
Proof. induction l; destruct r; cbn [xor length]; auto. Qed.

Lemma xor_ok : forall l r, octets l -> octets r -> octets (xor l r).
Proof.
  induction l as [|x l IH]; intros r Hl Hr; destruct r as [|y r]; cbn [xor]; auto.
  inversion_clear Hl; inversion_clear Hr. constructor. { apply lxor_byte; auto. } apply IH; auto.
Qed.

Lemma xor_cancel : forall a b, length a = length b -> xor_all (xor a b) b = a.
Proof.
  unfold xor_all. induction a as [|x a IH]; intros b H; destruct b as [|y b]; cbn [length] in H; try discriminate; auto.
  cbn [xor combine map fst snd]. rewrite IH by lia. f_equal.
  rewrite Z.lxor_assoc, Z.lxor_nilpotent, Z.lxor_0_r. reflexivity.
Qed.

(** * Scrambles *)

Lemma native_scramble_ok : forall sha1 nonce password, hash_fun 20 sha1 -> password <> [] ->
  exists s, scramble_native sha1 nonce password = Some s /\ length s = 20%nat /\ octets s
            /\ native_accepts sha1 (sha1 (sha1 password)) nonce s.
Proof.
  intros h nonce p Hh Hp. destruct p as [|x p]; [contradiction|]. cbn [scramble_native].
  eexists. split; [reflexivity|]. split. { rewrite xor_length. apply Hh. }
  split. { apply xor_ok; apply Hh. }
  unfold native_accepts. rewrite xor_cancel. reflexivity.
  rewrite !(proj1 (Hh _)). reflexivity.
Qed.

Lemma sha2_scramble_ok : forall sha256 nonce password, hash_fun 32 sha256 -> password <> [] ->
  exists s, scramble_sha256 sha256 nonce password = Some s /\ length s = 32%nat /\ octets s
            /\ sha2_accepts sha256 (sha256 (sha256 password)) nonce s.
Proof.
  intros h nonce p Hh Hp. destruct p as [|x p]; [contradiction|]. cbn [scramble_sha256].
  eexists. split; [reflexivity|]. split. { rewrite xor_length. apply Hh. }
  split. { apply xor_ok; apply Hh. }
  unfold sha2_accepts. rewrite xor_cancel. reflexivity.
  rewrite !(proj1 (Hh _)). reflexivity.
Qed.

(** * Big-endian integers *)

Lemma i2osp_S : forall k n, i2osp n (S k) = (n / 256 ^ Z.of_nat k) mod 256 :: i2osp n k.
Proof.
  intros k n. unfold i2osp. cbn [seq map]. f_equal.
  { replace (S k - 1 - 0)%nat with k by lia. reflexivity. }
  rewrite <- seq_shift, map_map. apply map_ext_in. intros i Hi. apply in_seq in Hi.
  replace (S k - 1 - S i)%nat with (k - 1 - i)%nat by lia. reflexivity.
Qed.

Lemma i2osp_le : forall k n, i2osp n k = rev (le_bytes k n).
Proof.
  induction k as [|k IH]; intros n; [reflexivity|].
  rewrite i2osp_S, IH. rewrite <- wire_uint_le, <- wire_uint_le. unfold wire_uint.
  rewrite seq_S, map_app, rev_app_distr. reflexivity.
Qed.

Lemma i2osp_length : forall k n, length (i2osp n k) = k.
Proof. intros. unfold i2osp. rewrite map_length, seq_length. reflexivity. Qed.

Lemma i2osp_ok : forall k n, octets (i2osp n k).
Proof.
  intros. rewrite i2osp_le. apply Forall_rev. apply le_bytes_ok.
Qed.

Lemma os2ip_app : forall a b, os2ip (a ++ b) = os2ip a * 256 ^ Z.of_nat (length b) + os2ip b.
Proof.
  induction a as [|x a IH]; intros b; cbn [app os2ip]. { lia. }
  rewrite IH, app_length, Nat2Z.inj_add, Z.pow_add_r by lia. ring.
Qed.

Lemma be_val_os2ip : forall l, be_val l = os2ip l.
Proof.
  intros l. unfold be_val. induction l as [|x l IH] using rev_ind; [reflexivity|].
  rewrite fold_left_app, os2ip_app. cbn [fold_left os2ip length]. unfold be_val in IH. rewrite IH.
  change (256 ^ Z.of_nat 0) with 1. change (256 ^ Z.of_nat 1) with 256. ring.
Qed.

Lemma os2ip_rev : forall l, os2ip (rev l) = le_val l.
Proof.
  induction l as [|x l IH]; [reflexivity|]. cbn [rev le_val]. rewrite os2ip_app, IH. cbn [os2ip length].
  change (256 ^ Z.of_nat 0) with 1. change (256 ^ Z.of_nat 1) with 256. ring.
Qed.

Lemma os2ip_i2osp : forall k n, 0 <= n < 256 ^ Z.of_nat k -> os2ip (i2osp n k) = n.
Proof. intros. rewrite i2osp_le, os2ip_rev. apply le_val_bytes. assumption. Qed.

Lemma be_val_i2osp : forall k n, 0 <= n < 256 ^ Z.of_nat k -> be_val (i2osp n k) = n.
Proof. intros. rewrite be_val_os2ip. apply os2ip_i2osp. assumption. Qed.

Lemma i2osp_os2ip : forall l, octets l -> i2osp (os2ip l) (length l) = l.
Proof.
  intros l H. rewrite <- (rev_involutive l) at 1. rewrite os2ip_rev, i2osp_le.
  rewrite <- (rev_length l). rewrite le_bytes_val. { apply rev_involutive. } apply Forall_rev. exact H.
Qed.

Lemma os2ip_range : forall l, octets l -> 0 <= os2ip l < 256 ^ Z.of_nat (length l).
Proof.
  intros l H. rewrite <- (rev_involutive l) at 1 2. rewrite os2ip_rev. rewrite <- (rev_length l).
  apply le_val_range. apply Forall_rev. exact H.
Qed.

Lemma i2osp_small : forall k n j, 0 <= n < 256 ^ Z.of_nat k -> i2osp n (j + k) = repeat 0 j ++ i2osp n k.
Proof.
  induction j as [|j IH]; intros H; [reflexivity|].
  cbn [Nat.add repeat app]. rewrite i2osp_S, IH by assumption. f_equal.
  rewrite Z.div_small; [reflexivity|].
  assert (256 ^ Z.of_nat k <= 256 ^ Z.of_nat (j + k)) by (apply Z.pow_le_mono_r; lia). lia.
Qed.

(** * OAEP *)

Lemma flat_map_seq_length : forall (f : nat -> list Z) q a, (forall i, length (f i) = 20%nat) ->
  length (flat_map f (seq a q)) = (20 * q)%nat.
Proof.
  intros f q. induction q as [|q IH]; intros a Hf; [reflexivity|].
  cbn [seq flat_map]. rewrite app_length, Hf, IH by assumption. lia.
Qed.

Lemma mgf1_mgf : forall sha1 seed len, hash_fun 20 sha1 -> Z.of_nat len <= 20 * 2 ^ 32 ->
  mgf1 sha1 seed (Z.of_nat len) = Ok (mgf sha1 seed len).
Proof.
  intros h seed len Hh Hlen. unfold mgf1, mgf, HASH_LEN.
  change (Z.shiftl 20 32) with (20 * 2 ^ 32).
  destruct (Z.ltb_spec (20 * 2 ^ 32) (Z.of_nat len)) as [Hx|_]; [lia|].
  set (f := fun i : nat => h (seed ++ i2osp (Z.of_nat i) 4)).
  assert (Hf : forall i, length (f i) = 20%nat) by (intros; apply Hh).
  rewrite seq_S, flat_map_app. cbn [flat_map]. rewrite app_nil_r, Nat.add_0_l.
  set (q := (len / 20)%nat).
  assert (Hq : Z.to_nat (Z.of_nat len / 20) = q).
  { unfold q. change 20 with (Z.of_nat 20). rewrite <- Nat2Z.inj_div, Nat2Z.id. reflexivity. }
  assert (Hq' : Z.of_nat len / 20 = Z.of_nat q) by lia.
  rewrite Hq'. rewrite Nat2Z.id.
  change (fun i : nat => h (seed ++ be_bytes 4 (Z.of_nat i))) with (fun i : nat => h (seed ++ rev (le_bytes 4 (Z.of_nat i)))).
  rewrite (flat_map_ext _ f).
  2:{ intros i. unfold f. rewrite i2osp_le. reflexivity. }
  replace (h (seed ++ be_bytes 4 (Z.of_nat q))) with (f q).
  2:{ unfold f, be_bytes. rewrite i2osp_le. reflexivity. }
  rewrite firstn_app, (flat_map_seq_length f q 0 Hf).
  rewrite firstn_all2 by (rewrite (flat_map_seq_length f q 0 Hf); unfold q; pose proof (Nat.mul_div_le len 20 ltac:(lia)); lia).
  destruct (Z.ltb_spec 0 (Z.of_nat len mod 20)) as [Hr|Hr].
  - f_equal. f_equal. rewrite takeZ_firstn. f_equal. lia.
  - replace (len - 20 * q)%nat with 0%nat by lia. cbn [firstn]. rewrite app_nil_r. reflexivity.
Qed.

Lemma mgf_length : forall h seed len, hash_fun 20 h -> length (mgf h seed len) = len.
Proof.
  intros h seed len Hh. unfold mgf. rewrite firstn_length.
  rewrite flat_map_seq_length by (intros; apply Hh).
  pose proof (Nat.div_mod len 20 ltac:(lia)). pose proof (Nat.mod_upper_bound len 20 ltac:(lia)). lia.
Qed.

Lemma mgf_ok : forall h seed len, hash_fun 20 h -> octets (mgf h seed len).
Proof.
  intros h seed len Hh. unfold mgf, octets. rewrite <- (Nat2Z.id len), <- takeZ_firstn. apply Forall_takeZ.
  apply Forall_flat_map. apply Forall_forall. intros i _. apply Hh.
Qed.

Lemma after_separator_zeros : forall j m, after_separator (repeat 0 j ++ 1 :: m) = Some m.
Proof. induction j as [|j IH]; intros m; cbn [repeat app after_separator]; auto. Qed.

Lemma pad_ok : forall sha1 seed data n, hash_fun 20 sha1 -> length seed = 20%nat -> octets seed -> octets data ->
  44 + lenZ data <= n <= 20 * 2 ^ 32 ->
  exists em, pad sha1 seed data n = Ok em /\ lenZ em = n /\ octets em /\ (exists r, em = 0 :: r)
             /\ oaep_decode sha1 em = Some data.
Proof.
  intros h seed data n Hh Hs Hso Hd Hn. pose proof (lenZ_nonneg _ data) as Hdl.
  assert (Hh20 : forall x, length (h x) = 20%nat) by apply Hh.
  unfold pad. unfold HASH_LEN. cbv zeta.
  destruct (Z.ltb_spec n (1 + 20 + 20 + 2 + 1 + lenZ data)) as [Hx|_]; [lia|].
  set (zeros := n - 20 - 1 - lenZ data - 1 - 20).
  assert (Hz : zeros = n - 42 - lenZ data) by (unfold zeros; lia). clearbody zeros.
  set (msg := (h [] ++ repeatZ 0 zeros ++ [1]) ++ data).
  assert (Hmsg : Z.of_nat (length msg) = n - 21).
  { unfold msg, repeatZ. rewrite !app_length, Hh20, repeat_length. cbn [length]. unfold lenZ in *. lia. }
  assert (Hmo : octets msg).
  { unfold msg, repeatZ, octets. rewrite !Forall_app.
    split; [split; [apply Hh|split; [|repeat constructor; lia]]|exact Hd].
    apply Forall_forall. intros x Hx. apply repeat_spec in Hx. subst x. lia. }
  unfold lenZ at 1. rewrite mgf1_mgf by (auto; lia). cbn [rbind].
  set (mask := mgf h seed (length msg)).
  set (msg' := xor msg mask).
  change 20 with (Z.of_nat 20) at 1. rewrite mgf1_mgf by (auto; lia). cbn [rbind].
  set (smask := mgf h msg' 20).
  assert (Hmsg' : length msg' = length msg) by apply xor_length.
  assert (Hmask : length mask = length msg) by (apply mgf_length; assumption).
  assert (Hsmask : length smask = 20%nat) by (apply mgf_length; assumption).
  exists (0 :: xor seed smask ++ msg'). split; [reflexivity|].
  split. { rewrite lenZ_cons, lenZ_app. unfold lenZ. rewrite xor_length, Hs, Hmsg'. lia. }
  split. { constructor; [lia|]. apply Forall_app. split; apply xor_ok; auto; apply mgf_ok; assumption. }
  split. { eexists; reflexivity. }
  unfold oaep_decode. cbv zeta.
  assert (Hx20 : length (xor seed smask) = 20%nat) by (rewrite xor_length; assumption).
  assert (Hfirst : firstn 20 (xor seed smask ++ msg') = xor seed smask).
  { rewrite firstn_app, Hx20, Nat.sub_diag, firstn_O, app_nil_r. apply firstn_all2. lia. }
  assert (Hskip : skipn 20 (xor seed smask ++ msg') = msg').
  { rewrite skipn_app, Hx20, Nat.sub_diag, skipn_O, skipn_all2 by lia. reflexivity. }
  rewrite Hfirst, Hskip.
  fold smask. rewrite xor_cancel by lia.
  assert (Hdb : xor_all msg' mask = msg) by (unfold msg'; apply xor_cancel; lia).
  rewrite Hmsg'. fold mask. rewrite !Hdb.
  rewrite Z.eqb_refl. cbn [andb].
  replace (firstn 20 msg) with (h []).
  2:{ unfold msg. rewrite <- !app_assoc. rewrite firstn_app, Hh20, Nat.sub_diag, firstn_O, app_nil_r.
      rewrite firstn_all2 by (rewrite Hh20; lia). reflexivity. }
  destruct (list_eq_dec Z.eq_dec (h []) (h [])) as [_|Hne]; [|contradiction].
  unfold msg. rewrite <- !app_assoc. rewrite skipn_app, Hh20, Nat.sub_diag, skipn_O.
  rewrite skipn_all2 by (rewrite Hh20; lia). cbn [app]. unfold repeatZ. apply after_separator_zeros.
Qed.

(** * RSA *)

Lemma bits_bound : forall n, 0 < n -> 2 ^ (bits n - 1) <= n < 2 ^ bits n.
Proof.
  intros n Hn. unfold bits. destruct (Z.leb_spec n 0); [lia|].
  replace (Z.log2 n + 1 - 1) with (Z.log2 n) by lia. apply Z.log2_spec in Hn. exact Hn.
Qed.

Lemma bits_unique : forall n b, 0 < n -> 0 < b -> 2 ^ (b - 1) <= n < 2 ^ b -> bits n = b.
Proof.
  intros n b Hn Hb H. unfold bits. destruct (Z.leb_spec n 0); [lia|].
  rewrite (Z.log2_unique n (b - 1)). lia. lia. replace (Z.succ (b - 1)) with b by lia. exact H.
Qed.

Lemma pow256_2 : forall k, 256 ^ Z.of_nat k = 2 ^ (8 * Z.of_nat k).
Proof. intros. rewrite Z.pow_mul_r by lia. reflexivity. Qed.

(** The modulus has [k] bytes and its bit length is not 1 modulo 8. *)
Lemma num_octets_ok : forall n e k, (1 <= k)%nat -> 2 * 256 ^ (Z.of_nat k - 1) <= n < 256 ^ Z.of_nat k ->
  num_octets (mkKey n e) = Z.of_nat k.
Proof.
  intros n e k Hk H. unfold num_octets. cbn [pk_modulus].
  rewrite Z.shiftr_div_pow2 by lia. change (2 ^ 3) with 8.
  replace (Z.of_nat k - 1) with (Z.of_nat (k - 1)) in H by lia. rewrite !pow256_2 in H.
  rewrite <- Z.pow_succ_r in H by lia.
  assert (Hn : 0 < n). { assert (0 < 2 ^ Z.succ (8 * Z.of_nat (k - 1))) by (apply Z.pow_pos_nonneg; lia). lia. }
  pose proof (bits_bound n Hn) as Hb.
  assert (Z.succ (8 * Z.of_nat (k - 1)) < bits n).
  { apply (Z.pow_lt_mono_r_iff 2); try lia.
    assert (bits n <> 0). { unfold bits. destruct (Z.leb_spec n 0); [lia|]. pose proof (Z.log2_nonneg n). lia. }
    unfold bits. destruct (Z.leb_spec n 0); [lia|]. pose proof (Z.log2_nonneg n). lia. }
  assert (bits n - 1 < 8 * Z.of_nat k).
  { apply (Z.pow_lt_mono_r_iff 2); try lia. }
  lia.
Qed.

Lemma to_bytes_be_fill : forall k c, 0 <= c < 256 ^ Z.of_nat k -> (1 <= k)%nat ->
  lenZ (to_bytes_be c) <= Z.of_nat k /\
  repeatZ 0 (Z.of_nat k - lenZ (to_bytes_be c)) ++ to_bytes_be c = i2osp c k.
Proof.
  intros k c Hc Hk. unfold to_bytes_be, be_bytes.
  set (j := Z.to_nat (Z.max 1 ((bits c + 7) / 8))).
  assert (Hbits : 0 <= bits c <= 8 * Z.of_nat k).
  { unfold bits. destruct (Z.leb_spec c 0) as [Hle|Hgt]; [lia|].
    pose proof (Z.log2_nonneg c).
    rewrite pow256_2 in Hc. pose proof (proj1 (Z.log2_lt_pow2 c (8 * Z.of_nat k) Hgt) ltac:(lia)). lia. }
  assert (Hj : (1 <= j <= k)%nat) by (unfold j; lia).
  assert (Hcj : 0 <= c < 256 ^ Z.of_nat j).
  { split; [lia|]. destruct (Z.eq_dec c 0) as [->|Hnz]. { apply Z.pow_pos_nonneg; lia. }
    rewrite pow256_2. pose proof (bits_bound c ltac:(lia)) as Hb.
    assert (2 ^ bits c <= 2 ^ (8 * Z.of_nat j)). { apply Z.pow_le_mono_r; [lia|]. unfold j. lia. }
    lia. }
  rewrite <- i2osp_le. unfold lenZ. rewrite i2osp_length. split; [lia|].
  replace k with ((k - j) + j)%nat at 2 by lia. rewrite i2osp_small by exact Hcj.
  unfold repeatZ. f_equal. f_equal. lia.
Qed.

Lemma encrypt_ok : forall sha1 seed n e d k data, hash_fun 20 sha1 -> length seed = 20%nat -> octets seed ->
  octets data -> rsa_pair n e d -> 2 * 256 ^ (Z.of_nat k - 1) <= n < 256 ^ Z.of_nat k ->
  44 + Z.of_nat (length data) <= Z.of_nat k <= 20 * 2 ^ 32 ->
  exists c, encrypt_padded sha1 seed (mkKey n e) data = Ok c
            /\ rsaes_oaep_decrypt sha1 n d k c = Some data.
Proof.
  intros h seed n e d k data Hh Hs Hso Hd Hrsa Hn Hk.
  assert (Hk1 : (1 <= k)%nat) by lia.
  unfold encrypt_padded. rewrite (num_octets_ok n e k Hk1 Hn).
  destruct (pad_ok h seed data (Z.of_nat k) Hh Hs Hso Hd ltac:(unfold lenZ; lia)) as (em & Hpad & Hl & Ho & (r & Hr) & Hdec).
  rewrite Hpad. cbn [rbind pk_exponent pk_modulus].
  destruct Hrsa as (Hn1 & He & Hdd & Hinv).
  assert (Hm : 0 <= be_val em < n).
  { rewrite be_val_os2ip. subst em. cbn [os2ip]. inversion_clear Ho as [|? ? _ Hro].
    pose proof (os2ip_range r Hro) as Hrr. rewrite Z.mul_0_l, Z.add_0_l.
    rewrite lenZ_cons in Hl. unfold lenZ in Hl. replace (Z.of_nat (length r)) with (Z.of_nat k - 1) in Hrr by lia. lia. }
  set (c := be_val em ^ e mod n).
  assert (Hc : 0 <= c < n) by (apply Z.mod_pos_bound; lia).
  destruct (to_bytes_be_fill k c ltac:(lia) Hk1) as (Hlen & Hfill).
  destruct (Z.ltb_spec (Z.of_nat k - lenZ (to_bytes_be c)) 0) as [Hx|_]; [lia|].
  rewrite Hfill. exists (i2osp c k). split; [reflexivity|].
  unfold rsaes_oaep_decrypt. rewrite i2osp_length, Nat.eqb_refl.
  rewrite os2ip_i2osp by lia. unfold c. rewrite Hinv by exact Hm. rewrite be_val_os2ip.
  replace k with (length em) by (unfold lenZ in Hl; lia). rewrite i2osp_os2ip by exact Ho. exact Hdec.
Qed.

Lemma encrypt_too_long : forall sha1 seed n e k data, (1 <= k)%nat ->
  2 * 256 ^ (Z.of_nat k - 1) <= n < 256 ^ Z.of_nat k ->
  Z.of_nat k < 44 + Z.of_nat (length data) ->
  encrypt_padded sha1 seed (mkKey n e) data = Err MessageTooLong.
Proof.
  intros h seed n e k data Hk Hn Hl. unfold encrypt_padded. rewrite (num_octets_ok n e k Hk Hn).
  unfold pad, HASH_LEN. cbv zeta.
  destruct (Z.ltb_spec (Z.of_nat k) (1 + 20 + 20 + 2 + 1 + lenZ data)) as [_|Hx]; [reflexivity|].
  unfold lenZ in Hx. lia.
Qed.

(** * The nonce *)

Lemma mask_from_spec : forall nonce, nonce <> [] -> forall pass i,
  mask_from nonce (Z.of_nat i) pass
  = map (fun p => Z.lxor (snd p) (nth (fst p mod length nonce) nonce 0)) (combine (seq i (length pass)) pass).
Proof.
  intros nonce Hn. induction pass as [|b pass IH]; intros i; [reflexivity|].
  cbn [mask_from length seq combine map fst snd]. f_equal.
  - f_equal. f_equal. unfold lenZ. rewrite <- Nat2Z.inj_mod, Nat2Z.id. reflexivity.
  - replace (Z.of_nat i + 1) with (Z.of_nat (S i)) by lia. apply IH.
Qed.

Lemma xor_nonce_twice : forall nonce m, xor_nonce nonce (xor_nonce nonce m) = m.
Proof.
  intros nonce m. unfold xor_nonce. rewrite map_length, combine_length, seq_length, Nat.min_id.
  generalize 0%nat as a. induction m as [|b m IH]; intros a; [reflexivity|].
  cbn [length seq combine map fst snd]. f_equal. 2:{ apply IH. }
  rewrite Z.lxor_assoc, Z.lxor_nilpotent, Z.lxor_0_r. reflexivity.
Qed.

Lemma mask_password_xor : forall nonce pass, nonce <> [] -> mask_password nonce pass = Ok (xor_nonce nonce pass).
Proof.
  intros nonce pass Hn. unfold mask_password. destruct nonce as [|x nonce]; [contradiction|].
  change 0 with (Z.of_nat 0). rewrite mask_from_spec by exact Hn. reflexivity.
Qed.

Lemma xor_nonce_ok : forall nonce pass, octets nonce -> octets pass -> octets (xor_nonce nonce pass).
Proof.
  intros nonce pass Hn Hp. unfold xor_nonce. generalize 0%nat as a.
  induction Hp as [|b m Hb Hm IH]; intros a; cbn [length seq combine map fst snd]; constructor.
  2:{ apply IH. }
  apply lxor_byte; [assumption|].
  destruct (nth_in_or_default (a mod length nonce) nonce 0) as [Hin | ->]; [|lia].
  unfold octets in Hn. rewrite Forall_forall in Hn. apply Hn. exact Hin.
Qed.

Lemma xor_nonce_length : forall nonce m, length (xor_nonce nonce m) = length m.
Proof. intros. unfold xor_nonce. rewrite map_length, combine_length, seq_length. lia. Qed.

(** * RSA keys that are products of small primes (for the examples) *)

Definition product (l : list Z) : Z := fold_right Z.mul 1 l.

Fixpoint coprime_chain (l : list Z) : bool :=
  match l with
  | [] => true
  | p :: r => (Z.gcd p (product r) =? 1) && coprime_chain r
  end.

Lemma coprime_divide : forall a b x, Z.gcd a b = 1 -> (a | x) -> (b | x) -> (a * b | x).
Proof.
  intros a b x Hg [q ->] Hb. rewrite (Z.mul_comm a b). apply Z.mul_divide_mono_r.
  apply (Z.gauss b a q). { rewrite Z.mul_comm. exact Hb. } rewrite Z.gcd_comm. exact Hg.
Qed.

Lemma chain_divide : forall l x, coprime_chain l = true -> Forall (fun p => (p | x)) l -> (product l | x).
Proof.
  induction l as [|p l IH]; intros x Hc Hf. { exists x. cbn [product fold_right]. lia. }
  cbn [coprime_chain] in Hc. apply andb_true_iff in Hc. destruct Hc as [Hg Hc]. apply Z.eqb_eq in Hg.
  inversion_clear Hf as [|? ? Hp Hl]. apply coprime_divide; auto.
Qed.

(** Fermat's theorem, checked by computation. *)
Definition fermat (p : Z) : bool :=
  (1 <? p) && forallb (fun i => Zpow_mod (Z.of_nat (S i)) (p - 1) p =? 1) (seq 0 (Z.to_nat (p - 1))).

Lemma fermat_mod : forall p, fermat p = true -> forall m, 0 <= m -> m mod p <> 0 -> m ^ (p - 1) mod p = 1.
Proof.
  intros p H m Hm Hn. apply andb_true_iff in H. destruct H as [Hp H]. apply Z.ltb_lt in Hp.
  rewrite Zpower_mod by lia. pose proof (Z.mod_pos_bound m p ltac:(lia)) as Hb.
  rewrite forallb_forall in H. specialize (H (Z.to_nat (m mod p - 1))). rewrite in_seq in H.
  specialize (H ltac:(lia)). apply Z.eqb_eq in H. rewrite Zpow_mod_correct in H by lia.
  replace (Z.of_nat (S (Z.to_nat (m mod p - 1)))) with (m mod p) in H by lia.
  exact H.
Qed.

Lemma fermat_power : forall p x m, fermat p = true -> 0 < x -> (p - 1 | x - 1) -> 0 <= m -> (p | m ^ x - m).
Proof.
  intros p x m Hp Hx [q Hq] Hm.
  assert (Hp1 : 1 < p) by (apply andb_true_iff in Hp; destruct Hp as [Hp _]; apply Z.ltb_lt in Hp; exact Hp).
  apply Z.mod_divide; [lia|].
  destruct (Z.eq_dec (m mod p) 0) as [Hz|Hz].
  - rewrite Zminus_mod, Zpower_mod, Hz by lia. rewrite Z.pow_0_l by lia. reflexivity.
  - assert (Hq0 : 0 <= q) by (apply Z.mul_nonneg_cancel_r with (m := p - 1); lia).
    replace x with ((p - 1) * q + 1) by lia. rewrite Z.pow_add_r by lia. rewrite Z.pow_1_r, Z.pow_mul_r by lia.
    replace ((m ^ (p - 1)) ^ q * m - m) with (m * ((m ^ (p - 1)) ^ q - 1)) by ring.
    rewrite <- Z.mul_mod_idemp_r by lia. rewrite Zminus_mod, Zpower_mod by lia.
    rewrite (fermat_mod p Hp m Hm Hz), Z.pow_1_l by lia. rewrite Z.sub_diag.
    rewrite Zmod_0_l, Z.mul_0_r. apply Zmod_0_l.
Qed.

Lemma multi_prime_rsa : forall ps e d, 1 < product ps -> 0 < e -> 0 < d ->
  coprime_chain ps = true -> forallb fermat ps = true ->
  forallb (fun p => (e * d - 1) mod (p - 1) =? 0) ps = true ->
  rsa_pair (product ps) e d.
Proof.
  intros ps e d Hn He Hd Hc Hf Hm. unfold rsa_pair. split; [exact Hn|]. split; [exact He|]. split; [exact Hd|].
  intros m Hb. rewrite <- Zpower_mod by lia. rewrite <- Z.pow_mul_r by lia.
  assert (Hdiv : (product ps | m ^ (e * d) - m)).
  { apply chain_divide; [exact Hc|]. apply Forall_forall. intros p Hp.
    rewrite forallb_forall in Hf, Hm. pose proof (Hf p Hp) as Hfp. pose proof (Hm p Hp) as Hmp.
    apply Z.eqb_eq in Hmp.
    assert (Hp1 : 1 < p) by (apply andb_true_iff in Hfp; destruct Hfp as [Hx _]; apply Z.ltb_lt in Hx; exact Hx).
    apply fermat_power; auto; [apply Z.mul_pos_pos; lia| |lia].
    apply Z.mod_divide; [lia|exact Hmp]. }
  apply Z.mod_divide in Hdiv; [|lia].
  replace (m ^ (e * d)) with ((m ^ (e * d) - m) + m) by ring.
  rewrite Zplus_mod, Hdiv, Z.add_0_l, Z.mod_mod by lia. apply Z.mod_small. exact Hb.
Qed.
