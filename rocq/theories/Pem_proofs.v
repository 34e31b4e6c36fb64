(** Lemmas about public key files. *)
From Coq Require Import String ZArith List Bool Lia.
From Verif Require Import Base BaseFacts Types Scramble Crypt Spec_Wire Spec_Crypt ParseBuf_proofs Crypt_proofs.
Import ListNotations.
Open Scope Z_scope.

(** * DER *)

Lemma slice_app : forall a b c, slice (a ++ b ++ c) (lenZ a) (lenZ a + lenZ b) = Ok b.
Proof.
  intros a b c. unfold slice. rewrite !lenZ_app.
  pose proof (lenZ_nonneg _ a). pose proof (lenZ_nonneg _ b). pose proof (lenZ_nonneg _ c).
  destruct (Z.leb_spec (lenZ a) (lenZ a + lenZ b)) as [_|Hx]; [|lia].
  destruct (Z.leb_spec (lenZ a + lenZ b) (lenZ a + (lenZ b + lenZ c))) as [_|Hx]; [|lia].
  cbn [andb]. rewrite dropZ_app_exact by reflexivity.
  rewrite takeZ_app_exact by lia. reflexivity.
Qed.

Lemma slice_prefix : forall b c n, n = lenZ b -> slice (b ++ c) 0 n = Ok b.
Proof. intros b c n ->. exact (slice_app [] b c). Qed.

Lemma slice_from_app : forall a c n, n = lenZ a -> slice_from (a ++ c) n = Ok c.
Proof.
  intros a c n ->. unfold slice_from. rewrite lenZ_app.
  pose proof (slice_app a c []) as H. rewrite app_nil_r in H. exact H.
Qed.

Lemma slice_from_1 : forall x c, slice_from (x :: c) 1 = Ok c.
Proof. intros. exact (slice_from_app [x] c 1 eq_refl). Qed.

Lemma at_0 : forall x c, at_ (x :: c) 0 = Ok x.
Proof. reflexivity. Qed.

Lemma eat_len_ok : forall n w rest, der_length n w -> eat_len (w ++ rest) = Ok (n, rest).
Proof.
  intros n w rest H. destruct H as [n Hn|n k Hk Hn Hoct].
  - unfold eat_len. cbn [app]. rewrite at_0. cbn [rbind].
    destruct (Z.eqb_spec (Z.land n 128) 128) as [He|_].
    { exfalso. apply (f_equal (fun x => Z.testbit x 7)) in He. rewrite Z.land_spec in He.
      change (Z.testbit 128 7) with true in He. rewrite andb_true_r in He.
      destruct (Z.eq_dec n 0) as [->|]; [discriminate|].
      rewrite Z.bits_above_log2 in He; [discriminate|lia|].
      apply Z.log2_lt_pow2; [lia|]. change (2 ^ 7) with 128. lia. }
    rewrite slice_from_1. reflexivity.
  - assert (Hb : Z.land (128 + Z.of_nat k) 128 = 128 /\ Z.land (128 + Z.of_nat k) 127 = Z.of_nat k).
    { do 9 (destruct k as [|k]; [lia || (split; reflexivity)|]). lia. }
    unfold eat_len. cbn [app]. rewrite at_0. cbn [rbind]. destruct Hb as [Hb1 Hb2]. rewrite Hb1, Hb2, Z.eqb_refl.
    destruct (Z.ltb_spec 8 (Z.of_nat k)) as [Hx|_]; [lia|].
    assert (Hl : lenZ (i2osp n k) = Z.of_nat k) by (unfold lenZ; rewrite i2osp_length; reflexivity).
    assert (Hs : slice (128 + Z.of_nat k :: i2osp n k ++ rest) 1 (Z.of_nat k + 1) = Ok (i2osp n k)).
    { replace (Z.of_nat k + 1) with (lenZ [128 + Z.of_nat k] + lenZ (i2osp n k)).
      2:{ rewrite Hl, lenZ_cons, lenZ_nil. lia. }
      exact (slice_app [128 + Z.of_nat k] (i2osp n k) rest). }
    rewrite Hs. cbn [rbind].
    change (128 + Z.of_nat k :: i2osp n k ++ rest) with ((128 + Z.of_nat k :: i2osp n k) ++ rest).
    rewrite slice_from_app by (rewrite lenZ_cons, Hl; lia). cbn [rbind].
    unfold modulus_octets in Hoct. rewrite be_val_i2osp by lia. reflexivity.
Qed.

Lemma eat_tag_ok : forall tag contents w rest, der_tlv tag contents w ->
  eat_tag tag (w ++ rest) = Ok (lenZ contents, contents ++ rest).
Proof.
  intros tag contents w rest H. destruct H as [w Hl]. unfold eat_tag. cbn [app]. rewrite at_0. cbn [rbind].
  rewrite Z.eqb_refl. cbn [negb]. rewrite slice_from_1. cbn [rbind]. rewrite <- app_assoc.
  apply eat_len_ok. exact Hl.
Qed.

Lemma eat_sequence_ok : forall contents w rest, der_tlv 48 contents w ->
  eat_sequence (w ++ rest) = Ok (contents, rest).
Proof.
  intros contents w rest H. unfold eat_sequence. rewrite (eat_tag_ok _ _ _ rest H). cbn [rbind].
  rewrite slice_prefix by reflexivity. cbn [rbind]. rewrite slice_from_app by reflexivity. reflexivity.
Qed.

Lemma der_uint_ok : forall n w rest, der_integer n w -> der_eat_uint (w ++ rest) = Ok (n, rest).
Proof.
  intros n w rest H. destruct H as [n k contents w Hk Hn -> Hlt Hmin Ht]. unfold der_eat_uint.
  rewrite (eat_tag_ok _ _ _ rest Ht). cbn [rbind].
  rewrite slice_prefix by reflexivity. cbn [rbind]. rewrite slice_from_app by reflexivity. cbn [rbind].
  rewrite be_val_i2osp by lia. reflexivity.
Qed.

Lemma eat_bit_string_ok : forall u key w rest, der_tlv 3 (u :: key) w ->
  eat_bit_string (w ++ rest) = Ok (u, key, rest).
Proof.
  intros u key w rest H. unfold eat_bit_string. rewrite (eat_tag_ok _ _ _ rest H). cbn [rbind app].
  rewrite at_0. cbn [rbind].
  assert (Hs : slice (u :: key ++ rest) 1 (lenZ (u :: key)) = Ok key).
  { rewrite lenZ_cons. exact (slice_app [u] key rest). }
  rewrite Hs. cbn [rbind]. change (u :: key ++ rest) with ((u :: key) ++ rest).
  rewrite slice_from_app by reflexivity. reflexivity.
Qed.

Lemma pkcs1_ok : forall n e w, pkcs1_key n e w -> try_from_pkcs1 w = Ok (mkKey n e).
Proof.
  intros n e w H. destruct H as [wn we w Hn He Ht]. unfold try_from_pkcs1.
  rewrite <- (app_nil_r w), (eat_sequence_ok _ _ [] Ht). cbn [rbind].
  rewrite (der_uint_ok _ _ we Hn). cbn [rbind].
  rewrite <- (app_nil_r we), (der_uint_ok _ _ [] He). reflexivity.
Qed.

Lemma pkcs8_ok : forall n e w, pkcs8_key n e w -> try_from_pkcs8 w = Ok (mkKey n e).
Proof.
  intros n e w H. destruct H as [key alg bits w Hk Ha Hb Ht]. unfold try_from_pkcs8.
  rewrite <- (app_nil_r w), (eat_sequence_ok _ _ [] Ht). cbn [rbind].
  rewrite (eat_sequence_ok _ _ bits Ha). cbn [rbind].
  rewrite <- (app_nil_r bits), (eat_bit_string_ok _ _ _ [] Hb). cbn [rbind]. rewrite Z.eqb_refl. cbn [negb].
  apply pkcs1_ok. exact Hk.
Qed.

(** * Base64 *)

Lemma b64_table : forallb (fun i => match b64_val (base64_digit (Z.of_nat i)) with
                                    | Some v => (v =? Z.of_nat i) && negb (pem_space (base64_digit (Z.of_nat i)))
                                    | None => false end) (seq 0 64) = true.
Proof. vm_compute. reflexivity. Qed.

Lemma b64_digit : forall v, 0 <= v < 64 ->
  b64_val (base64_digit v) = Some v /\ pem_space (base64_digit v) = false.
Proof.
  intros v Hv. pose proof b64_table as H. rewrite forallb_forall in H.
  specialize (H (Z.to_nat v)). rewrite in_seq in H. specialize (H ltac:(lia)).
  rewrite Z2Nat.id in H by lia.
  destruct (b64_val (base64_digit v)) as [x|]; [|discriminate].
  apply andb_true_iff in H. destruct H as [H1 H2]. apply Z.eqb_eq in H1. apply negb_true_iff in H2.
  rewrite H1, H2. split; reflexivity.
Qed.

Lemma b64_pad : b64_val 61 = None.
Proof. reflexivity. Qed.

Lemma b64_ok : forall der w, base64 der w -> octets der ->
  b64_decode w = Some der /\ Forall (fun b => pem_space b = false) w.
Proof.
  intros der w H. induction H as [|x|x y|x y z l w H IH]; intros Ho.
  - split; [reflexivity|constructor].
  - inversion_clear Ho as [|? ? Hx _].
    destruct (b64_digit (x / 4) ltac:(lia)) as [A1 A2].
    destruct (b64_digit (x mod 4 * 16) ltac:(lia)) as [B1 B2].
    split.
    + cbn [b64_decode]. rewrite A1, B1, b64_pad. cbn [Z.eqb Pos.eqb andb].
      destruct (Z.eqb_spec (x mod 4 * 16 mod 16) 0) as [_|Hn]; [|lia]. do 2 f_equal. lia.
    + repeat (apply Forall_cons; [assumption || reflexivity|]). apply Forall_nil.
  - inversion_clear Ho as [|? ? Hx Ho']. inversion_clear Ho' as [|? ? Hy _].
    destruct (b64_digit (x / 4) ltac:(lia)) as [A1 A2].
    destruct (b64_digit (x mod 4 * 16 + y / 16) ltac:(lia)) as [B1 B2].
    destruct (b64_digit (y mod 16 * 4) ltac:(lia)) as [C1 C2].
    split.
    + cbn [b64_decode]. rewrite A1, B1, C1, b64_pad. cbn [Z.eqb Pos.eqb andb].
      destruct (Z.eqb_spec (y mod 16 * 4 mod 4) 0) as [_|Hn]; [|lia]. f_equal. f_equal; [lia|]. f_equal. lia.
    + repeat (apply Forall_cons; [assumption || reflexivity|]). apply Forall_nil.
  - inversion_clear Ho as [|? ? Hx Ho']. inversion_clear Ho' as [|? ? Hy Ho'']. inversion_clear Ho'' as [|? ? Hz Hol].
    destruct (IH Hol) as [IH1 IH2].
    destruct (b64_digit (x / 4) ltac:(lia)) as [A1 A2].
    destruct (b64_digit (x mod 4 * 16 + y / 16) ltac:(lia)) as [B1 B2].
    destruct (b64_digit (y mod 16 * 4 + z / 64) ltac:(lia)) as [C1 C2].
    destruct (b64_digit (z mod 64) ltac:(lia)) as [D1 D2].
    split.
    + cbn [b64_decode]. rewrite A1, B1, C1, D1, IH1. cbn [option_map]. f_equal.
      f_equal; [lia|]. f_equal; [lia|]. f_equal. lia.
    + repeat (apply Forall_cons; [assumption|]). assumption.
Qed.

(** * PEM *)

Local Notation strip := (filter (fun x => negb (pem_space x))).

Lemma white_space : forall b, white b -> pem_space b = true.
Proof.
  intros b H. unfold white in H. cbn [In] in H.
  repeat (destruct H as [<-|H]; [reflexivity|]). contradiction.
Qed.

Lemma strip_white : forall l, Forall white l -> strip l = [].
Proof.
  induction 1 as [|b l Hb Hl IH]; [reflexivity|]. cbn [filter]. rewrite (white_space b Hb). exact IH.
Qed.

Lemma strip_spaced : forall l w, spaced l w -> Forall (fun b => pem_space b = false) l -> strip w = l.
Proof.
  intros l w H. induction H as [|x l w H IH|b l w Hb H IH]; intros Hl; [reflexivity| |].
  - inversion_clear Hl as [|? ? Hx Hl']. cbn [filter]. rewrite Hx. cbn [negb]. rewrite IH by exact Hl'. reflexivity.
  - cbn [filter]. rewrite (white_space b Hb). apply IH. exact Hl.
Qed.

Lemma ends_with_app : forall a s, ends_with (a ++ s) s = true.
Proof. intros. unfold ends_with. rewrite rev_app_distr. apply starts_with_app. Qed.

Lemma slice_middle : forall a b c n, n = lenZ (a ++ b ++ c) -> slice (a ++ b ++ c) (lenZ a) (n - lenZ c) = Ok b.
Proof.
  intros a b c n ->. replace (lenZ (a ++ b ++ c) - lenZ c) with (lenZ a + lenZ b).
  2:{ rewrite !lenZ_app. lia. }
  apply slice_app.
Qed.

Lemma strip_file : forall pre head mid body foot post b64,
  Forall white pre -> Forall white mid -> Forall white post -> strip body = b64 ->
  strip (pre ++ head ++ mid ++ body ++ foot ++ post) = strip head ++ b64 ++ strip foot.
Proof.
  intros. rewrite !filter_app. rewrite (strip_white pre), (strip_white mid), (strip_white post) by assumption. rewrite app_nil_r. cbn [app]. congruence.
Qed.

Lemma strip_head1 : strip (ascii_text (append "-----BEGIN " (append "RSA PUBLIC KEY" "-----"))) = PKCS1_BEGIN.
Proof. vm_compute. reflexivity. Qed.
Lemma strip_foot1 : strip (ascii_text (append "-----END " (append "RSA PUBLIC KEY" "-----"))) = PKCS1_END.
Proof. vm_compute. reflexivity. Qed.
Lemma strip_head8 : strip (ascii_text (append "-----BEGIN " (append "PUBLIC KEY" "-----"))) = PKCS8_BEGIN.
Proof. vm_compute. reflexivity. Qed.
Lemma strip_foot8 : strip (ascii_text (append "-----END " (append "PUBLIC KEY" "-----"))) = PKCS8_END.
Proof. vm_compute. reflexivity. Qed.

Lemma pem_pkcs1_ok : forall n e der w, pkcs1_key n e der -> octets der -> pem_file "RSA PUBLIC KEY" der w ->
  try_from_pem w = Ok (mkKey n e).
Proof.
  intros n e der w Hk Ho Hf. destruct Hf as [b64 body pre mid post Hb Hsp Hpre Hmid Hpost].
  destruct (b64_ok _ _ Hb Ho) as [Hdec Hns]. pose proof (strip_spaced _ _ Hsp Hns) as Hstrip.
  unfold try_from_pem. rewrite (strip_file _ _ _ _ _ _ _ Hpre Hmid Hpost Hstrip).
  rewrite strip_head1, strip_foot1. cbv zeta.
  rewrite starts_with_app. rewrite app_assoc, ends_with_app, <- app_assoc. cbn [andb].
  rewrite slice_middle by reflexivity. unfold rmap. cbn [rbind]. rewrite Hdec. apply pkcs1_ok. exact Hk.
Qed.

Lemma pem_pkcs8_ok : forall n e der w, pkcs8_key n e der -> octets der -> pem_file "PUBLIC KEY" der w ->
  try_from_pem w = Ok (mkKey n e).
Proof.
  intros n e der w Hk Ho Hf. destruct Hf as [b64 body pre mid post Hb Hsp Hpre Hmid Hpost].
  destruct (b64_ok _ _ Hb Ho) as [Hdec Hns]. pose proof (strip_spaced _ _ Hsp Hns) as Hstrip.
  unfold try_from_pem. rewrite (strip_file _ _ _ _ _ _ _ Hpre Hmid Hpost Hstrip).
  rewrite strip_head8, strip_foot8. cbv zeta.
  assert (Hno : starts_with (PKCS8_BEGIN ++ b64 ++ PKCS8_END) PKCS1_BEGIN = false) by reflexivity.
  rewrite Hno. cbn [andb].
  rewrite starts_with_app. rewrite app_assoc, ends_with_app, <- app_assoc. cbn [andb].
  rewrite slice_middle by reflexivity. unfold rmap. cbn [rbind]. rewrite Hdec. apply pkcs8_ok. exact Hk.
Qed.

(** * What is accepted, exactly *)

Lemma slice_inv : forall s a b x, 0 <= a -> slice s a b = Ok x ->
  a <= b <= lenZ s /\ x = takeZ (b - a) (dropZ a s).
Proof.
  intros s a b x Ha H. unfold slice in H.
  destruct (Z.leb_spec a b) as [H1|]; [|discriminate]. destruct (Z.leb_spec b (lenZ s)) as [H2|]; [|discriminate].
  cbn [andb] in H. injection H as <-. split; [lia|reflexivity].
Qed.

Lemma slice_prefix_inv : forall s b x, slice s 0 b = Ok x -> exists y, s = x ++ y /\ lenZ x = b.
Proof.
  intros s b x H. apply slice_inv in H; [|lia]. destruct H as [Hb ->].
  rewrite Z.sub_0_r, (dropZ_0 _ 0) by lia. exists (dropZ b s). rewrite take_drop. split; [reflexivity|].
  apply lenZ_takeZ_le. lia.
Qed.

Lemma slice_from_inv : forall s a x, 0 <= a -> slice_from s a = Ok x -> x = dropZ a s /\ a <= lenZ s.
Proof.
  intros s a x Ha H. unfold slice_from in H. apply slice_inv in H; [|assumption]. destruct H as [Hb ->].
  split; [|lia]. apply takeZ_all. rewrite lenZ_dropZ by lia. lia.
Qed.

Lemma at_inv : forall s x, at_ s 0 = Ok x -> exists r, s = x :: r.
Proof. intros [|y s] x H; [discriminate|]. injection H as <-. eexists; reflexivity. Qed.

Lemma land_high : forall b, 0 <= b < 256 ->
  (Z.land b 128 =? 128) = (128 <=? b) /\ (128 <= b -> Z.land b 127 = b - 128).
Proof.
  intros b Hb.
  assert (H : forallb (fun i => let b := Z.of_nat i in
             Bool.eqb (Z.land b 128 =? 128) (128 <=? b) && implb (128 <=? b) (Z.land b 127 =? b - 128)) (seq 0 256) = true)
    by (vm_compute; reflexivity).
  rewrite forallb_forall in H. specialize (H (Z.to_nat b)). rewrite in_seq in H. specialize (H ltac:(lia)).
  cbv zeta in H. rewrite Z2Nat.id in H by lia. apply andb_true_iff in H. destruct H as [H1 H2].
  apply eqb_prop in H1. split; [exact H1|]. intros Hge.
  destruct (Z.leb_spec 128 b) as [_|]; [|lia]. cbn [implb] in H2. apply Z.eqb_eq in H2. exact H2.
Qed.

Lemma eat_len_iff : forall s n rest, octets s ->
  eat_len s = Ok (n, rest) <-> exists w, loose_length n w /\ s = w ++ rest.
Proof.
  intros s n rest Ho. split.
  - intros H. unfold eat_len in H. destruct s as [|b s]; [discriminate|]. rewrite at_0 in H. cbn [rbind] in H.
    inversion_clear Ho as [|? ? Hb Hs]. destruct (land_high b Hb) as [Hh Hl]. rewrite Hh in H.
    destruct (Z.leb_spec 128 b) as [Hge|Hlt].
    + rewrite Hl in H by lia. destruct (Z.ltb_spec 8 (b - 128)) as [|Hle]; [discriminate|].
      destruct (slice (b :: s) 1 (b - 128 + 1)) as [digits|e|] eqn:Hd; cbn [rbind] in H; try discriminate.
      destruct (slice_from (b :: s) (b - 128 + 1)) as [r|e|] eqn:Hr; cbn [rbind] in H; try discriminate.
      injection H as <- <-. apply slice_inv in Hd; [|lia]. apply slice_from_inv in Hr; [|lia].
      destruct Hd as [Hd1 ->], Hr as [-> Hr2].
      replace (b - 128 + 1 - 1) with (b - 128) in * by lia.
      change (dropZ 1 (b :: s)) with (dropZ 0 s). rewrite (dropZ_0 _ 0) by lia.
      rewrite lenZ_cons in *.
      exists (b :: takeZ (b - 128) s). split.
      * rewrite be_val_os2ip.
        assert (Hlen : lenZ (takeZ (b - 128) s) = b - 128) by (apply lenZ_takeZ_le; lia).
        unfold lenZ in Hlen.
        replace b with (128 + Z.of_nat (length (takeZ (b - 128) s))) at 2 by lia.
        apply loose_long. lia.
      * cbn [app]. f_equal. replace (dropZ (b - 128 + 1) (b :: s)) with (dropZ (b - 128) s).
        { symmetry. apply take_drop. }
        cbn [dropZ]. destruct (Z.leb_spec (b - 128 + 1) 0); [lia|]. f_equal. lia.
    + rewrite slice_from_1 in H. cbn [rbind] in H. injection H as <- <-. exists [b]. split; [|reflexivity].
      apply loose_short. lia.
  - intros (w & Hw & ->). apply Forall_app in Ho. destruct Ho as [Ho _].
    destruct Hw as [n Hn|digits Hd].
    + inversion_clear Ho as [|? ? Hb _]. unfold eat_len. cbn [app]. rewrite at_0. cbn [rbind].
      rewrite (proj1 (land_high n Hb)). destruct (Z.leb_spec 128 n); [lia|]. rewrite slice_from_1. reflexivity.
    + set (b := 128 + Z.of_nat (length digits)) in *. inversion_clear Ho as [|? ? Hb _].
      unfold eat_len. cbn [app]. rewrite at_0. cbn [rbind].
      destruct (land_high b Hb) as [Hh Hl]. rewrite Hh. destruct (Z.leb_spec 128 b); [|lia]. rewrite Hl by lia.
      destruct (Z.ltb_spec 8 (b - 128)); [lia|].
      assert (Hs : slice (b :: digits ++ rest) 1 (b - 128 + 1) = Ok digits).
      { replace (b - 128 + 1) with (lenZ [b] + lenZ digits). 2:{ unfold lenZ, b. cbn [length]. lia. }
        exact (slice_app [b] digits rest). }
      rewrite Hs. cbn [rbind]. change (b :: digits ++ rest) with ((b :: digits) ++ rest).
      rewrite slice_from_app by (rewrite lenZ_cons; unfold lenZ, b; lia). cbn [rbind].
      rewrite be_val_os2ip. reflexivity.
Qed.

Lemma eat_tag_iff : forall tag s n rest, octets s ->
  eat_tag tag s = Ok (n, rest) <-> exists w, loose_length n w /\ s = tag :: w ++ rest.
Proof.
  intros tag s n rest Ho. split.
  - intros H. unfold eat_tag in H. destruct s as [|b s]; [discriminate|]. rewrite at_0 in H. cbn [rbind] in H.
    destruct (Z.eqb_spec b tag) as [->|]; [|discriminate]. cbn [negb] in H. rewrite slice_from_1 in H. cbn [rbind] in H.
    inversion_clear Ho as [|? ? _ Hs]. apply eat_len_iff in H; [|assumption]. destruct H as (w & Hw & ->). exists w. auto.
  - intros (w & Hw & ->). unfold eat_tag. rewrite at_0. cbn [rbind]. rewrite Z.eqb_refl. cbn [negb].
    rewrite slice_from_1. cbn [rbind]. inversion_clear Ho as [|? ? _ Hs]. apply eat_len_iff; [assumption|]. exists w. auto.
Qed.

(** Tag, length and contents; the contents are then handed on. *)
Lemma tlv_iff : forall tag s c rest, octets s ->
  (exists w, loose_tlv tag c w /\ s = w ++ rest) <-> eat_tag tag s = Ok (lenZ c, c ++ rest).
Proof.
  intros tag s c rest Ho. rewrite eat_tag_iff by assumption. split.
  - intros (w & Hw & ->). destruct Hw as [w Hl]. exists w. split; [exact Hl|]. cbn [app]. rewrite <- app_assoc. reflexivity.
  - intros (w & Hw & ->). exists (tag :: w ++ c). split; [constructor; exact Hw|]. cbn [app]. rewrite <- app_assoc. reflexivity.
Qed.

Lemma eat_sequence_iff : forall s c rest, octets s ->
  eat_sequence s = Ok (c, rest) <-> exists w, loose_tlv 48 c w /\ s = w ++ rest.
Proof.
  intros s c rest Ho. rewrite tlv_iff by assumption. unfold eat_sequence. split.
  - intros H. destruct (eat_tag 48 s) as [[n r]|e|] eqn:He; cbn [rbind] in H; try discriminate.
    destruct (slice r 0 n) as [x|e|] eqn:Hs; cbn [rbind] in H; try discriminate.
    destruct (slice_from r n) as [y|e|] eqn:Hf; cbn [rbind] in H; try discriminate.
    injection H as -> ->. apply slice_prefix_inv in Hs. destruct Hs as (z & -> & <-).
    apply slice_from_inv in Hf; [|apply lenZ_nonneg]. destruct Hf as [-> _]. rewrite dropZ_app_exact by reflexivity. reflexivity.
  - intros ->. cbn [rbind]. rewrite slice_prefix by reflexivity. cbn [rbind]. rewrite slice_from_app by reflexivity. reflexivity.
Qed.

Lemma der_uint_iff : forall s n rest, octets s ->
  der_eat_uint s = Ok (n, rest) <-> exists c w, n = os2ip c /\ loose_tlv 2 c w /\ s = w ++ rest.
Proof.
  intros s n rest Ho. unfold der_eat_uint. split.
  - intros H. destruct (eat_tag 2 s) as [[k r]|e|] eqn:He; cbn [rbind] in H; try discriminate.
    destruct (slice r 0 k) as [x|e|] eqn:Hs; cbn [rbind] in H; try discriminate.
    destruct (slice_from r k) as [y|e|] eqn:Hf; cbn [rbind] in H; try discriminate.
    injection H as <- ->. apply slice_prefix_inv in Hs. destruct Hs as (z & -> & <-).
    apply slice_from_inv in Hf; [|apply lenZ_nonneg]. destruct Hf as [-> _]. rewrite dropZ_app_exact in * by reflexivity.
    apply tlv_iff in He; [|assumption]. destruct He as (w & Hw & Hs). exists x, w.
    split; [apply be_val_os2ip|]. auto.
  - intros (c & w & -> & Hw & Hs).
    assert (He : eat_tag 2 s = Ok (lenZ c, c ++ rest)) by (apply tlv_iff; eauto).
    rewrite He. cbn [rbind]. rewrite slice_prefix by reflexivity. cbn [rbind]. rewrite slice_from_app by reflexivity.
    cbn [rbind]. rewrite be_val_os2ip. reflexivity.
Qed.

Lemma eat_bit_string_iff : forall s u key rest, octets s ->
  eat_bit_string s = Ok (u, key, rest) <-> exists w, loose_tlv 3 (u :: key) w /\ s = w ++ rest.
Proof.
  intros s u key rest Ho. rewrite tlv_iff by assumption. unfold eat_bit_string. split.
  - intros H. destruct (eat_tag 3 s) as [[n r]|e|] eqn:He; cbn [rbind] in H; try discriminate.
    destruct (at_ r 0) as [b|e|] eqn:Ha; cbn [rbind] in H; try discriminate.
    destruct (slice r 1 n) as [x|e|] eqn:Hs; cbn [rbind] in H; try discriminate.
    destruct (slice_from r n) as [y|e|] eqn:Hf; cbn [rbind] in H; try discriminate.
    injection H as -> -> ->. apply at_inv in Ha. destruct Ha as (r' & ->).
    apply slice_inv in Hs; [|lia]. destruct Hs as [Hn ->]. rewrite lenZ_cons in Hn.
    apply slice_from_inv in Hf; [|lia]. destruct Hf as [-> _].
    change (dropZ 1 (u :: r')) with (dropZ 0 r'). rewrite (dropZ_0 _ 0) by lia.
    assert (Hd : dropZ n (u :: r') = dropZ (n - 1) r').
    { cbn [dropZ]. destruct (Z.leb_spec n 0); [lia|]. reflexivity. }
    rewrite Hd. rewrite lenZ_cons, lenZ_takeZ_le by lia. cbn [app]. rewrite take_drop.
    replace (1 + (n - 1)) with n by lia. reflexivity.
  - intros ->. cbn [rbind app]. rewrite at_0. cbn [rbind].
    assert (Hs : slice (u :: key ++ rest) 1 (lenZ (u :: key)) = Ok key).
    { rewrite lenZ_cons. exact (slice_app [u] key rest). }
    rewrite Hs. cbn [rbind]. change (u :: key ++ rest) with ((u :: key) ++ rest).
    rewrite slice_from_app by reflexivity. reflexivity.
Qed.

Lemma loose_tlv_octets : forall tag c w rest s, loose_tlv tag c w -> s = w ++ rest -> octets s -> octets c /\ octets rest.
Proof.
  intros tag c w rest s H -> Ho. apply Forall_app in Ho. destruct Ho as [Hw Hr]. destruct H as [w Hl].
  inversion_clear Hw as [|? ? _ Hx]. apply Forall_app in Hx. split; tauto.
Qed.

Lemma pkcs1_iff : forall n e s, octets s -> try_from_pkcs1 s = Ok (mkKey n e) <-> loose_pkcs1 n e s.
Proof.
  intros n e s Ho. unfold try_from_pkcs1. split.
  - intros H. destruct (eat_sequence s) as [[c r]|x|] eqn:Hs; cbn [rbind] in H; try discriminate.
    apply eat_sequence_iff in Hs; [|assumption]. destruct Hs as (w & Hw & Hsw).
    destruct (loose_tlv_octets _ _ _ _ _ Hw Hsw Ho) as [Hc _].
    destruct (der_eat_uint c) as [[m c1]|x|] eqn:Hm; cbn [rbind] in H; try discriminate.
    apply der_uint_iff in Hm; [|assumption]. destruct Hm as (cn & wn & Hn & Hwn & ->).
    destruct (loose_tlv_octets _ _ _ _ _ Hwn eq_refl Hc) as [_ Hc1].
    destruct (der_eat_uint c1) as [[m' c2]|x|] eqn:Hm; cbn [rbind] in H; try discriminate.
    apply der_uint_iff in Hm; [|assumption]. destruct Hm as (ce & we & He & Hwe & ->).
    injection H as -> ->. rewrite Hsw. eapply loose_pkcs1_intro; eassumption.
  - intros H. destruct H as [cn ce wn we w i1 i2 Hn He Hwn Hwe Hw].
    destruct (loose_tlv_octets _ _ _ _ _ Hw eq_refl Ho) as [Hc _].
    destruct (loose_tlv_octets _ _ _ _ _ Hwn eq_refl Hc) as [_ Hc1].
    assert (E : eat_sequence (w ++ i2) = Ok (wn ++ we ++ i1, i2)) by (apply eat_sequence_iff; eauto).
    rewrite E. cbn [rbind].
    assert (E1 : der_eat_uint (wn ++ we ++ i1) = Ok (n, we ++ i1)) by (apply der_uint_iff; eauto).
    rewrite E1. cbn [rbind].
    assert (E2 : der_eat_uint (we ++ i1) = Ok (e, i1)) by (apply der_uint_iff; eauto).
    rewrite E2. reflexivity.
Qed.

Lemma pkcs8_iff : forall n e s, octets s -> try_from_pkcs8 s = Ok (mkKey n e) <-> loose_pkcs8 n e s.
Proof.
  intros n e s Ho. unfold try_from_pkcs8. split.
  - intros H. destruct (eat_sequence s) as [[c r]|x|] eqn:Hs; cbn [rbind] in H; try discriminate.
    apply eat_sequence_iff in Hs; [|assumption]. destruct Hs as (w & Hw & Hsw).
    destruct (loose_tlv_octets _ _ _ _ _ Hw Hsw Ho) as [Hc _].
    destruct (eat_sequence c) as [[alg c1]|x|] eqn:Hs; cbn [rbind] in H; try discriminate.
    apply eat_sequence_iff in Hs; [|assumption]. destruct Hs as (wa & Hwa & ->).
    destruct (loose_tlv_octets _ _ _ _ _ Hwa eq_refl Hc) as [_ Hc1].
    destruct (eat_bit_string c1) as [[[u key] c2]|x|] eqn:Hs; cbn [rbind] in H; try discriminate.
    apply eat_bit_string_iff in Hs; [|assumption]. destruct Hs as (wb & Hwb & ->).
    destruct (loose_tlv_octets _ _ _ _ _ Hwb eq_refl Hc1) as [Hkey _]. inversion_clear Hkey as [|? ? _ Hkey'].
    destruct (Z.eqb_spec u 0) as [->|]; [|discriminate]. cbn [negb] in H.
    apply pkcs1_iff in H; [|assumption]. rewrite Hsw. eapply loose_pkcs8_intro; eassumption.
  - intros H. destruct H as [algorithm alg key bits w i1 i2 Hk Ha Hb Hw].
    destruct (loose_tlv_octets _ _ _ _ _ Hw eq_refl Ho) as [Hc _].
    destruct (loose_tlv_octets _ _ _ _ _ Ha eq_refl Hc) as [_ Hc1].
    destruct (loose_tlv_octets _ _ _ _ _ Hb eq_refl Hc1) as [Hkey _]. inversion_clear Hkey as [|? ? _ Hkey'].
    assert (E : eat_sequence (w ++ i2) = Ok (alg ++ bits ++ i1, i2)) by (apply eat_sequence_iff; eauto).
    rewrite E. cbn [rbind].
    assert (E1 : eat_sequence (alg ++ bits ++ i1) = Ok (algorithm, bits ++ i1)) by (apply eat_sequence_iff; eauto).
    rewrite E1. cbn [rbind].
    assert (E2 : eat_bit_string (bits ++ i1) = Ok (0, key, i1)) by (apply eat_bit_string_iff; eauto).
    rewrite E2. cbn [rbind]. rewrite Z.eqb_refl. cbn [negb]. apply pkcs1_iff; assumption.
Qed.

Lemma b64_val_inv : forall c v, b64_val c = Some v -> 0 <= v < 64 /\ c = base64_digit v.
Proof.
  intros c v H.
  assert (Hv : 0 <= v < 64).
  { unfold b64_val in H.
    repeat match type of H with
           | (if ?b then _ else _) = _ => let E := fresh in destruct b eqn:E
           end; try discriminate; injection H as <-;
    rewrite ?andb_true_iff, ?Z.leb_le in *; lia. }
  split; [exact Hv|].
  assert (Hc : 0 <= c < 128).
  { unfold b64_val in H.
    repeat match type of H with
           | (if ?b then _ else _) = _ => let E := fresh in destruct b eqn:E
           end; try discriminate;
    rewrite ?andb_true_iff, ?Z.leb_le, ?Z.eqb_eq in *; lia. }
  assert (Ht : forallb (fun i => let c := Z.of_nat i in match b64_val c with Some v => base64_digit v =? c | None => true end) (seq 0 128) = true)
    by (vm_compute; reflexivity).
  rewrite forallb_forall in Ht. specialize (Ht (Z.to_nat c)). rewrite in_seq in Ht. specialize (Ht ltac:(lia)).
  cbv zeta in Ht. rewrite Z2Nat.id in Ht by lia. rewrite H in Ht. apply Z.eqb_eq in Ht. auto.
Qed.

Lemma b64_inv : forall k w der, (length w <= k)%nat -> b64_decode w = Some der -> base64 der w /\ octets der.
Proof.
  induction k as [|k IH]; intros w der Hk H.
  { destruct w; [|cbn [length] in Hk; lia]. injection H as <-. split; constructor. }
  destruct w as [|a [|b [|c [|d w]]]]; try discriminate.
  { injection H as <-. split; constructor. }
  cbn [b64_decode] in H.
  destruct (b64_val a) as [va|] eqn:Ha; [|discriminate]. destruct (b64_val b) as [vb|] eqn:Hb; [|discriminate].
  apply b64_val_inv in Ha, Hb. destruct Ha as [Ha ->], Hb as [Hb ->].
  destruct (b64_val c) as [vc|] eqn:Hc.
  - apply b64_val_inv in Hc. destruct Hc as [Hc ->].
    destruct (b64_val d) as [vd|] eqn:Hd.
    + apply b64_val_inv in Hd. destruct Hd as [Hd ->].
      destruct (b64_decode w) as [rest|] eqn:Hr; [|discriminate]. cbn [option_map] in H. injection H as <-.
      apply IH in Hr; [|cbn [length] in Hk; lia]. destruct Hr as [Hr1 Hr2]. split.
      * set (x := va * 4 + vb / 16). set (y := vb mod 16 * 16 + vc / 4). set (z := vc mod 4 * 64 + vd).
        replace va with (x / 4) by (unfold x; lia).
        replace vb with (x mod 4 * 16 + y / 16) by (unfold x, y; lia).
        replace vc with (y mod 16 * 4 + z / 64) by (unfold y, z; lia).
        replace vd with (z mod 64) by (unfold z; lia).
        apply base64_3. exact Hr1.
      * unfold octets. repeat (apply Forall_cons; [lia|]). exact Hr2.
    + destruct (Z.eqb_spec d 61) as [->|]; [|discriminate]. destruct w; [|discriminate]. cbn [andb] in H.
      destruct (Z.eqb_spec (vc mod 4) 0) as [Hz|]; [|discriminate]. injection H as <-. split.
      * set (x := va * 4 + vb / 16). set (y := vb mod 16 * 16 + vc / 4).
        replace va with (x / 4) by (unfold x; lia).
        replace vb with (x mod 4 * 16 + y / 16) by (unfold x, y; lia).
        replace vc with (y mod 16 * 4) by (unfold y; lia).
        apply base64_2.
      * unfold octets. repeat (apply Forall_cons; [lia|]). apply Forall_nil.
  - destruct (Z.eqb_spec c 61) as [->|]; [|discriminate]. destruct (Z.eqb_spec d 61) as [->|]; [|discriminate].
    destruct w; [|discriminate]. cbn [andb] in H.
    destruct (Z.eqb_spec (vb mod 16) 0) as [Hz|]; [|discriminate]. injection H as <-. split.
    * set (x := va * 4 + vb / 16).
      replace va with (x / 4) by (unfold x; lia).
      replace vb with (x mod 4 * 16) by (unfold x; lia).
      apply base64_1.
    * unfold octets. repeat (apply Forall_cons; [lia|]). apply Forall_nil.
Qed.

Lemma spaced_strip : forall w, octets w -> spaced (strip w) w.
Proof.
  induction 1 as [|b w Hb Hw IH]; [constructor|]. cbn [filter].
  destruct (pem_space b) eqn:E; cbn [negb].
  - apply spaced_white; [|exact IH]. unfold pem_space in E. rewrite !orb_true_iff, !Z.eqb_eq in E. unfold white. cbn [In]. intuition.
  - apply spaced_keep. exact IH.
Qed.

Lemma strip_clean : forall w, Forall (fun b => pem_space b = false) (strip w).
Proof.
  intros w. apply Forall_forall. intros x Hx. apply filter_In in Hx. destruct Hx as [_ Hx].
  apply negb_true_iff in Hx. exact Hx.
Qed.

Lemma ends_with_spec : forall l s, ends_with l s = true -> exists r, l = r ++ s.
Proof.
  intros l s H. unfold ends_with in H. apply starts_with_spec in H. destruct H as [r Hr].
  exists (rev r). rewrite <- (rev_involutive l), Hr, rev_app_distr, rev_involutive. reflexivity.
Qed.

Lemma frame_inv : forall l a c body, starts_with l a = true -> ends_with l c = true ->
  slice l (lenZ a) (lenZ l - lenZ c) = Ok body -> l = a ++ body ++ c.
Proof.
  intros l a c body Ha Hc H. apply starts_with_spec in Ha. destruct Ha as [r1 ->].
  apply ends_with_spec in Hc. destruct Hc as [r2 Hr].
  apply slice_inv in H; [|apply lenZ_nonneg]. destruct H as [Hb ->].
  rewrite dropZ_app_exact by reflexivity. f_equal.
  rewrite lenZ_app in *.
  assert (Hl : lenZ (a ++ r1) = lenZ (r2 ++ c)) by (rewrite Hr; reflexivity). rewrite !lenZ_app in Hl.
  assert (Hr1 : r1 = dropZ (lenZ a) r2 ++ c).
  { rewrite <- (dropZ_app_exact _ (lenZ a) a r1) at 1 by reflexivity. rewrite Hr.
    rewrite dropZ_app_le by lia. reflexivity. }
  set (n := lenZ a + lenZ r1 - lenZ c - lenZ a).
  assert (Hn : n = lenZ (dropZ (lenZ a) r2)).
  { rewrite lenZ_dropZ by apply lenZ_nonneg. unfold n. lia. }
  clearbody n. rewrite Hr1. rewrite takeZ_app_exact by (symmetry; exact Hn). reflexivity.
Qed.

Lemma begin1_text : ascii_text "-----BEGINRSAPUBLICKEY-----" = PKCS1_BEGIN.
Proof. reflexivity. Qed.
Lemma end1_text : ascii_text "-----ENDRSAPUBLICKEY-----" = PKCS1_END.
Proof. reflexivity. Qed.
Lemma begin8_text : ascii_text "-----BEGINPUBLICKEY-----" = PKCS8_BEGIN.
Proof. reflexivity. Qed.
Lemma end8_text : ascii_text "-----ENDPUBLICKEY-----" = PKCS8_END.
Proof. reflexivity. Qed.

Lemma pem_iff_1 : forall n e w, octets w -> try_from_pem w = Ok (mkKey n e) -> loose_pem n e w.
Proof.
  intros n e w Ho H. pose proof (spaced_strip w Ho) as Hsp. unfold try_from_pem in H. cbv zeta in H.
  destruct (starts_with (strip w) PKCS1_BEGIN && ends_with (strip w) PKCS1_END) eqn:E1.
  - apply andb_true_iff in E1. destruct E1 as [Ea Eb]. unfold rmap in H.
    destruct (slice (strip w) (lenZ PKCS1_BEGIN) (lenZ (strip w) - lenZ PKCS1_END)) as [body|x|] eqn:Hs; cbn [rbind] in H; try discriminate.
    pose proof (frame_inv _ _ _ _ Ea Eb Hs) as Hf.
    destruct (b64_decode body) as [der|] eqn:Hd; [|discriminate].
    apply (b64_inv (length body)) in Hd; [|lia]. destruct Hd as [Hd Hod].
    apply pkcs1_iff in H; [|assumption]. eapply loose_pem_1; [exact Hod|exact Hd|exact H|].
    rewrite begin1_text, end1_text, <- Hf. exact Hsp.
  - destruct (starts_with (strip w) PKCS8_BEGIN && ends_with (strip w) PKCS8_END) eqn:E8; [|discriminate].
    apply andb_true_iff in E8. destruct E8 as [Ea Eb]. unfold rmap in H.
    destruct (slice (strip w) (lenZ PKCS8_BEGIN) (lenZ (strip w) - lenZ PKCS8_END)) as [body|x|] eqn:Hs; cbn [rbind] in H; try discriminate.
    pose proof (frame_inv _ _ _ _ Ea Eb Hs) as Hf.
    destruct (b64_decode body) as [der|] eqn:Hd; [|discriminate].
    apply (b64_inv (length body)) in Hd; [|lia]. destruct Hd as [Hd Hod].
    apply pkcs8_iff in H; [|assumption]. eapply loose_pem_8; [exact Hod|exact Hd|exact H|].
    rewrite begin8_text, end8_text, <- Hf. exact Hsp.
Qed.

Lemma spaced_octets : forall l w, spaced l w -> octets w -> octets l.
Proof.
  induction 1 as [|x l w H IH|b l w Hb H IH]; intros Ho; auto; inversion_clear Ho; auto. constructor; auto. apply IH. assumption.
Qed.

Lemma clean_const : forall l, forallb (fun b => negb (pem_space b)) l = true -> Forall (fun b => pem_space b = false) l.
Proof.
  intros l H. apply Forall_forall. intros x Hx. rewrite forallb_forall in H. apply H in Hx. apply negb_true_iff in Hx. exact Hx.
Qed.

Lemma pem_iff_2 : forall n e w, loose_pem n e w -> try_from_pem w = Ok (mkKey n e).
Proof.
  intros n e w H. destruct H as [der b64 Ho Hb Hk Hsp|der b64 Ho Hb Hk Hsp].
  - destruct (b64_ok _ _ Hb Ho) as [Hdec Hns]. rewrite begin1_text, end1_text in Hsp.
    assert (Hs : strip w = PKCS1_BEGIN ++ b64 ++ PKCS1_END).
    { apply strip_spaced; [exact Hsp|]. rewrite !Forall_app. split; [apply clean_const; reflexivity|].
      split; [exact Hns|apply clean_const; reflexivity]. }
    unfold try_from_pem. rewrite Hs. cbv zeta.
    rewrite starts_with_app. rewrite app_assoc, ends_with_app, <- app_assoc. cbn [andb].
    rewrite slice_middle by reflexivity. unfold rmap. cbn [rbind]. rewrite Hdec. apply pkcs1_iff; assumption.
  - destruct (b64_ok _ _ Hb Ho) as [Hdec Hns]. rewrite begin8_text, end8_text in Hsp.
    assert (Hs : strip w = PKCS8_BEGIN ++ b64 ++ PKCS8_END).
    { apply strip_spaced; [exact Hsp|]. rewrite !Forall_app. split; [apply clean_const; reflexivity|].
      split; [exact Hns|apply clean_const; reflexivity]. }
    unfold try_from_pem. rewrite Hs. cbv zeta.
    assert (Hno : starts_with (PKCS8_BEGIN ++ b64 ++ PKCS8_END) PKCS1_BEGIN = false) by reflexivity.
    rewrite Hno. cbn [andb].
    rewrite starts_with_app. rewrite app_assoc, ends_with_app, <- app_assoc. cbn [andb].
    rewrite slice_middle by reflexivity. unfold rmap. cbn [rbind]. rewrite Hdec. apply pkcs8_iff; assumption.
Qed.

Lemma pem_iff : forall n e w, octets w -> try_from_pem w = Ok (mkKey n e) <-> loose_pem n e w.
Proof. intros n e w Ho. split; [apply pem_iff_1; exact Ho|apply pem_iff_2]. Qed.
