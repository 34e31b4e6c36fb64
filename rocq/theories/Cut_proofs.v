(** Lemmas about key files that make the parser panic (C41). *)
From Coq Require Import String ZArith List Bool Lia.
From Verif Require Import Base BaseFacts Types Scramble Crypt Spec_Crypt Crypt_proofs Pem_proofs.
Import ListNotations.
Open Scope Z_scope.

Notation strip := (filter (fun x => negb (pem_space x))).

Lemma slice_panic : forall s a b, 0 <= a -> slice s a b = Panic <-> (b < a \/ lenZ s < b).
Proof.
  intros s a b Ha. unfold slice. destruct (Z.leb_spec a b), (Z.leb_spec b (lenZ s)); cbn [andb];
    split; intros X; try discriminate; try reflexivity; try lia.
Qed.

Lemma slice_from_ok : forall s a, 0 <= a <= lenZ s -> slice_from s a = Ok (dropZ a s).
Proof.
  intros s a Ha. unfold slice_from, slice. destruct (Z.leb_spec a (lenZ s)); [|lia].
  rewrite Z.leb_refl. cbn [andb]. f_equal. apply takeZ_all. rewrite lenZ_dropZ by lia. lia.
Qed.

Lemma slice_cases : forall s a b, 0 <= a -> slice s a b = Panic \/ (exists x, slice s a b = Ok x) /\ a <= b <= lenZ s.
Proof.
  intros s a b Ha. unfold slice. destruct (Z.leb_spec a b), (Z.leb_spec b (lenZ s)); cbn [andb]; eauto.
Qed.

Lemma lenZ_length : forall (s : list Z), lenZ s = Z.of_nat (length s).
Proof. reflexivity. Qed.

Lemma eat_len_panic : forall s, octets s -> eat_len s = Panic <-> cut_length s.
Proof.
  intros s Ho. split.
  - intros H. destruct s as [|b s]; [constructor|]. unfold eat_len in H. rewrite at_0 in H. cbn [rbind] in H.
    inversion_clear Ho as [|? ? Hb Hs]. destruct (land_high b Hb) as [Hh Hl]. rewrite Hh in H.
    destruct (Z.leb_spec 128 b) as [Hge|Hlt].
    + rewrite Hl in H by lia. destruct (Z.ltb_spec 8 (b - 128)) as [|Hle]; [discriminate|].
      destruct (slice_cases (b :: s) 1 (b - 128 + 1)) as [E|[[x E] Hx]]; [lia| |].
      * apply slice_panic in E; [|lia]. rewrite lenZ_cons, lenZ_length in E.
        replace b with (128 + Z.of_nat (Z.to_nat (b - 128))) by lia. constructor. lia.
      * rewrite E in H. cbn [rbind] in H. rewrite slice_from_ok in H by lia. discriminate.
    + rewrite slice_from_1 in H. discriminate.
  - intros H. destruct H as [|k digits Hk]; [reflexivity|]. unfold eat_len. rewrite at_0. cbn [rbind].
    inversion_clear Ho as [|? ? Hb Hs]. destruct (land_high _ Hb) as [Hh Hl]. rewrite Hh.
    destruct (Z.leb_spec 128 (128 + Z.of_nat k)); [|lia]. rewrite Hl by lia.
    destruct (Z.ltb_spec 8 (128 + Z.of_nat k - 128)); [lia|].
    assert (E : slice (128 + Z.of_nat k :: digits) 1 (128 + Z.of_nat k - 128 + 1) = Panic).
    { apply slice_panic; [lia|]. rewrite lenZ_cons, lenZ_length. lia. }
    rewrite E. reflexivity.
Qed.

Lemma eat_tag_panic : forall tag s, octets s ->
  eat_tag tag s = Panic <-> s = [] \/ exists w, cut_length w /\ s = tag :: w.
Proof.
  intros tag s Ho. destruct s as [|b s].
  - split; [auto|reflexivity].
  - inversion_clear Ho as [|? ? Hb Hs]. unfold eat_tag. rewrite at_0. cbn [rbind].
    destruct (Z.eqb_spec b tag) as [->|Hne]; cbn [negb].
    + rewrite slice_from_1. cbn [rbind]. rewrite eat_len_panic by assumption. split.
      * intros H. right. exists s. auto.
      * intros [H|(w & Hw & E)]; [discriminate|]. injection E as ->. exact Hw.
    + split; [discriminate|]. intros [H|(w & Hw & E)]; [discriminate|]. congruence.
Qed.

Lemma loose_length_nonneg : forall n w, loose_length n w -> octets w -> 0 <= n.
Proof.
  intros n w H Ho. destruct H as [n Hn|digits Hd]; [lia|].
  inversion_clear Ho as [|? ? _ Hx]. pose proof (os2ip_range digits Hx). lia.
Qed.

(** The rest of reading an element once its tag and length are read. *)
Lemma tlv_panic : forall A tag s (f : Z -> bytes -> res crypt_error A), octets s ->
  (forall n r, eat_tag tag s = Ok (n, r) -> f n r = Panic <-> lenZ r < n) ->
  rbind (eat_tag tag s) (fun '(n, r) => f n r) = Panic <-> cut_tlv tag s.
Proof.
  intros A tag s f Ho Hf. destruct (eat_tag tag s) as [[n r]|x|] eqn:E; cbn [rbind].
  - rewrite (Hf n r eq_refl). pose proof E as E'. apply eat_tag_iff in E; [|assumption]. destruct E as (w & Hw & ->). split.
    + intros Hl. rewrite lenZ_length in Hl. econstructor; eassumption.
    + intros H. inversion H as [|w' Hc Hs|n' w' c Hw' Hl Hs].
      * exfalso. assert (X : eat_tag tag (tag :: w ++ r) = Panic) by (apply eat_tag_panic; [assumption|]; right; subst; eauto). congruence.
      * assert (X : eat_tag tag (tag :: w ++ r) = Ok (n', c)).
        { apply eat_tag_iff; [assumption|]. exists w'. split; [assumption|]. congruence. }
        rewrite E' in X. injection X as -> ->. exact Hl.
  - split; [discriminate|]. intros H. exfalso. destruct H as [|w Hc|n w c Hw Hl].
    + discriminate.
    + assert (X : eat_tag tag (tag :: w) = Panic) by (apply eat_tag_panic; eauto). congruence.
    + assert (X : eat_tag tag (tag :: w ++ c) = Ok (n, c)) by (apply eat_tag_iff; eauto). congruence.
  - split; [intros _|reflexivity]. apply eat_tag_panic in E; [|assumption]. destruct E as [->|(w & Hw & ->)]; constructor; assumption.
Qed.

Lemma tag_nonneg : forall tag s n r, octets s -> eat_tag tag s = Ok (n, r) -> 0 <= n.
Proof.
  intros tag s n r Ho H. apply eat_tag_iff in H; [|assumption]. destruct H as (w & Hw & ->).
  inversion_clear Ho as [|? ? _ Hx]. apply Forall_app in Hx. eapply loose_length_nonneg; [exact Hw|tauto].
Qed.

Lemma eat_sequence_panic : forall s, octets s -> eat_sequence s = Panic <-> cut_tlv 48 s.
Proof.
  intros s Ho. unfold eat_sequence.
  apply (tlv_panic _ 48 s (fun n r => rbind (slice r 0 n) (fun sequence => rbind (slice_from r n) (fun rest => Ok (sequence, rest)))) Ho).
  intros n r E. apply tag_nonneg in E; [|assumption].
  destruct (slice_cases r 0 n) as [X|[[x X] Hx]]; [lia| |]; rewrite X; cbn [rbind].
  - apply slice_panic in X; [|lia]. split; [lia|reflexivity].
  - rewrite slice_from_ok by lia. cbn [rbind]. split; [discriminate|lia].
Qed.

Lemma der_uint_panic : forall s, octets s -> der_eat_uint s = Panic <-> cut_tlv 2 s.
Proof.
  intros s Ho. unfold der_eat_uint.
  apply (tlv_panic _ 2 s (fun n r => rbind (slice r 0 n) (fun digits => rbind (slice_from r n) (fun rest => Ok (be_val digits, rest)))) Ho).
  intros n r E. apply tag_nonneg in E; [|assumption].
  destruct (slice_cases r 0 n) as [X|[[x X] Hx]]; [lia| |]; rewrite X; cbn [rbind].
  - apply slice_panic in X; [|lia]. split; [lia|reflexivity].
  - rewrite slice_from_ok by lia. cbn [rbind]. split; [discriminate|lia].
Qed.

Lemma eat_bit_string_panic : forall s, octets s -> eat_bit_string s = Panic <-> cut_bits s.
Proof.
  intros s Ho.
  assert (Hc : cut_tlv 3 s -> eat_bit_string s = Panic).
  { intros H. unfold eat_bit_string. destruct H as [|w Hw|n w c Hw Hl].
    - reflexivity.
    - assert (X : eat_tag 3 (3 :: w) = Panic) by (apply eat_tag_panic; eauto). rewrite X. reflexivity.
    - assert (X : eat_tag 3 (3 :: w ++ c) = Ok (n, c)) by (apply eat_tag_iff; eauto). rewrite X. cbn [rbind].
      destruct c as [|u c]; [reflexivity|]. rewrite at_0. cbn [rbind].
      assert (Y : slice (u :: c) 1 n = Panic) by (apply slice_panic; [lia|]; right; exact Hl). rewrite Y. reflexivity. }
  split.
  - intros H. unfold eat_bit_string in H. destruct (eat_tag 3 s) as [[n r]|x|] eqn:E; cbn [rbind] in H; try discriminate.
    + pose proof (tag_nonneg _ _ _ _ Ho E) as Hn. apply eat_tag_iff in E; [|assumption]. destruct E as (w & Hw & ->).
      destruct (Z.eq_dec n 0) as [->|Hn0].
      * change (3 :: w ++ r) with ((3 :: w) ++ r). apply cut_bits_empty.
        rewrite <- (app_nil_r w). constructor. exact Hw.
      * destruct (Z.lt_ge_cases (lenZ r) n) as [Hl|Hl].
        { constructor. econstructor; eassumption. }
        exfalso. destruct r as [|u r]; [unfold lenZ in Hl; cbn [length] in Hl; lia|].
        rewrite at_0 in H. cbn [rbind] in H.
        destruct (slice_cases (u :: r) 1 n) as [X|[[x X] Hx]]; [lia| |].
        { apply slice_panic in X; [|lia]. lia. }
        rewrite X in H. cbn [rbind] in H. rewrite slice_from_ok in H by lia. discriminate.
    + constructor. apply eat_tag_panic in E; [|assumption]. destruct E as [->|(w & Hw & ->)]; constructor; assumption.
  - intros H. destruct H as [s H|w rest Hw]; [auto|].
    assert (X : eat_tag 3 (w ++ rest) = Ok (lenZ (@nil Z), [] ++ rest)) by (apply tlv_iff; eauto).
    unfold eat_bit_string. rewrite X. cbn [rbind app]. destruct rest as [|u rest]; [reflexivity|].
    rewrite at_0. cbn [rbind].
    assert (Y : slice (u :: rest) 1 (lenZ (@nil Z)) = Panic) by (apply slice_panic; [lia|]; left; reflexivity).
    rewrite Y. reflexivity.
Qed.

Lemma pkcs1_panic : forall s, octets s -> try_from_pkcs1 s = Panic <-> cut_pkcs1 s.
Proof.
  intros s Ho. unfold try_from_pkcs1. split.
  - intros H. destruct (eat_sequence s) as [[c r]|x|] eqn:Hs; cbn [rbind] in H; try discriminate.
    2:{ apply cut_pkcs1_outer. apply eat_sequence_panic; assumption. }
    apply eat_sequence_iff in Hs; [|assumption]. destruct Hs as (w & Hw & Hsw).
    destruct (loose_tlv_octets _ _ _ _ _ Hw Hsw Ho) as [Hc _].
    destruct (der_eat_uint c) as [[m c1]|x|] eqn:Hm; cbn [rbind] in H; try discriminate.
    2:{ subst s. eapply cut_pkcs1_modulus; [exact Hw|]. apply der_uint_panic; assumption. }
    apply der_uint_iff in Hm; [|assumption]. destruct Hm as (cn & wn & Hn & Hwn & ->).
    destruct (loose_tlv_octets _ _ _ _ _ Hwn eq_refl Hc) as [_ Hc1].
    destruct (der_eat_uint c1) as [[m' c2]|x|] eqn:Hm; cbn [rbind] in H; try discriminate.
    subst s. eapply cut_pkcs1_exponent; [exact Hwn| |exact Hw]. apply der_uint_panic; assumption.
  - intros H. destruct H as [s H|c w i Hw H|cn wn c w i Hwn H Hw].
    + apply eat_sequence_panic in H; [|assumption]. rewrite H. reflexivity.
    + destruct (loose_tlv_octets _ _ _ _ _ Hw eq_refl Ho) as [Hc _].
      assert (E : eat_sequence (w ++ i) = Ok (c, i)) by (apply eat_sequence_iff; eauto). rewrite E. cbn [rbind].
      apply der_uint_panic in H; [|assumption]. rewrite H. reflexivity.
    + destruct (loose_tlv_octets _ _ _ _ _ Hw eq_refl Ho) as [Hc _].
      destruct (loose_tlv_octets _ _ _ _ _ Hwn eq_refl Hc) as [_ Hc1].
      assert (E : eat_sequence (w ++ i) = Ok (wn ++ c, i)) by (apply eat_sequence_iff; eauto). rewrite E. cbn [rbind].
      assert (E1 : der_eat_uint (wn ++ c) = Ok (os2ip cn, c)) by (apply der_uint_iff; eauto). rewrite E1. cbn [rbind].
      apply der_uint_panic in H; [|assumption]. rewrite H. reflexivity.
Qed.

Lemma pkcs8_panic : forall s, octets s -> try_from_pkcs8 s = Panic <-> cut_pkcs8 s.
Proof.
  intros s Ho. unfold try_from_pkcs8. split.
  - intros H. destruct (eat_sequence s) as [[c r]|x|] eqn:Hs; cbn [rbind] in H; try discriminate.
    2:{ apply cut_pkcs8_outer. apply eat_sequence_panic; assumption. }
    apply eat_sequence_iff in Hs; [|assumption]. destruct Hs as (w & Hw & Hsw).
    destruct (loose_tlv_octets _ _ _ _ _ Hw Hsw Ho) as [Hc _].
    destruct (eat_sequence c) as [[alg c1]|x|] eqn:Hs; cbn [rbind] in H; try discriminate.
    2:{ subst s. eapply cut_pkcs8_algorithm; [exact Hw|]. apply eat_sequence_panic; assumption. }
    apply eat_sequence_iff in Hs; [|assumption]. destruct Hs as (wa & Hwa & ->).
    destruct (loose_tlv_octets _ _ _ _ _ Hwa eq_refl Hc) as [_ Hc1].
    destruct (eat_bit_string c1) as [[[u key] c2]|x|] eqn:Hs; cbn [rbind] in H; try discriminate.
    2:{ subst s. eapply cut_pkcs8_bits; [exact Hwa| |exact Hw]. apply eat_bit_string_panic; assumption. }
    apply eat_bit_string_iff in Hs; [|assumption]. destruct Hs as (wb & Hwb & ->).
    destruct (loose_tlv_octets _ _ _ _ _ Hwb eq_refl Hc1) as [Hkey _]. inversion_clear Hkey as [|? ? _ Hkey'].
    destruct (Z.eqb_spec u 0) as [->|]; [|discriminate]. cbn [negb] in H.
    apply pkcs1_panic in H; [|assumption]. rewrite Hsw. eapply cut_pkcs8_key; eassumption.
  - intros H. destruct H as [s H|c w i Hw H|algorithm alg c w i Ha H Hw|algorithm alg key bits w i1 i2 Hk Ha Hb Hw].
    + apply eat_sequence_panic in H; [|assumption]. rewrite H. reflexivity.
    + destruct (loose_tlv_octets _ _ _ _ _ Hw eq_refl Ho) as [Hc _].
      assert (E : eat_sequence (w ++ i) = Ok (c, i)) by (apply eat_sequence_iff; eauto). rewrite E. cbn [rbind].
      apply eat_sequence_panic in H; [|assumption]. rewrite H. reflexivity.
    + destruct (loose_tlv_octets _ _ _ _ _ Hw eq_refl Ho) as [Hc _].
      destruct (loose_tlv_octets _ _ _ _ _ Ha eq_refl Hc) as [_ Hc1].
      assert (E : eat_sequence (w ++ i) = Ok (alg ++ c, i)) by (apply eat_sequence_iff; eauto). rewrite E. cbn [rbind].
      assert (E1 : eat_sequence (alg ++ c) = Ok (algorithm, c)) by (apply eat_sequence_iff; eauto). rewrite E1. cbn [rbind].
      apply eat_bit_string_panic in H; [|assumption]. rewrite H. reflexivity.
    + destruct (loose_tlv_octets _ _ _ _ _ Hw eq_refl Ho) as [Hc _].
      destruct (loose_tlv_octets _ _ _ _ _ Ha eq_refl Hc) as [_ Hc1].
      destruct (loose_tlv_octets _ _ _ _ _ Hb eq_refl Hc1) as [Hkey _]. inversion_clear Hkey as [|? ? _ Hkey'].
      assert (E : eat_sequence (w ++ i2) = Ok (alg ++ bits ++ i1, i2)) by (apply eat_sequence_iff; eauto).
      rewrite E. cbn [rbind].
      assert (E1 : eat_sequence (alg ++ bits ++ i1) = Ok (algorithm, bits ++ i1)) by (apply eat_sequence_iff; eauto).
      rewrite E1. cbn [rbind].
      assert (E2 : eat_bit_string (bits ++ i1) = Ok (0, key, i1)) by (apply eat_bit_string_iff; eauto).
      rewrite E2. cbn [rbind]. rewrite Z.eqb_refl. cbn [negb]. apply pkcs1_panic; assumption.
Qed.

(** Overlapping labels: the text is the first label and the missing end of the second. *)
Lemma overlap_suffix : forall (a c r r2 : list Z), a ++ r = r2 ++ c -> (length r <= length c)%nat ->
  r = skipn (length c - length r) c.
Proof.
  intros a c r r2 H Hl.
  assert (Hlen : (length a + length r = length r2 + length c)%nat).
  { rewrite <- !app_length, H. reflexivity. }
  assert (E : skipn (length a) (a ++ r) = skipn (length a) (r2 ++ c)) by (rewrite H; reflexivity).
  rewrite !skipn_app in E. rewrite skipn_all in E. rewrite Nat.sub_diag in E. cbn [skipn app] in E.
  rewrite (skipn_all2 r2) in E by lia. cbn [app] in E.
  replace (length a - length r2)%nat with (length c - length r)%nat in E by lia. exact E.
Qed.

Definition shared_text (name : string) (k : nat) : list Z :=
  ascii_text (append "-----BEGIN" name) ++ repeat 45 k ++ ascii_text (append "END" (append name "-----")).

Definition zlist_eqb (a b : list Z) : bool := if list_eq_dec Z.eq_dec a b then true else false.

Lemma zlist_eqb_eq : forall a b, zlist_eqb a b = true -> a = b.
Proof. intros a b. unfold zlist_eqb. destruct (list_eq_dec Z.eq_dec a b); [auto|discriminate]. Qed.

Lemma labels_overlap : forall name b e l,
  forallb (fun j => implb (ends_with (b ++ skipn (length e - j) e) e)
                      (existsb (fun k => zlist_eqb (b ++ skipn (length e - j) e) (shared_text name k)) (seq 5 5)))
          (seq 0 (length e)) = true ->
  starts_with l b = true -> ends_with l e = true -> lenZ l - lenZ e < lenZ b -> shared_hyphens name l.
Proof.
  intros name b e l Ht Hb He Hl.
  pose proof Hb as Hb'. apply starts_with_spec in Hb'. destruct Hb' as [r ->].
  pose proof He as He'. apply ends_with_spec in He'. destruct He' as [r2 Hr].
  rewrite lenZ_app in Hl. unfold lenZ in Hl.
  pose proof (overlap_suffix b e r r2 Hr ltac:(lia)) as Hs.
  rewrite forallb_forall in Ht. specialize (Ht (length r)). rewrite in_seq in Ht. specialize (Ht ltac:(lia)).
  cbv beta in Ht. rewrite <- Hs in Ht. rewrite He in Ht. cbn [implb] in Ht. apply existsb_exists in Ht.
  destruct Ht as (k & Hk & Hx). apply in_seq in Hk. exists k. split; [lia|]. apply zlist_eqb_eq in Hx. exact Hx.
Qed.

Lemma labels_overlap_1 : forall l, starts_with l PKCS1_BEGIN = true -> ends_with l PKCS1_END = true ->
  lenZ l - lenZ PKCS1_END < lenZ PKCS1_BEGIN -> shared_hyphens "RSAPUBLICKEY" l.
Proof. intros l. apply labels_overlap. vm_compute. reflexivity. Qed.

Lemma labels_overlap_8 : forall l, starts_with l PKCS8_BEGIN = true -> ends_with l PKCS8_END = true ->
  lenZ l - lenZ PKCS8_END < lenZ PKCS8_BEGIN -> shared_hyphens "PUBLICKEY" l.
Proof. intros l. apply labels_overlap. vm_compute. reflexivity. Qed.

Lemma framed_slice : forall l a c, starts_with l a = true -> ends_with l c = true ->
  lenZ a <= lenZ l - lenZ c -> exists body, slice l (lenZ a) (lenZ l - lenZ c) = Ok body.
Proof.
  intros l a c _ _ H. destruct (slice_cases l (lenZ a) (lenZ l - lenZ c)) as [E|[E _]]; [apply lenZ_nonneg| |exact E].
  apply slice_panic in E; [|apply lenZ_nonneg]. pose proof (lenZ_nonneg _ c). lia.
Qed.

Lemma pem_panic_1 : forall w, octets w -> try_from_pem w = Panic -> cut_pem w.
Proof.
  intros w Ho H. pose proof (spaced_strip w Ho) as Hsp. unfold try_from_pem in H. cbv zeta in H.
  destruct (starts_with (strip w) PKCS1_BEGIN && ends_with (strip w) PKCS1_END) eqn:E1.
  - apply andb_true_iff in E1. destruct E1 as [Ea Eb]. unfold rmap in H.
    destruct (Z.lt_ge_cases (lenZ (strip w) - lenZ PKCS1_END) (lenZ PKCS1_BEGIN)) as [Hl|Hl].
    { eapply cut_pem_labels; [left; reflexivity| |exact Hsp]. apply labels_overlap_1; assumption. }
    destruct (framed_slice _ _ _ Ea Eb ltac:(lia)) as [body Hs]. rewrite Hs in H. cbn [rbind] in H.
    pose proof (frame_inv _ _ _ _ Ea Eb Hs) as Hf.
    destruct (b64_decode body) as [der|] eqn:Hd; [|discriminate].
    apply (b64_inv (length body)) in Hd; [|lia]. destruct Hd as [Hd Hod].
    apply pkcs1_panic in H; [|assumption]. eapply cut_pem_1; [exact Hod|exact Hd|exact H|].
    rewrite begin1_text, end1_text, <- Hf. exact Hsp.
  - destruct (starts_with (strip w) PKCS8_BEGIN && ends_with (strip w) PKCS8_END) eqn:E8; [|discriminate].
    apply andb_true_iff in E8. destruct E8 as [Ea Eb]. unfold rmap in H.
    destruct (Z.lt_ge_cases (lenZ (strip w) - lenZ PKCS8_END) (lenZ PKCS8_BEGIN)) as [Hl|Hl].
    { eapply cut_pem_labels; [right; reflexivity| |exact Hsp]. apply labels_overlap_8; assumption. }
    destruct (framed_slice _ _ _ Ea Eb ltac:(lia)) as [body Hs]. rewrite Hs in H. cbn [rbind] in H.
    pose proof (frame_inv _ _ _ _ Ea Eb Hs) as Hf.
    destruct (b64_decode body) as [der|] eqn:Hd; [|discriminate].
    apply (b64_inv (length body)) in Hd; [|lia]. destruct Hd as [Hd Hod].
    apply pkcs8_panic in H; [|assumption]. eapply cut_pem_8; [exact Hod|exact Hd|exact H|].
    rewrite begin8_text, end8_text, <- Hf. exact Hsp.
Qed.

Definition panics (r : res crypt_error public_key) : bool := match r with Panic => true | _ => false end.

Lemma shared_panics : forallb (fun k => panics (try_from_pem (shared_text "RSAPUBLICKEY" k)) && panics (try_from_pem (shared_text "PUBLICKEY" k))
  && forallb (fun b => negb (pem_space b)) (shared_text "RSAPUBLICKEY" k) && forallb (fun b => negb (pem_space b)) (shared_text "PUBLICKEY" k))
  (seq 5 5) = true.
Proof. vm_compute. reflexivity. Qed.

(** Only the text without its white space counts. *)
Lemma try_strip : forall w l, strip w = l -> strip l = l -> try_from_pem w = try_from_pem l.
Proof. intros w l H1 H2. unfold try_from_pem. rewrite H1, H2. reflexivity. Qed.

Lemma strip_id : forall l, Forall (fun b => pem_space b = false) l -> strip l = l.
Proof. induction 1 as [|b l Hb Hl IH]; [reflexivity|]. cbn [filter]. rewrite Hb. cbn [negb]. rewrite IH. reflexivity. Qed.

Lemma pem_panic_2 : forall w, cut_pem w -> try_from_pem w = Panic.
Proof.
  intros w H. destruct H as [name l Hn (k & Hk & ->) Hsp|der b64 Ho Hb Hk Hsp|der b64 Ho Hb Hk Hsp].
  - change (ascii_text (append "-----BEGIN" name) ++ repeat 45 k ++ ascii_text (append "END" (append name "-----")))
      with (shared_text name k) in Hsp.
    pose proof shared_panics as Ht. rewrite forallb_forall in Ht. specialize (Ht k). rewrite in_seq in Ht. specialize (Ht ltac:(lia)).
    rewrite !andb_true_iff in Ht. destruct Ht as [[[P1 P8] C1] C8].
    assert (X : panics (try_from_pem (shared_text name k)) = true /\ Forall (fun b => pem_space b = false) (shared_text name k)).
    { destruct Hn as [-> | ->]; split; try assumption; apply clean_const; assumption. }
    destruct X as [Xp Xc]. rewrite (try_strip w (shared_text name k)).
    + destruct (try_from_pem (shared_text name k)); [discriminate|discriminate|reflexivity].
    + apply strip_spaced; assumption.
    + apply strip_id; assumption.
  - destruct (b64_ok _ _ Hb Ho) as [Hdec Hns]. rewrite begin1_text, end1_text in Hsp.
    assert (Hs : strip w = PKCS1_BEGIN ++ b64 ++ PKCS1_END).
    { apply strip_spaced; [exact Hsp|]. rewrite !Forall_app. split; [apply clean_const; reflexivity|].
      split; [exact Hns|apply clean_const; reflexivity]. }
    unfold try_from_pem. rewrite Hs. cbv zeta.
    rewrite starts_with_app. rewrite app_assoc, ends_with_app, <- app_assoc. cbn [andb].
    rewrite slice_middle by reflexivity. unfold rmap. cbn [rbind]. rewrite Hdec. apply pkcs1_panic; assumption.
  - destruct (b64_ok _ _ Hb Ho) as [Hdec Hns]. rewrite begin8_text, end8_text in Hsp.
    assert (Hs : strip w = PKCS8_BEGIN ++ b64 ++ PKCS8_END).
    { apply strip_spaced; [exact Hsp|]. rewrite !Forall_app. split; [apply clean_const; reflexivity|].
      split; [exact Hns|apply clean_const; reflexivity]. }
    unfold try_from_pem. rewrite Hs. cbv zeta.
    assert (Hno : starts_with (PKCS8_BEGIN ++ b64 ++ PKCS8_END) PKCS1_BEGIN = false) by reflexivity.
    rewrite Hno. cbn [andb].
    rewrite starts_with_app. rewrite app_assoc, ends_with_app, <- app_assoc. cbn [andb].
    rewrite slice_middle by reflexivity. unfold rmap. cbn [rbind]. rewrite Hdec. apply pkcs8_panic; assumption.
Qed.

Lemma pem_panic : forall w, octets w -> try_from_pem w = Panic <-> cut_pem w.
Proof. intros w Ho. split; [apply pem_panic_1; exact Ho|apply pem_panic_2]. Qed.

(** Whatever is refused is refused as an invalid file. *)
Lemma slice_err : forall s a b x, slice s a b <> Err x.
Proof. intros s a b x. unfold slice. destruct ((a <=? b) && (b <=? lenZ s)); discriminate. Qed.

Lemma at_err : forall s i x, at_ s i <> Err x.
Proof. intros s i x. unfold at_. destruct (index_opt s i); discriminate. Qed.

Ltac err_step H :=
  match type of H with
  | rbind (rbind ?a ?f) ?g = Err _ => idtac
  | rbind ?a ?f = Err _ => let E := fresh "E" in destruct a as [?v|?x|] eqn:E; cbn [rbind] in H; try discriminate
  | (let '(_, _) := ?p in _) = Err _ => destruct p
  | (if ?b then _ else _) = Err _ => destruct b
  end.

Lemma eat_len_err : forall s x, eat_len s = Err x -> x = InvalidPem.
Proof.
  intros s x H. unfold eat_len in H. repeat err_step H; try congruence;
    exfalso; first [eapply at_err; eassumption | eapply slice_err; eassumption].
Qed.

Lemma eat_tag_err : forall tag s x, eat_tag tag s = Err x -> x = InvalidPem.
Proof.
  intros tag s x H. unfold eat_tag in H. repeat err_step H; try congruence;
    try (exfalso; first [eapply at_err; eassumption | eapply slice_err; eassumption]).
  eapply eat_len_err; eassumption.
Qed.

Lemma eat_sequence_err : forall s x, eat_sequence s = Err x -> x = InvalidPem.
Proof.
  intros s x H. unfold eat_sequence in H. repeat err_step H; try congruence;
    try (exfalso; eapply slice_err; eassumption). injection H as <-. eapply eat_tag_err; eassumption.
Qed.

Lemma der_uint_err : forall s x, der_eat_uint s = Err x -> x = InvalidPem.
Proof.
  intros s x H. unfold der_eat_uint in H. repeat err_step H; try congruence;
    try (exfalso; eapply slice_err; eassumption). injection H as <-. eapply eat_tag_err; eassumption.
Qed.

Lemma eat_bit_string_err : forall s x, eat_bit_string s = Err x -> x = InvalidPem.
Proof.
  intros s x H. unfold eat_bit_string in H. repeat err_step H; try congruence;
    try (exfalso; first [eapply at_err; eassumption | eapply slice_err; eassumption]). injection H as <-. eapply eat_tag_err; eassumption.
Qed.

Lemma pkcs1_err : forall s x, try_from_pkcs1 s = Err x -> x = InvalidPem.
Proof.
  intros s x H. unfold try_from_pkcs1 in H. repeat err_step H; try congruence; injection H as <-;
    first [eapply eat_sequence_err; eassumption | eapply der_uint_err; eassumption].
Qed.

Lemma pkcs8_err : forall s x, try_from_pkcs8 s = Err x -> x = InvalidPem.
Proof.
  intros s x H. unfold try_from_pkcs8 in H. repeat err_step H; try congruence; try (injection H as <-);
    first [eapply eat_sequence_err; eassumption | eapply eat_bit_string_err; eassumption | eapply pkcs1_err; eassumption].
Qed.

Lemma pem_err : forall w x, try_from_pem w = Err x -> x = InvalidPem.
Proof.
  intros w x H. unfold try_from_pem, rmap in H. cbv zeta in H.
  destruct (starts_with (strip w) PKCS1_BEGIN && ends_with (strip w) PKCS1_END).
  - destruct (slice (strip w) (lenZ PKCS1_BEGIN) (lenZ (strip w) - lenZ PKCS1_END)) eqn:E; cbn [rbind] in H; try discriminate;
      [|exfalso; eapply slice_err; eassumption].
    destruct (b64_decode a); [eapply pkcs1_err; eassumption|congruence].
  - destruct (starts_with (strip w) PKCS8_BEGIN && ends_with (strip w) PKCS8_END); [|cbn [rbind] in H; congruence].
    destruct (slice (strip w) (lenZ PKCS8_BEGIN) (lenZ (strip w) - lenZ PKCS8_END)) eqn:E; cbn [rbind] in H; try discriminate;
      [|exfalso; eapply slice_err; eassumption].
    destruct (b64_decode a); [eapply pkcs8_err; eassumption|congruence].
Qed.
