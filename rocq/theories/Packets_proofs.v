(** Lemmas about server packets. *)
From Coq Require Import String ZArith List Bool Lia.
From Verif Require Import Base BaseFacts Types Utf8 ParseBuf Spec_Wire ParseBuf_proofs Rows_proofs
  Conversion Spec_Conv Conversion_proofs Packets Spec_Packets.
Import ListNotations.
Open Scope Z_scope.
Open Scope parse_scope.

(** ** Flags *)
Lemma has_flag_bit : forall x i, 0 <= i -> has_flag x (2 ^ i) = Z.testbit x i.
Proof.
  intros x i Hi. unfold has_flag. destruct (Z.testbit x i) eqn:E.
  - apply Z.eqb_eq. apply Z.bits_inj'. intros n Hn. rewrite Z.land_spec, Z.pow2_bits_eqb by lia.
    destruct (Z.eqb_spec i n); [subst; now rewrite E | apply andb_false_r].
  - apply Z.eqb_neq. intros F. apply (f_equal (fun z => Z.testbit z i)) in F.
    rewrite Z.land_spec, Z.pow2_bits_eqb, Z.eqb_refl, E in F by lia. discriminate.
Qed.

Lemma session_track_flag : forall x, has_flag x CAP_SESSION_TRACK = Z.testbit x SESSION_TRACK_BIT.
Proof. intros. change CAP_SESSION_TRACK with (2 ^ 23). now apply has_flag_bit. Qed.
Lemma protocol_41_flag : forall x, has_flag x CAP_PROTOCOL_41 = Z.testbit x PROTOCOL_41_BIT.
Proof. intros. change CAP_PROTOCOL_41 with (2 ^ 9). now apply has_flag_bit. Qed.
Lemma progress_flag : forall x, has_flag x CAP_PROGRESS_OBSOLETE = Z.testbit x PROGRESS_BIT.
Proof. intros. change CAP_PROGRESS_OBSOLETE with (2 ^ 29). now apply has_flag_bit. Qed.
Lemma changed_flag : forall x, has_flag x STATUS_SESSION_STATE_CHANGED = Z.testbit x SESSION_STATE_CHANGED_BIT.
Proof. intros. change STATUS_SESSION_STATE_CHANGED with (2 ^ 14). now apply has_flag_bit. Qed.

Lemma status_truncate_bit : forall x i, 0 <= x < 65536 ->
  Z.testbit (status_truncate x) i = Z.testbit x i && negb (i =? 2).
Proof.
  intros x i Hx. unfold status_truncate. rewrite Z.land_spec.
  destruct (Z.ltb_spec i 0).
  { rewrite !Z.testbit_neg_r by lia. reflexivity. }
  destruct (Z.ltb_spec i 16).
  - f_equal. assert (C : i = 0 \/ i = 1 \/ i = 2 \/ i = 3 \/ i = 4 \/ i = 5 \/ i = 6 \/ i = 7 \/ i = 8 \/ i = 9
      \/ i = 10 \/ i = 11 \/ i = 12 \/ i = 13 \/ i = 14 \/ i = 15) by lia.
    repeat (destruct C as [->|C]; [reflexivity|]). subst. reflexivity.
  - assert (Z.testbit x i = false).
    { destruct (Z.eqb_spec x 0); [subst; apply Z.bits_0|].
      apply Z.bits_above_log2; [lia|]. apply Z.log2_lt_pow2; [lia|].
      apply Z.lt_le_trans with (2 ^ 16); [lia|]. apply Z.pow_le_mono_r; lia. }
    rewrite H1. reflexivity.
Qed.

Lemma status_truncate_known : forall x, known_status x -> status_truncate x = x.
Proof.
  intros x (Hx & Hn). apply Z.bits_inj. intros i. rewrite status_truncate_bit by assumption.
  destruct (Z.eqb_spec i 2); [|apply andb_true_r].
  subst. unfold flag_set in Hn. destruct (Z.testbit x 2); [congruence | reflexivity].
Qed.

(** ** Reading the elements of a layout *)
Lemma wire_len : forall k n, lenZ (wire_uint k n) = Z.of_nat k.
Proof. intros. rewrite wire_uint_le. apply lenZ_le_bytes. Qed.

Lemma eat_wire : forall k n r, 0 <= n < 256 ^ Z.of_nat k -> eat_uint k (wire_uint k n ++ r) = (Ok n, r).
Proof. intros k n r H. rewrite wire_uint_le. now apply eat_uint_app. Qed.
Lemma ceat_wire : forall k n r, 0 <= n < 256 ^ Z.of_nat k -> checked_eat_uint k (wire_uint k n ++ r) = (Ok n, r).
Proof. intros k n r H. rewrite wire_uint_le. now apply checked_eat_uint_app. Qed.
Lemma check_len_ok : forall n b, n <= lenZ b -> check_len n b = (Ok tt, b).
Proof. intros n b H. unfold check_len. now replace (lenZ b <? n) with false by lia. Qed.
Lemma skip_cons : forall x r, skip 1 (x :: r) = (Ok tt, r).
Proof.
  intros x r. unfold skip. pose proof (lenZ_nonneg _ r). rewrite lenZ_cons, Z.min_l by lia.
  change (x :: r) with ([x] ++ r). rewrite dropZ_app_exact; reflexivity.
Qed.

Lemma from_utf8_text : forall s b, utf8_text s b -> utf8_decode b = Some s.
Proof. intros s b H. apply utf8_text_iff in H. destruct H as (A & <-). now apply utf8_roundtrip. Qed.
Lemma utf8_text_ok : forall s b, utf8_text s b -> bytes_ok b.
Proof. intros s b H. apply utf8_text_iff in H. destruct H as (A & <-). now apply utf8_encode_ok. Qed.

Lemma lenenc_text_read : forall s w r, lenenc_text s w -> checked_eat_lenenc_str (w ++ r) = (Ok s, r).
Proof.
  intros s w r (b & l & Hs & Hl & ->). unfold checked_eat_lenenc_str, checked_eat_lenenc_slice.
  rewrite <- app_assoc.
  erewrite pbind_ok.
  2:{ erewrite pbind_ok by (apply checked_eat_lenenc_int_spec; exact Hl). apply checked_eat_app. reflexivity. }
  unfold plift, from_utf8. now rewrite (from_utf8_text _ _ Hs).
Qed.

Lemma u8_text_read : forall s w r, u8_text s w -> checked_eat_u8_str (w ++ r) = (Ok s, r).
Proof.
  intros s w r (b & Hs & Hl & ->). unfold checked_eat_u8_str, checked_eat_u8_slice. cbn [app].
  erewrite pbind_ok.
  2:{ erewrite pbind_ok by (apply checked_eat_u8_cons). apply checked_eat_app. reflexivity. }
  unfold plift, from_utf8. now rewrite (from_utf8_text _ _ Hs).
Qed.

Lemma optional_str_read : forall s w r, lenenc_text s w -> optional_str (w ++ r) = (Ok (nonempty s), r).
Proof.
  intros s w r H. unfold optional_str. rewrite (lenenc_text_read s w r H). destruct s; reflexivity.
Qed.
Lemma optional_str_nil : optional_str [] = (Ok None, []).
Proof. reflexivity. Qed.

(** ** OK packets *)
Lemma ok_tail_read : forall caps rows id status warnings msg st c f changed,
  0 <= warnings < 65536 -> changed = Z.testbit status SESSION_STATE_CHANGED_BIT -> f <> InfoEof ->
  ok_info (Z.testbit caps SESSION_TRACK_BIT) changed f msg st c ->
  fst (ok_tail caps rows id status (wire_uint 2 warnings ++ c)) =
  Ok (mkOk rows id status warnings (nonempty msg) (nonempty st)).
Proof.
  intros caps rows id status warnings msg st c f changed Hw Hc Hf H.
  unfold ok_tail. erewrite pbind_ok by (apply ceat_wire; exact Hw).
  rewrite session_track_flag, changed_flag, <- Hc.
  destruct H as [|msg w Htc Hm|msg st w1 w2 Htc Hm Hs|msg w Hm]; [| | |congruence].
  - erewrite pbind_ok by (apply optional_str_nil).
    destruct (_ && _); [erewrite pbind_ok by (apply optional_str_nil)|]; reflexivity.
  - rewrite <- (app_nil_r w). erewrite pbind_ok by (apply optional_str_read; exact Hm).
    rewrite Htc. reflexivity.
  - erewrite pbind_ok by (apply optional_str_read; exact Hm). rewrite Htc.
    rewrite <- (app_nil_r w2). erewrite pbind_ok by (apply optional_str_read; exact Hs). reflexivity.
Qed.

Lemma read_ok_layout : forall caps f rows id status warnings msg st pkt, f <> InfoEof ->
  ok_layout (Z.testbit caps SESSION_TRACK_BIT) f rows id status warnings msg st pkt ->
  read_ok pkt caps = Ok (mkOk rows id (status_truncate status) warnings (nonempty msg) (nonempty st)).
Proof.
  intros caps f rows id status warnings msg st pkt Hf (w & (a & b & c & Ha & Hb & Hs & Hw & Hi & ->) & ->).
  unfold read_ok, read_ok_p.
  erewrite pbind_ok by (apply checked_eat_u8_cons). change (0 =? 0) with true. cbn [negb].
  erewrite pbind_ok by (apply checked_eat_lenenc_int_spec; exact Ha).
  erewrite pbind_ok by (apply checked_eat_lenenc_int_spec; exact Hb).
  erewrite pbind_ok by (apply ceat_wire; exact Hs).
  eapply ok_tail_read; [exact Hw | | exact Hf | exact Hi].
  rewrite status_truncate_bit by assumption. change (SESSION_STATE_CHANGED_BIT =? 2) with false.
  now rewrite andb_true_r.
Qed.

Lemma np_plift_string : forall b, no_panic (plift (string_from_utf8 b)).
Proof. intros b b'. unfold plift, string_from_utf8. destruct (utf8_decode b); discriminate. Qed.
Lemma np_optional_str : no_panic optional_str.
Proof.
  intros b. unfold optional_str. pose proof (np_checked_eat_lenenc_str b).
  destruct (checked_eat_lenenc_str b) as [[[|]|e|] b']; cbn in *; congruence.
Qed.
Lemma np_ignore : no_panic ignore_lenenc_int.
Proof.
  intros b. unfold ignore_lenenc_int. pose proof (np_checked_eat_lenenc_int b).
  destruct (checked_eat_lenenc_int b) as [[|e|] b']; cbn in *; congruence.
Qed.
Lemma np_ok_tail : forall caps r i s, no_panic (ok_tail caps r i s).
Proof.
  intros. unfold ok_tail. apply np_bind; [apply np_checked_eat_uint|]. intros w.
  apply np_bind; [apply np_optional_str|]. intros m. destruct (_ && _); [|apply np_ret].
  apply np_bind; [apply np_optional_str|]. intros. apply np_ret.
Qed.

Lemma read_ok_np : forall pkt caps, read_ok pkt caps <> Panic.
Proof.
  intros pkt caps. unfold read_ok. revert pkt. change (no_panic (read_ok_p caps)).
  unfold read_ok_p. apply np_bind; [apply np_checked_eat_uint|]. intros h.
  destruct (negb _); [intros b; discriminate|].
  apply np_bind; [apply np_checked_eat_lenenc_int|]. intros.
  apply np_bind; [apply np_checked_eat_lenenc_int|]. intros.
  apply np_bind; [apply np_checked_eat_uint|]. intros. apply np_ok_tail.
Qed.

Lemma read_eof_np : forall pkt caps, read_eof pkt caps <> Panic.
Proof.
  intros pkt caps. unfold read_eof. revert pkt. change (no_panic (read_eof_p caps)).
  unfold read_eof_p. apply np_bind; [apply np_ignore|]. intros.
  apply np_bind; [apply np_ignore|]. intros.
  apply np_bind; [apply np_checked_eat_uint|]. intros. apply np_ok_tail.
Qed.

(** A packet with another header is not an OK packet. *)
Lemma read_ok_header : forall pkt caps x, read_ok pkt caps = Ok x -> exists r, pkt = 0 :: r.
Proof.
  intros pkt caps x H. unfold read_ok, read_ok_p in H. destruct pkt as [|h r]; [discriminate|].
  rewrite (pbind_ok _ _ _ _ _ (checked_eat_u8_cons h r)) in H.
  destruct (Z.eqb_spec h 0); [subst; now exists r | discriminate].
Qed.

(** ** End of a result set *)

Lemma optional_str_1 : forall w, 0 <= w -> optional_str [w] = (Ok None, []).
Proof.
  intros w Hw. unfold optional_str.
  assert (E : exists r, checked_eat_lenenc_str [w] = (r, []) /\ (r = Ok [] \/ exists e, r = Err e)).
  { unfold checked_eat_lenenc_str, checked_eat_lenenc_slice, checked_eat_lenenc_int.
    unfold pbind at 1 2 3. rewrite checked_eat_u8_cons.
    assert (Z0 : forall n, 0 <= n -> exists r,
      (let (r0, b') := let (r0, b') := pret n [] in
         match r0 with Ok a => checked_eat a b' | Err e => (Err e, b') | Panic => (Panic, b') end in
       match r0 with Ok a => plift (from_utf8 a) b' | Err e => (Err e, b') | Panic => (Panic, b') end)
      = (r, []) /\ (r = Ok [] \/ exists e, r = Err e)).
    { intros n Hn. cbn [pret]. destruct (Z.eqb_spec n 0).
      - subst. eexists. split; [reflexivity|]. left. reflexivity.
      - unfold pret. rewrite checked_eat_short by (rewrite lenZ_nil; lia).
        eexists. split; [reflexivity|]. right. eexists. reflexivity. }
    destruct (w <=? 250); [apply Z0; lia|].
    destruct (w =? 252); [eexists; split; [reflexivity|]; right; eexists; reflexivity|].
    destruct (w =? 253); [eexists; split; [reflexivity|]; right; eexists; reflexivity|].
    destruct (w =? 254); [eexists; split; [reflexivity|]; right; eexists; reflexivity|].
    apply Z0; lia. }
  destruct E as (r & -> & [->|(e & ->)]); reflexivity.
Qed.

(** What read_eof makes of the terminator without information text: it takes the header for the
    first count and is one byte behind from there on. *)
Lemma read_eof_short : forall caps status warnings, 0 <= status < 65536 -> 0 <= warnings < 65536 ->
  read_eof (254 :: 0 :: 0 :: wire_uint 2 status ++ wire_uint 2 warnings) caps =
  Ok (mkOk 0 0 (256 * (status mod 256)) (status / 256 + 256 * (warnings mod 256)) None None).
Proof.
  intros caps status warnings Hs Hw. rewrite !wire_uint_le.
  assert (L2 : forall n, le_bytes 2 n = [n mod 256; (n / 256) mod 256]) by reflexivity.
  rewrite !L2. cbn [app].
  rewrite (Z.mod_small (status / 256)), (Z.mod_small (warnings / 256)) by lia.
  assert (S0 : 0 <= status mod 256 < 256) by lia. assert (W1 : 0 <= warnings / 256) by lia.
  set (s0 := status mod 256) in *. set (s1 := status / 256). set (w0 := warnings mod 256).
  set (w1 := warnings / 256) in *. clearbody s0 s1 w0 w1.
  unfold read_eof, read_eof_p.
  assert (I1 : ignore_lenenc_int [254; 0; 0; s0; s1; w0; w1] = (Ok tt, [0; 0; s0; s1; w0; w1])) by reflexivity.
  assert (I2 : ignore_lenenc_int [0; 0; s0; s1; w0; w1] = (Ok tt, [0; s0; s1; w0; w1])) by reflexivity.
  rewrite (pbind_ok _ _ _ _ _ I1), (pbind_ok _ _ _ _ _ I2).
  change [0; s0; s1; w0; w1] with ([0; s0] ++ [s1; w0; w1]).
  rewrite (pbind_ok _ _ _ _ _ (checked_eat_uint_val 2 [0; s0] [s1; w0; w1] eq_refl)).
  unfold ok_tail.
  change [s1; w0; w1] with ([s1; w0] ++ [w1]).
  rewrite (pbind_ok _ _ _ _ _ (checked_eat_uint_val 2 [s1; w0] [w1] eq_refl)).
  rewrite (pbind_ok _ _ _ _ _ (optional_str_1 w1 W1)).
  assert (T : status_truncate (le_val [0; s0]) = 256 * s0).
  { cbn [le_val]. replace (0 + 256 * (s0 + 256 * 0)) with (256 * s0) by lia.
    apply status_truncate_known. split; [lia|]. unfold flag_set.
    change 256 with (2 ^ 8). rewrite Z.mul_comm, Z.mul_pow2_bits_low by lia. discriminate. }
  rewrite T.
  replace (le_val [s1; w0]) with (s1 + 256 * w0) by (cbn [le_val]; lia).
  destruct (_ && _); reflexivity.
Qed.

Lemma read_old_eof_err : forall caps a b c d, read_eof [254; a; b; c; d] caps = Err peof.
Proof.
  intros caps a b c d. unfold read_eof, read_eof_p.
  assert (I1 : ignore_lenenc_int [254; a; b; c; d] = (Ok tt, [a; b; c; d])) by reflexivity.
  rewrite (pbind_ok _ _ _ _ _ I1).
  assert (I2 : exists r, ignore_lenenc_int [a; b; c; d] = (Ok tt, r) /\ lenZ r <= 3).
  { unfold ignore_lenenc_int, checked_eat_lenenc_int. rewrite (pbind_ok _ _ _ _ _ (checked_eat_u8_cons a [b; c; d])).
    destruct (a <=? 250); [eexists; split; [reflexivity | vm_compute; discriminate]|].
    destruct (a =? 252); [eexists; split; [reflexivity | vm_compute; discriminate]|].
    destruct (a =? 253); [eexists; split; [reflexivity | vm_compute; discriminate]|].
    destruct (a =? 254); eexists; (split; [reflexivity | vm_compute; discriminate]). }
  destruct I2 as (r & I2 & L). rewrite (pbind_ok _ _ _ _ _ I2).
  destruct r as [|x [|y r]]; [reflexivity | reflexivity |].
  change (x :: y :: r) with ([x; y] ++ r).
  rewrite (pbind_ok _ _ _ _ _ (checked_eat_uint_val 2 [x; y] r eq_refl)).
  unfold ok_tail. rewrite !lenZ_cons in L. unfold checked_eat_uint, pbind at 1.
  unfold pbind at 1. rewrite checked_eat_short by (cbn; lia). reflexivity.
Qed.

Lemma eof_exact : forall caps status warnings, known_status status -> 0 <= warnings < 65536 ->
  ((exists x, read_eof (254 :: 0 :: 0 :: wire_uint 2 status ++ wire_uint 2 warnings) caps = Ok x /\
     ok_status x = status /\ ok_warnings x = warnings) <-> status = 0 /\ warnings = 0).
Proof.
  intros caps status warnings (Hs & Hk) Hw. rewrite read_eof_short by assumption. split.
  - intros (x & E & A & B). injection E as <-. cbn [ok_status ok_warnings] in A, B.
    assert (status mod 256 = 0 \/ status mod 256 = status / 256) by lia.
    assert (S0 : status = 256 * (status mod 256) + 0) by lia.
    lia.
  - intros (-> & ->). eexists. split; [reflexivity|]. split; reflexivity.
Qed.

(** ** Inversion *)
Lemma pbind_inv : forall A B (m : P A) (f : A -> P B) b x b', pbind m f b = (Ok x, b') ->
  exists a b1, m b = (Ok a, b1) /\ f a b1 = (Ok x, b').
Proof.
  intros A B m f b x b' H. unfold pbind in H. destruct (m b) as [[a|e|] b1]; try discriminate.
  now exists a, b1.
Qed.

Lemma checked_eat_uint_inv : forall k b x b', checked_eat_uint k b = (Ok x, b') -> bytes_ok b ->
  b = wire_uint k x ++ b' /\ 0 <= x < 256 ^ Z.of_nat k /\ bytes_ok b'.
Proof.
  intros k b x b' H Hb. apply pbind_inv in H. destruct H as (y & b1 & H & E). injection E as <- <-.
  apply checked_eat_inv in H; [|lia]. destruct H as (-> & L). apply bytes_ok_app in Hb. destruct Hb as (Hy & Hb).
  pose proof (le_val_range y Hy). rewrite L in H. splits; try lia; [|assumption].
  rewrite wire_uint_le. replace k with (length y) by (unfold lenZ in L; lia). now rewrite le_bytes_val.
Qed.

Lemma eat_uint_inv : forall k b x b', eat_uint k b = (Ok x, b') -> bytes_ok b ->
  b = wire_uint k x ++ b' /\ 0 <= x < 256 ^ Z.of_nat k /\ bytes_ok b'.
Proof.
  intros k b x b' H Hb. apply pbind_inv in H. destruct H as (y & b1 & H & E). injection E as <- <-.
  apply eat_inv in H; [|lia]. destruct H as (-> & L). apply bytes_ok_app in Hb. destruct Hb as (Hy & Hb).
  pose proof (le_val_range y Hy). rewrite L in H. splits; try lia; [|assumption].
  rewrite wire_uint_le. replace k with (length y) by (unfold lenZ in L; lia). now rewrite le_bytes_val.
Qed.

Lemma wire_1 : forall x, 0 <= x < 256 -> wire_uint 1 x = [x].
Proof. intros x H. rewrite wire_uint_le. apply byte_le_bytes. exact H. Qed.

Lemma decode_text : forall b s, bytes_ok b -> utf8_decode b = Some s -> utf8_text s b.
Proof. intros b s Hb H. apply utf8_text_iff. now apply utf8_decode_iff. Qed.

Lemma from_utf8_inv : forall b s c c', plift (from_utf8 b) c = (Ok s, c') -> bytes_ok b -> utf8_text s b /\ c = c'.
Proof.
  intros b s c c' H Hb. unfold plift, from_utf8 in H. destruct (utf8_decode b) as [t|] eqn:E; [|discriminate].
  injection H as <- <-. split; [now apply decode_text | reflexivity].
Qed.

Lemma u8_str_inv : forall b s b', checked_eat_u8_str b = (Ok s, b') -> bytes_ok b ->
  exists w, u8_text s w /\ b = w ++ b' /\ bytes_ok b'.
Proof.
  intros b s b' H Hb. apply pbind_inv in H. destruct H as (y & b1 & H & E).
  apply pbind_inv in H. destruct H as (n & b2 & H1 & H2).
  apply checked_eat_uint_inv in H1; [|assumption]. destruct H1 as (-> & Hn & Hb2).
  change (256 ^ Z.of_nat 1) with 256 in Hn.
  apply checked_eat_inv in H2; [|lia]. destruct H2 as (-> & L). apply bytes_ok_app in Hb2.
  destruct Hb2 as (Hy & Hb1). apply from_utf8_inv in E; [|assumption]. destruct E as (T & <-).
  exists (n :: y). rewrite wire_1 by lia. splits; [| reflexivity | assumption].
  exists y. unfold lenZ in L. rewrite L. splits; [assumption | lia | reflexivity].
Qed.

(** ** ERR packets *)
Lemma wire_2_ok : forall n, lenZ (wire_uint 2 n) = 2.
Proof. intros. apply wire_len. Qed.

Lemma read_err_layout : forall caps e pkt,
  err_layout (Z.testbit caps PROTOCOL_41_BIT) (Z.testbit caps PROGRESS_BIT) e pkt -> read_err pkt caps = Ok e.
Proof.
  intros caps e pkt H. unfold read_err, read_err_p.
  assert (Code : forall code, ~ (code = 65535 /\ Z.testbit caps PROGRESS_BIT = true) ->
    (code =? 65535) && has_flag caps CAP_PROGRESS_OBSOLETE = false).
  { intros code N. rewrite progress_flag. destruct (Z.eqb_spec code 65535); [|reflexivity].
    destruct (Z.testbit caps PROGRESS_BIT); [tauto | reflexivity]. }
  destruct H as [code st t m msg Hp Hc Hn Hl Ht Hm | code m msg Hp Hc Hn Hm | n stage mx prog info l rest Hp Hs Hx Hg Hl].
  - erewrite pbind_ok.
    2:{ apply check_len_ok. rewrite lenZ_cons, lenZ_app, wire_2_ok. pose proof (lenZ_nonneg _ ([35] ++ st ++ m)). lia. }
    erewrite pbind_ok by (apply eat_u8_cons). change (255 =? 255) with true. cbn [negb].
    erewrite pbind_ok by (apply eat_wire; exact Hc).
    rewrite Code by assumption. rewrite protocol_41_flag, Hp. unfold error_packet. cbn [app].
    erewrite pbind_ok.
    2:{ erewrite pbind_ok by (apply checked_eat_u8_cons). change (35 =? 35) with true. cbn [negb].
        erewrite pbind_ok by (apply checked_eat_app; unfold lenZ; rewrite Hl; reflexivity).
        unfold plift at 1. unfold from_utf8. rewrite (from_utf8_text _ _ Ht). reflexivity. }
    erewrite pbind_ok by reflexivity. unfold plift, string_from_utf8. rewrite (from_utf8_text _ _ Hm). reflexivity.
  - erewrite pbind_ok.
    2:{ apply check_len_ok. rewrite lenZ_cons, lenZ_app, wire_2_ok. pose proof (lenZ_nonneg _ m). lia. }
    erewrite pbind_ok by (apply eat_u8_cons). change (255 =? 255) with true. cbn [negb].
    erewrite pbind_ok by (apply eat_wire; exact Hc).
    rewrite Code by assumption. rewrite protocol_41_flag, Hp. unfold error_packet.
    erewrite pbind_ok by reflexivity.
    erewrite pbind_ok by reflexivity. unfold plift, string_from_utf8. rewrite (from_utf8_text _ _ Hm). reflexivity.
  - pose proof (lenZ_nonneg _ (wire_uint 3 prog ++ l ++ info ++ rest)).
    cbn [app]. erewrite pbind_ok by (apply check_len_ok; rewrite !lenZ_cons; lia).
    erewrite pbind_ok by (apply eat_u8_cons). change (255 =? 255) with true. cbn [negb].
    change (255 :: 255 :: n :: stage :: mx :: wire_uint 3 prog ++ l ++ info ++ rest)
      with ([255; 255] ++ n :: stage :: mx :: wire_uint 3 prog ++ l ++ info ++ rest).
    erewrite pbind_ok by (apply eat_uint_val; reflexivity).
    change (le_val [255; 255] =? 65535) with true. rewrite progress_flag, Hp. cbn [andb].
    unfold progress_packet.
    erewrite pbind_ok.
    2:{ apply check_len_ok. rewrite !lenZ_cons, lenZ_app, wire_len. pose proof (lenZ_nonneg _ (l ++ info ++ rest)). lia. }
    erewrite pbind_ok by (apply skip_cons). erewrite pbind_ok by (apply eat_u8_cons).
    erewrite pbind_ok by (apply eat_u8_cons). erewrite pbind_ok by (apply eat_wire; exact Hg).
    erewrite pbind_ok.
    2:{ unfold checked_eat_lenenc_slice. erewrite pbind_ok by (apply checked_eat_lenenc_int_spec; exact Hl).
        apply checked_eat_app. reflexivity. }
    reflexivity.
Qed.

Lemma read_err_inv : forall caps pkt code state msg, bytes_ok pkt ->
  read_err pkt caps = Ok (ErrError code state msg) ->
  err_layout (Z.testbit caps PROTOCOL_41_BIT) (Z.testbit caps PROGRESS_BIT) (ErrError code state msg) pkt.
Proof.
  intros caps pkt code state msg Hb H. unfold read_err in H.
  destruct (read_err_p caps pkt) as [r rest] eqn:E. cbn [fst] in H. subst r.
  apply pbind_inv in E. destruct E as (u & b1 & E1 & E).
  unfold check_len in E1. destruct (lenZ pkt <? 3); [discriminate|]. injection E1 as <- <-.
  apply pbind_inv in E. destruct E as (h & b2 & E1 & E).
  apply eat_uint_inv in E1; [|assumption]. destruct E1 as (-> & Hh & Hb2).
  change (256 ^ Z.of_nat 1) with 256 in Hh. rewrite wire_1 by assumption.
  destruct (Z.eqb_spec h 255); [subst h; cbn [negb] in E | discriminate].
  apply pbind_inv in E. destruct E as (c & b3 & E1 & E).
  apply eat_uint_inv in E1; [|assumption]. destruct E1 as (-> & Hc & Hb3).
  rewrite progress_flag, protocol_41_flag in E.
  destruct ((c =? 65535) && Z.testbit caps PROGRESS_BIT) eqn:EP.
  { exfalso. apply pbind_inv in E. destruct E as (? & ? & _ & E).
    apply pbind_inv in E. destruct E as (? & ? & _ & E). apply pbind_inv in E. destruct E as (? & ? & _ & E).
    apply pbind_inv in E. destruct E as (? & ? & _ & E). apply pbind_inv in E. destruct E as (? & ? & _ & E).
    apply pbind_inv in E. destruct E as (? & ? & _ & E). discriminate. }
  assert (N : ~ (c = 65535 /\ Z.testbit caps PROGRESS_BIT = true)).
  { intros (-> & F). rewrite F in EP. discriminate. }
  unfold error_packet in E. apply pbind_inv in E. destruct E as (st & b4 & E1 & E).
  apply pbind_inv in E. destruct E as (m & b5 & E2 & E). injection E2 as <- <-.
  apply pbind_inv in E. destruct E as (t & b6 & E2 & E). injection E as <- <- <- _.
  unfold plift, string_from_utf8 in E2. destruct (utf8_decode b4) as [t'|] eqn:D; [|discriminate].
  injection E2 as <- <-.
  destruct (Z.testbit caps PROTOCOL_41_BIT) eqn:P41.
  - apply pbind_inv in E1. destruct E1 as (x & b7 & E2 & E1).
    apply checked_eat_uint_inv in E2; [|assumption]. destruct E2 as (-> & Hx & Hb7).
    change (256 ^ Z.of_nat 1) with 256 in Hx. rewrite wire_1 by assumption.
    destruct (Z.eqb_spec x 35); [subst x; cbn [negb] in E1 | discriminate].
    apply pbind_inv in E1. destruct E1 as (y & b8 & E2 & E1).
    apply checked_eat_inv in E2; [|lia]. destruct E2 as (-> & L). apply bytes_ok_app in Hb7. destruct Hb7 as (Hy & Hb8).
    apply pbind_inv in E1. destruct E1 as (z & b9 & E2 & E1). injection E1 as <- <-.
    apply from_utf8_inv in E2; [|assumption]. destruct E2 as (T & ->).
    eapply err_state; try eassumption; try reflexivity; [unfold lenZ in L; lia | now apply decode_text].
  - injection E1 as <- <-. apply err_plain; try assumption; [reflexivity | now apply decode_text].
Qed.

(** No panics: parsers that are given at least [n] bytes. *)
Definition safe {A} (m : P A) (n : Z) : Prop := forall b, n <= lenZ b -> fst (m b) <> Panic.

Lemma safe_np : forall A (m : P A) n, no_panic m -> safe m n.
Proof. intros A m n H b _. apply H. Qed.
Lemma safe_bind : forall A B (m : P A) (f : A -> P B) n k, 0 <= k -> takes m n -> (forall a, safe (f a) k) ->
  safe (pbind m f) (n + k).
Proof.
  intros A B m f n k Hk Hm Hf b H. destruct (Hm b) as (a & b' & E & L'); [lia|].
  unfold pbind. rewrite E. apply Hf. lia.
Qed.
Lemma safe_check : forall A n (m : P A), safe m n -> no_panic (pbind (check_len n) (fun _ => m)).
Proof. intros A n m H b. apply check_then. apply H. Qed.
Lemma takes_skip : takes (skip 1) 1.
Proof.
  intros b H. destruct b as [|x r]; [rewrite lenZ_nil in H; lia|]. rewrite skip_cons.
  exists tt, r. rewrite lenZ_cons. split; [reflexivity | lia].
Qed.
Lemma safe_le : forall A (m : P A) n k, safe m n -> n <= k -> safe m k.
Proof. intros A m n k H L b Hb. apply H. lia. Qed.

Lemma np_error_packet : forall c p, no_panic (error_packet c p).
Proof.
  intros c p. unfold error_packet. apply np_bind.
  - destruct p; [|apply np_ret]. apply np_bind; [apply np_checked_eat_uint|]. intros h.
    destruct (negb _); [intros b; discriminate|]. apply np_bind; [apply np_checked_eat|]. intros.
    apply np_bind; [apply np_from_utf8 | intros; apply np_ret].
  - intros st. apply np_bind; [apply np_eat_all|]. intros. apply np_bind; [apply np_plift_string | intros; apply np_ret].
Qed.

Lemma np_progress_packet : no_panic progress_packet.
Proof.
  unfold progress_packet. apply safe_check. apply (safe_bind _ _ _ _ 1 5); [lia | apply takes_skip|]. intros _.
  apply (safe_bind _ _ _ _ 1 4); [lia | apply takes_eat|]. intros stage.
  apply (safe_bind _ _ _ _ 1 3); [lia | apply takes_eat|]. intros mx.
  apply (safe_bind _ _ _ _ 3 0); [lia | apply takes_eat|]. intros pr.
  apply safe_np. apply np_bind; [apply np_checked_eat_lenenc_slice | intros; apply np_ret].
Qed.

Lemma read_err_np : forall pkt caps, read_err pkt caps <> Panic.
Proof.
  intros pkt caps. unfold read_err. revert pkt. change (no_panic (read_err_p caps)).
  unfold read_err_p. apply safe_check. apply (safe_bind _ _ _ _ 1 2); [lia | apply takes_eat|]. intros h.
  destruct (negb _); [intros b _; discriminate|].
  apply (safe_bind _ _ _ _ 2 0); [lia | apply takes_eat|]. intros c. apply safe_np.
  destruct (_ && _); [apply np_progress_packet | apply np_error_packet].
Qed.

(** ** Column definitions *)
Lemma type_code_of : forall code t, In (code, t) type_code -> column_type_of code = Some t /\ 0 <= code < 256.
Proof.
  intros code t H. unfold type_code in H. cbn [In] in H.
  repeat (destruct H as [H|H]; [injection H as <- <-; split; [reflexivity | lia]|]). contradiction.
Qed.

Lemma type_code_in : forall code t, column_type_of code = Some t -> In (code, t) type_code.
Proof.
  intros code t H. assert (C : code = column_type_code t).
  { unfold column_type_of in H.
    destruct code as [|p|p]; [injection H as <-; reflexivity | | discriminate].
    do 8 (destruct p as [p|p|]; try discriminate H; try (injection H as <-; reflexivity)). }
  subst code. destruct t; cbn; tauto.
Qed.

Lemma read_column_by : forall (text : list Z -> list Z -> Prop) c pkt,
  (forall s w r, text s w -> checked_eat_u8_str (w ++ r) = (Ok s, r)) ->
  column_layout_by text c pkt -> read_column pkt = Ok c.
Proof.
  intros text c pkt HT (db & wdb & wt & wot & wn & won & charset & len & code & decimals & filler &
    Hdb & Ht & Hot & Hn & Hon & Hcs & Hlen & Hcode & Hfl & Hdec & Hfill & ->).
  apply type_code_of in Hcode. destruct Hcode as (Hcode & _).
  unfold read_column.
  assert (E : exists cd, fst (column_def_p ([3; 100; 101; 102] ++ wdb ++ wt ++ wot ++ wn ++ won ++
          [12] ++ wire_uint 2 charset ++ wire_uint 4 len ++ [code] ++ wire_uint 2 (col_flags c) ++
          [decimals] ++ filler)) = Ok cd /\ column_of cd = c).
  { unfold column_def_p. cbn [app].
    erewrite pbind_ok.
    2:{ unfold checked_eat_u8_slice. erewrite pbind_ok by (apply checked_eat_u8_cons).
        match goal with |- checked_eat 3 (100 :: 101 :: 102 :: ?r) = _ => apply (checked_eat_app 3 [100; 101; 102] r) end.
        reflexivity. }
    change (list_eqb [100; 101; 102] (s2l "def"%string)) with true. cbn [negb].
    erewrite pbind_ok by (apply HT; exact Hdb). erewrite pbind_ok by (apply HT; exact Ht).
    erewrite pbind_ok by (apply HT; exact Hot). erewrite pbind_ok by (apply HT; exact Hn).
    erewrite pbind_ok by (apply HT; exact Hon).
    erewrite pbind_ok.
    2:{ apply check_len_ok. rewrite !lenZ_cons, !lenZ_app, !wire_len, !lenZ_cons, !lenZ_app, !wire_len, lenZ_cons.
        assert (2 <= lenZ filler) by (unfold lenZ; lia). lia. }
    erewrite pbind_ok by (apply eat_u8_cons). change (12 =? 12) with true. cbn [negb].
    erewrite pbind_ok by (apply eat_wire; exact Hcs). erewrite pbind_ok by (apply eat_wire; exact Hlen).
    erewrite pbind_ok by (apply eat_u8_cons). unfold column_type_p. rewrite Hcode.
    erewrite pbind_ok by reflexivity. erewrite pbind_ok by (apply eat_wire; exact Hfl).
    erewrite pbind_ok by (apply eat_u8_cons). erewrite pbind_ok by reflexivity.
    eexists. split; [reflexivity|]. unfold column_of. cbn. destruct c; reflexivity. }
  destruct E as (cd & E & F). rewrite E. unfold rmap, rbind. now rewrite F.
Qed.

Lemma short_is_u8 : forall s w, short_name_text s w -> u8_text s w.
Proof.
  intros s w ((b & Hb & ->) & L). exists b. splits; [assumption | |].
  - unfold wire_lenenc_str in L. rewrite app_length in L. lia.
  - unfold wire_lenenc_str, wire_lenenc in *. rewrite app_length in L.
    destruct (Z.leb_spec (Z.of_nat (length b)) 250); [reflexivity|].
    exfalso. repeat match type of L with context [if ?c then _ else _] => destruct c end; cbn [length] in L; lia.
Qed.

Lemma u8_is_short : forall s w, u8_text s w -> Z.of_nat (length w) <= 251 -> short_name_text s w.
Proof.
  intros s w (b & Hb & Hl & ->) L. split; [|assumption]. exists b. split; [assumption|].
  cbn [length] in L. unfold wire_lenenc_str, wire_lenenc.
  destruct (Z.leb_spec (Z.of_nat (length b)) 250); [reflexivity | lia].
Qed.

Lemma read_column_short : forall c pkt, column_layout_by short_name_text c pkt -> read_column pkt = Ok c.
Proof.
  intros c pkt. apply read_column_by. intros s w r H. apply u8_text_read. now apply short_is_u8.
Qed.

Lemma check_len_inv : forall n b u b', check_len n b = (Ok u, b') -> b' = b /\ n <= lenZ b.
Proof.
  intros n b u b' H. unfold check_len in H. destruct (lenZ b <? n) eqn:E; [discriminate|].
  injection H as _ <-. split; [reflexivity | lia].
Qed.

(** The decoder accepts exactly the layout with one-byte name lengths. *)
Lemma read_column_iff : forall c pkt, bytes_ok pkt ->
  (read_column pkt = Ok c <-> column_layout_by u8_text c pkt).
Proof.
  intros c pkt Hb. split; [|apply read_column_by; intros; now apply u8_text_read].
  intros H. unfold read_column in H. destruct (column_def_p pkt) as [r rest] eqn:E. cbn [fst] in H.
  destruct r as [d|e|]; [|discriminate|discriminate]. injection H as <-.
  apply pbind_inv in E. destruct E as (cat & b1 & E1 & E).
  apply pbind_inv in E1. destruct E1 as (n & b2 & E1 & E2).
  apply checked_eat_uint_inv in E1; [|assumption]. destruct E1 as (-> & Hn & Hb2).
  change (256 ^ Z.of_nat 1) with 256 in Hn. rewrite wire_1 by assumption.
  apply checked_eat_inv in E2; [|lia]. destruct E2 as (-> & L). apply bytes_ok_app in Hb2. destruct Hb2 as (_ & Hb1).
  destruct (list_eqb cat (s2l "def"%string)) eqn:Ec; [cbn [negb] in E | discriminate].
  apply list_eqb_eq in Ec. subst cat. change (s2l "def"%string) with [100; 101; 102] in *.
  assert (n = 3) as -> by (rewrite <- L; reflexivity). clear L Hn Hb.
  apply pbind_inv in E. destruct E as (db & b3 & E1 & E). apply u8_str_inv in E1; [|assumption].
  destruct E1 as (wdb & Tdb & -> & Hb3).
  apply pbind_inv in E. destruct E as (tb & b4 & E1 & E). apply u8_str_inv in E1; [|assumption].
  destruct E1 as (wt & Tt & -> & Hb4).
  apply pbind_inv in E. destruct E as (otb & b5 & E1 & E). apply u8_str_inv in E1; [|assumption].
  destruct E1 as (wot & Tot & -> & Hb5).
  apply pbind_inv in E. destruct E as (nm & b6 & E1 & E). apply u8_str_inv in E1; [|assumption].
  destruct E1 as (wn & Tn & -> & Hb6).
  apply pbind_inv in E. destruct E as (onm & b7 & E1 & E). apply u8_str_inv in E1; [|assumption].
  destruct E1 as (won & Ton & -> & Hb7).
  apply pbind_inv in E. destruct E as (u & b8 & E1 & E). apply check_len_inv in E1. destruct E1 as (-> & L13).
  apply pbind_inv in E. destruct E as (tw & b9 & E1 & E). apply eat_uint_inv in E1; [|assumption].
  destruct E1 as (-> & Htw & Hb9). change (256 ^ Z.of_nat 1) with 256 in Htw. rewrite wire_1 in * by assumption.
  destruct (Z.eqb_spec tw 12); [subst tw; cbn [negb] in E | discriminate].
  apply pbind_inv in E. destruct E as (cs & b10 & E1 & E). apply eat_uint_inv in E1; [|assumption].
  destruct E1 as (-> & Hcs & Hb10).
  apply pbind_inv in E. destruct E as (ln & b11 & E1 & E). apply eat_uint_inv in E1; [|assumption].
  destruct E1 as (-> & Hln & Hb11).
  apply pbind_inv in E. destruct E as (tc & b12 & E1 & E). apply eat_uint_inv in E1; [|assumption].
  destruct E1 as (-> & Htc & Hb12). change (256 ^ Z.of_nat 1) with 256 in Htc. rewrite (wire_1 tc) in * by assumption.
  apply pbind_inv in E. destruct E as (ty & b13 & E1 & E). unfold column_type_p in E1.
  destruct (column_type_of tc) as [ty'|] eqn:Ety; [|discriminate]. injection E1 as <- <-.
  apply pbind_inv in E. destruct E as (fl & b14 & E1 & E). apply eat_uint_inv in E1; [|assumption].
  destruct E1 as (-> & Hfl & Hb14).
  apply pbind_inv in E. destruct E as (dc & b15 & E1 & E). apply eat_uint_inv in E1; [|assumption].
  destruct E1 as (-> & Hdc & Hb15). change (256 ^ Z.of_nat 1) with 256 in Hdc. rewrite (wire_1 dc) in * by assumption.
  apply pbind_inv in E. destruct E as (u' & b16 & E1 & E). injection E as <- _.
  rewrite !lenZ_app, !wire_len, !lenZ_cons, !lenZ_nil in L13. unfold column_of, column_layout_by.
  cbn [cd_table cd_org_table cd_name cd_org_name cd_type cd_flags col_table col_org_table col_name col_org_name col_type col_flags].
  exists db, wdb, wt, wot, wn, won, cs, ln, tc, dc, b15.
  splits; try assumption; try lia.
  - now apply type_code_in.
  - unfold lenZ in L13. lia.
  - reflexivity.
Qed.

Lemma read_column_np : forall pkt, read_column pkt <> Panic.
Proof.
  intros pkt. unfold read_column. assert (N : no_panic column_def_p).
  { unfold column_def_p. apply np_bind; [apply np_checked_eat_u8_slice|]. intros cat.
    destruct (negb _); [intros b; discriminate|].
    do 5 (apply np_bind; [apply np_checked_eat_u8_str|]; intros).
    apply safe_check. apply (safe_bind _ _ _ _ 1 12); [lia | apply takes_eat|]. intros n.
    destruct (negb _); [apply safe_np; apply np_err|].
    apply (safe_bind _ _ _ _ 2 10); [lia | apply takes_eat|]. intros cs.
    apply (safe_bind _ _ _ _ 4 6); [lia | apply takes_eat|]. intros ln.
    apply (safe_bind _ _ _ _ 1 5); [lia | apply takes_eat|]. intros ty.
    assert (T : forall f, (forall t, safe (f t) 5) -> safe (pbind (column_type_p ty) f : P column_def) 5).
    { intros f Hf b Hb. unfold column_type_p. destruct (column_type_of ty); [|discriminate].
      unfold pbind, pret. now apply Hf. }
    apply T. intros t.
    apply (safe_bind _ _ _ _ 2 3); [lia | apply takes_eat|]. intros fl.
    apply (safe_bind _ _ _ _ 1 2); [lia | apply takes_eat|]. intros dc.
    apply safe_np. apply np_bind; [apply np_skip | intros; apply np_ret]. }
  specialize (N pkt). destruct (fst (column_def_p pkt)); [discriminate | discriminate | contradiction].
Qed.

(** ** Prepare response *)
Lemma read_stmt_layout : forall id columns params warnings pkt, stmt_layout id columns params warnings pkt ->
  read_stmt pkt = Ok (mkStmt id columns params warnings).
Proof.
  intros id columns params warnings pkt (Hi & Hc & Hp & Hw & status & filler & rest & ->).
  unfold read_stmt, stmt_p. cbn [app].
  erewrite pbind_ok.
  2:{ apply check_len_ok. pose proof (lenZ_nonneg _ rest).
      rewrite !lenZ_cons, !lenZ_app, !wire_len, lenZ_cons, lenZ_app, wire_len. lia. }
  erewrite pbind_ok by (apply skip_cons). erewrite pbind_ok by (apply eat_wire; exact Hi).
  erewrite pbind_ok by (apply eat_wire; exact Hc). erewrite pbind_ok by (apply eat_wire; exact Hp).
  erewrite pbind_ok by (apply skip_cons). erewrite pbind_ok by (apply eat_wire; exact Hw). reflexivity.
Qed.

Lemma read_stmt_total : forall pkt, bytes_ok pkt -> 12 <= lenZ pkt ->
  exists id columns params warnings, stmt_layout id columns params warnings pkt.
Proof.
  intros pkt Hb L.
  destruct pkt as [|a0 [|a1 [|a2 [|a3 [|a4 [|a5 [|a6 [|a7 [|a8 [|a9 [|a10 [|a11 rest]]]]]]]]]]]];
    try (exfalso; rewrite ?lenZ_cons, ?lenZ_nil in L; lia).
  exists (le_val [a1; a2; a3; a4]), (le_val [a5; a6]), (le_val [a7; a8]), (le_val [a10; a11]).
  assert (B : bytes_ok [a1; a2; a3; a4] /\ bytes_ok [a5; a6] /\ bytes_ok [a7; a8] /\ bytes_ok [a10; a11]).
  { unfold bytes_ok in *. repeat match goal with H : Forall _ (_ :: _) |- _ => inversion H; subst; clear H end.
    splits; repeat (apply Forall_cons; [assumption|]); apply Forall_nil. }
  destruct B as (B1 & B2 & B3 & B4).
  pose proof (le_val_range _ B1) as R1. pose proof (le_val_range _ B2) as R2.
  pose proof (le_val_range _ B3) as R3. pose proof (le_val_range _ B4) as R4.
  change (lenZ [a1; a2; a3; a4]) with 4 in R1. change (lenZ [a5; a6]) with 2 in R2.
  change (lenZ [a7; a8]) with 2 in R3. change (lenZ [a10; a11]) with 2 in R4.
  unfold stmt_layout. splits; try lia.
  exists a0, a9, rest. rewrite !wire_uint_le.
  replace (le_bytes 4 (le_val [a1; a2; a3; a4])) with [a1; a2; a3; a4] by (symmetry; apply (le_bytes_val _ B1)).
  replace (le_bytes 2 (le_val [a5; a6])) with [a5; a6] by (symmetry; apply (le_bytes_val _ B2)).
  replace (le_bytes 2 (le_val [a7; a8])) with [a7; a8] by (symmetry; apply (le_bytes_val _ B3)).
  replace (le_bytes 2 (le_val [a10; a11])) with [a10; a11] by (symmetry; apply (le_bytes_val _ B4)).
  reflexivity.
Qed.

Lemma read_stmt_exact : forall pkt, bytes_ok pkt ->
  (forall x, read_stmt pkt = Ok x <->
     stmt_layout (st_id x) (st_columns_len x) (st_params_len x) (st_warning_count x) pkt) /\
  (lenZ pkt < 12 -> read_stmt pkt = Err peof) /\ read_stmt pkt <> Panic.
Proof.
  intros pkt Hb.
  assert (S : lenZ pkt < 12 -> read_stmt pkt = Err peof).
  { intros L. unfold read_stmt, stmt_p, pbind at 1, check_len.
    now replace (lenZ pkt <? 12) with true by lia. }
  splits; [| assumption |].
  - intros x. split.
    + intros H. destruct (Z.ltb_spec (lenZ pkt) 12) as [L|L]; [rewrite (S L) in H; discriminate|].
      destruct (read_stmt_total pkt Hb L) as (i & c & p & w & Hl).
      rewrite (read_stmt_layout _ _ _ _ _ Hl) in H. injection H as <-. exact Hl.
    + intros H. rewrite (read_stmt_layout _ _ _ _ _ H). destruct x; reflexivity.
  - destruct (Z.ltb_spec (lenZ pkt) 12) as [L|L]; [rewrite (S L); discriminate|].
    destruct (read_stmt_total pkt Hb L) as (i & c & p & w & Hl).
    rewrite (read_stmt_layout _ _ _ _ _ Hl). discriminate.
Qed.

Lemma utf8_text_ascii : forall s, Forall (fun c => 0 <= c < 128) s -> utf8_text s s.
Proof.
  induction 1 as [|c s Hc Hs IH]; [constructor|].
  change (c :: s) with ([c] ++ s) at 2. constructor; [now constructor | assumption].
Qed.

Lemma ok_exact : forall caps f rows id status warnings msg st pkt, f <> InfoEof ->
  ok_layout (Z.testbit caps SESSION_TRACK_BIT) f rows id status warnings msg st pkt ->
  exists x, read_ok pkt caps = Ok x /\
    ok_affected_rows x = rows /\ ok_last_insert_id x = id /\
    (forall i, Z.testbit (ok_status x) i = Z.testbit status i && negb (i =? 2)) /\
    (known_status status -> ok_status x = status) /\
    ok_warnings x = warnings /\ ok_message x = nonempty msg /\ ok_session_state_info x = nonempty st.
Proof.
  intros caps f rows id status warnings msg st pkt Hf H. pose proof (read_ok_layout _ _ _ _ _ _ _ _ _ Hf H) as E.
  eexists. split; [exact E|]. cbn. destruct H as (w & (a & b & c & _ & _ & Hs & _) & _).
  splits; try reflexivity.
  - intros i. now apply status_truncate_bit.
  - apply status_truncate_known.
Qed.

Lemma terminator_exact : forall caps status warnings, known_status status -> 0 <= warnings < 65536 ->
  let pkt := 254 :: 0 :: 0 :: wire_uint 2 status ++ wire_uint 2 warnings in
  terminator (Z.testbit caps SESSION_TRACK_BIT) InfoAbsent status warnings [] [] pkt /\
  read_eof pkt caps =
    Ok (mkOk 0 0 (256 * (status mod 256)) (status / 256 + 256 * (warnings mod 256)) None None) /\
  ((exists x, read_eof pkt caps = Ok x /\ ok_status x = status /\ ok_warnings x = warnings) <->
   status = 0 /\ warnings = 0).
Proof.
  intros caps status warnings Hs Hw pkt. split; [|split].
  - exists (0 :: 0 :: wire_uint 2 status ++ wire_uint 2 warnings). split; [|reflexivity].
    exists [0], [0], []. destruct Hs as (Hs & _). splits; try lia; try (constructor; lia).
  - apply read_eof_short; [apply Hs | assumption].
  - now apply eof_exact.
Qed.

Lemma old_eof_err : forall caps status warnings pkt, old_eof status warnings pkt -> read_eof pkt caps = Err peof.
Proof.
  intros caps status warnings pkt (Hs & Hw & ->). rewrite !wire_uint_le. cbn [le_bytes app]. apply read_old_eof_err.
Qed.

Lemma long_name : exists c pkt, column_layout c pkt /\ read_column pkt = Err (PParse EUtf8).
Proof.
  set (n := repeat 97 251).
  exists (mkColumn [97] n [97] [97] CLong 0).
  exists ([3; 100; 101; 102] ++ [1; 97] ++ [1; 97] ++ [1; 97] ++ (wire_lenenc_str n) ++ [1; 97] ++
          [12] ++ wire_uint 2 33 ++ wire_uint 4 11 ++ [3] ++ wire_uint 2 0 ++ [0] ++ [0; 0]).
  split; [|vm_compute; reflexivity].
  assert (A : name_text [97] [1; 97]).
  { exists [97]. split; [|reflexivity]. apply utf8_text_ascii. repeat constructor; discriminate. }
  exists [97], [1; 97], [1; 97], [1; 97], (wire_lenenc_str n), [1; 97], 33, 11, 3, 0, [0; 0].
  splits; try exact A; try lia.
  - exists n. split; [|reflexivity]. apply utf8_text_ascii. apply Forall_forall. intros x Hx.
    apply repeat_spec in Hx. lia.
  - cbn. tauto.
  - cbn [col_flags]. lia.
  - cbn [col_flags]. lia.
  - cbn [length]. lia.
  - reflexivity.
Qed.

(** Which OK packets are accepted. *)
Lemma checked_uint_iff : forall k b n r, bytes_ok b ->
  checked_eat_uint k b = (Ok n, r) <-> (0 <= n < 256 ^ Z.of_nat k /\ b = wire_uint k n ++ r).
Proof.
  intros k b n r Hb. split.
  - intros H. unfold checked_eat_uint in H. apply pbind_inv in H. destruct H as (x & b1 & Hx & H).
    injection H as <- <-. apply checked_eat_inv in Hx; [|lia]. destruct Hx as [-> Hl].
    unfold bytes_ok in Hb. apply Forall_app in Hb. destruct Hb as [Hx _]. unfold lenZ in Hl.
    pose proof (le_val_range _ Hx) as Hr. unfold lenZ in Hr. rewrite Hl in Hr. split; [exact Hr|].
    rewrite wire_uint_le. f_equal. replace k with (length x) by lia. symmetry. apply le_bytes_val. exact Hx.
  - intros [Hn ->]. rewrite wire_uint_le. apply checked_eat_uint_app. exact Hn.
Qed.

Lemma checked_int_iff : forall b n r, bytes_ok b ->
  checked_eat_lenenc_int b = (Ok n, r) <-> exists w, loose_int n w /\ b = w ++ r.
Proof.
  intros b n r Hb. split.
  - intros H. destruct b as [|x b]; [discriminate|]. inversion_clear Hb as [|? ? Hx Hr]. unfold byte_ok in Hx.
    unfold checked_eat_lenenc_int in H. erewrite pbind_ok in H by apply checked_eat_u8_cons.
    destruct (Z.leb_spec x 250).
    { injection H as <- <-. exists [x]. split; [|reflexivity]. constructor. constructor. lia. }
    destruct (Z.eqb_spec x 252) as [->|].
    { apply checked_uint_iff in H; [|exact Hr]. destruct H as [Hn ->]. exists (252 :: wire_uint 2 n).
      split; [constructor; constructor; exact Hn|reflexivity]. }
    destruct (Z.eqb_spec x 253) as [->|].
    { apply checked_uint_iff in H; [|exact Hr]. destruct H as [Hn ->]. exists (253 :: wire_uint 3 n).
      split; [constructor; constructor; exact Hn|reflexivity]. }
    destruct (Z.eqb_spec x 254) as [->|].
    { apply checked_uint_iff in H; [|exact Hr]. destruct H as [Hn ->]. exists (254 :: wire_uint 8 n).
      split; [constructor; constructor; exact Hn|reflexivity]. }
    injection H as <- <-. exists [x]. split; [|reflexivity].
    assert (E : x = 251 \/ x = 255) by lia. destruct E as [-> | ->]; [apply loose_int_null|apply loose_int_err].
  - intros (w & Hw & ->). destruct Hw as [n w Hw| |].
    2,3: cbn [app]; unfold checked_eat_lenenc_int; erewrite pbind_ok by apply checked_eat_u8_cons; reflexivity.
    apply checked_eat_lenenc_int_spec. exact Hw.
Qed.

Lemma optional_str_ok : forall b, exists t b', optional_str b = (Ok t, b').
Proof.
  intros b. unfold optional_str. pose proof (np_checked_eat_lenenc_str b) as Hn.
  destruct (checked_eat_lenenc_str b) as [[[|c s]|e|] b']; eauto. exfalso. apply Hn. reflexivity.
Qed.

Lemma ok_tail_ok : forall caps rows id status b, bytes_ok b ->
  match checked_eat_uint 2 b with
  | (Ok warnings, _) => exists x b', ok_tail caps rows id status b = (Ok x, b') /\ ok_affected_rows x = rows /\
      ok_last_insert_id x = id /\ ok_status x = status /\ ok_warnings x = warnings
  | (Err e, _) => fst (ok_tail caps rows id status b) = Err e
  | (Panic, _) => True
  end.
Proof.
  intros caps rows id status b Hb. unfold ok_tail.
  destruct (checked_eat_uint 2 b) as [[w|e|] b1] eqn:E; [|erewrite pbind_err by exact E; reflexivity|exact I].
  rewrite (pbind_ok _ _ _ _ _ E).
  destruct (optional_str_ok b1) as (m & b2 & Em). erewrite pbind_ok by exact Em.
  destruct (has_flag caps CAP_SESSION_TRACK && has_flag status STATUS_SESSION_STATE_CHANGED).
  - destruct (optional_str_ok b2) as (i & b3 & Ei). erewrite pbind_ok by exact Ei. do 2 eexists. splits; reflexivity.
  - do 2 eexists. splits; reflexivity.
Qed.

Lemma checked_uint_err : forall k b e b', checked_eat_uint k b = (Err e, b') -> e = peof.
Proof.
  intros k b e b' H. unfold checked_eat_uint, pbind, checked_eat, eat in H.
  destruct (Z.geb_spec (lenZ b) (Z.of_nat k)).
  - destruct (Z.ltb_spec (lenZ b) (Z.of_nat k)); [lia|discriminate].
  - congruence.
Qed.

Lemma checked_int_err : forall b e b', checked_eat_lenenc_int b = (Err e, b') -> e = peof.
Proof.
  intros b e b' H. unfold checked_eat_lenenc_int, pbind in H.
  destruct (checked_eat_uint 1 b) as [[x|e'|] b1] eqn:E; try discriminate.
  - destruct (x <=? 250); [discriminate|].
    destruct (x =? 252); [eapply checked_uint_err; eassumption|].
    destruct (x =? 253); [eapply checked_uint_err; eassumption|].
    destruct (x =? 254); [eapply checked_uint_err; eassumption|discriminate].
  - injection H as <- <-. eapply checked_uint_err; eassumption.
Qed.

Lemma bytes_ok_app : forall a b, bytes_ok (a ++ b) -> bytes_ok b.
Proof. intros a b H. unfold bytes_ok in *. apply Forall_app in H. tauto. Qed.

Lemma ok_accepted : forall caps pkt rows id s warnings, bytes_ok pkt ->
  (exists x, read_ok pkt caps = Ok x /\ ok_affected_rows x = rows /\ ok_last_insert_id x = id /\ ok_status x = s /\ ok_warnings x = warnings) <->
  exists status, loose_ok rows id status warnings pkt /\ forall i, Z.testbit s i = Z.testbit status i && negb (i =? 2).
Proof.
  intros caps pkt rows id s warnings Hb. split.
  - intros (x & H & <- & <- & <- & <-). unfold read_ok in H. destruct (read_ok_p caps pkt) as [y b'] eqn:E. cbn [fst] in H. subst y.
    unfold read_ok_p in E. apply pbind_inv in E. destruct E as (h & b1 & E1 & E).
    apply checked_uint_iff in E1; [|exact Hb]. destruct E1 as [Hh ->]. pose proof (bytes_ok_app _ _ Hb) as Hb1.
    destruct (Z.eqb_spec h 0) as [->|]; [|discriminate]. cbn [negb] in E.
    apply pbind_inv in E. destruct E as (rows & b2 & E1 & E). apply checked_int_iff in E1; [|exact Hb1].
    destruct E1 as (a & Ha & ->). pose proof (bytes_ok_app _ _ Hb1) as Hb2.
    apply pbind_inv in E. destruct E as (id & b3 & E1 & E). apply checked_int_iff in E1; [|exact Hb2].
    destruct E1 as (b & Hbi & ->). pose proof (bytes_ok_app _ _ Hb2) as Hb3.
    apply pbind_inv in E. destruct E as (status & b4 & E1 & E). apply checked_uint_iff in E1; [|exact Hb3].
    destruct E1 as [Hs ->]. pose proof (bytes_ok_app _ _ Hb3) as Hb4.
    pose proof (ok_tail_ok caps rows id (status_truncate status) b4 Hb4) as T.
    destruct (checked_eat_uint 2 b4) as [[w|e|] b5] eqn:E1.
    + destruct T as (x' & b'' & T & Tr & Ti & Ts & Tw). rewrite E in T. injection T as <- <-.
      apply checked_uint_iff in E1; [|exact Hb4]. destruct E1 as [Hw ->].
      exists status. split; [|intros i; rewrite Ts; apply status_truncate_bit; exact Hs].
      exists a, b, b5. rewrite Tr, Ti, Tw. splits; try assumption; try apply Hs; try apply Hw. reflexivity.
    + rewrite E in T. discriminate.
    + exfalso. eapply (np_checked_eat_uint 2). rewrite E1. reflexivity.
  - intros (status & (a & b & rest & Ha & Hbi & Hs & Hw & ->) & Hst).
    assert (Es : status_truncate status = s).
    { apply Z.bits_inj. intros i. rewrite Hst. now apply status_truncate_bit. }
    pose proof (bytes_ok_app [0] _ Hb) as Hb1. pose proof (bytes_ok_app _ _ Hb1) as Hb2. pose proof (bytes_ok_app _ _ Hb2) as Hb3.
    pose proof (bytes_ok_app _ _ Hb3) as Hb4.
    pose proof (ok_tail_ok caps rows id (status_truncate status) (wire_uint 2 warnings ++ rest) Hb4) as T.
    assert (E : checked_eat_uint 2 (wire_uint 2 warnings ++ rest) = (Ok warnings, rest)).
    { apply checked_uint_iff; [exact Hb4|]. split; [exact Hw|reflexivity]. }
    rewrite E in T. destruct T as (x & b' & T & Tr & Ti & Ts & Tw). exists x. splits; try assumption; [|congruence].
    unfold read_ok, read_ok_p. erewrite pbind_ok by apply checked_eat_u8_cons. rewrite Z.eqb_refl. cbn [negb].
    erewrite pbind_ok by (apply checked_int_iff; [exact Hb1|]; eauto).
    erewrite pbind_ok by (apply checked_int_iff; [exact Hb2|]; eauto).
    erewrite pbind_ok by (apply checked_uint_iff; [exact Hb3|]; split; [exact Hs|reflexivity]).
    rewrite T. reflexivity.
Qed.

Lemma ok_refused : forall caps pkt e, bytes_ok pkt -> read_ok pkt caps = Err e ->
  (exists h r, pkt = h :: r /\ h <> 0 /\ e = PUnexpectedPacket r) \/
  ((pkt = [] \/ exists r, pkt = 0 :: r) /\ e = peof).
Proof.
  intros caps pkt e Hb H. destruct pkt as [|h r].
  { right. split; [auto|]. vm_compute in H. injection H as <-. reflexivity. }
  inversion_clear Hb as [|? ? Hh Hb1]. unfold read_ok, read_ok_p in H. erewrite pbind_ok in H by apply checked_eat_u8_cons.
  destruct (Z.eqb_spec h 0) as [->|Hn]; cbn [negb] in H.
  2:{ left. exists h, r. cbn [fst] in H. splits; congruence. }
  right. split; [eauto|].
  unfold pbind at 1 in H. destruct (checked_eat_lenenc_int r) as [[rows|e1|] b1] eqn:E1; cbn [fst] in H; try discriminate.
  2:{ injection H as <-. eapply checked_int_err; eassumption. }
  apply checked_int_iff in E1; [|exact Hb1]. destruct E1 as (a & Ha & ->). pose proof (bytes_ok_app _ _ Hb1) as Hb2.
  unfold pbind at 1 in H. destruct (checked_eat_lenenc_int b1) as [[id|e1|] b2] eqn:E1; cbn [fst] in H; try discriminate.
  2:{ injection H as <-. eapply checked_int_err; eassumption. }
  apply checked_int_iff in E1; [|exact Hb2]. destruct E1 as (b & Hbi & ->). pose proof (bytes_ok_app _ _ Hb2) as Hb3.
  unfold pbind at 1 in H. destruct (checked_eat_uint 2 b2) as [[st|e1|] b3] eqn:E1; cbn [fst] in H; try discriminate.
  2:{ injection H as <-. eapply checked_uint_err; eassumption. }
  apply checked_uint_iff in E1; [|exact Hb3]. destruct E1 as [Hs ->]. pose proof (bytes_ok_app _ _ Hb3) as Hb4.
  pose proof (ok_tail_ok caps rows id (status_truncate st) b3 Hb4) as T.
  destruct (checked_eat_uint 2 b3) as [[w|e1|] b4] eqn:E1.
  - destruct T as (x & b' & T & _). rewrite T in H. discriminate.
  - rewrite T in H. injection H as <-. eapply checked_uint_err; eassumption.
  - exfalso. eapply (np_checked_eat_uint 2). rewrite E1. reflexivity.
Qed.
