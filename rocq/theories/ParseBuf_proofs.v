(** Lemmas about [ParseBuf], [BufMut] and [Utf8]. *)
From Coq Require Import ZArith List Bool Lia.
From Verif Require Import Base BaseFacts Types Utf8 ParseBuf BufMut Spec_Wire.
Import ListNotations.
Open Scope Z_scope.

Lemma wire_uint_le : forall k n, wire_uint k n = le_bytes k n.
Proof.
  unfold wire_uint. intros k n.
  assert (H : forall k i, map (fun j => (n / 256 ^ Z.of_nat j) mod 256) (seq i k)
                          = le_bytes k (n / 256 ^ Z.of_nat i)).
  { induction k0 as [|k0 IH]; intros i; cbn [seq map le_bytes]; auto.
    f_equal. rewrite IH. f_equal. rewrite pow256_S, Z.mul_comm, Z.div_div; auto.
    - pose proof (pow256_pos i); lia.
    - lia. }
  rewrite H. cbn. now rewrite Z.div_1_r.
Qed.

Section Monad.
  Context {A B : Type}.
  Lemma pbind_ok : forall (m : P A) (f : A -> P B) b a b',
    m b = (Ok a, b') -> pbind m f b = f a b'.
  Proof. intros m f b a b' H; unfold pbind; now rewrite H. Qed.

  Lemma pbind_err : forall (m : P A) (f : A -> P B) b e b',
    m b = (Err e, b') -> pbind m f b = (Err e, b').
  Proof. intros m f b a b' H; unfold pbind; now rewrite H. Qed.

  Lemma pbind_inv : forall (m : P A) (f : A -> P B) b r b',
    pbind m f b = (Ok r, b') ->
    exists a b1, m b = (Ok a, b1) /\ f a b1 = (Ok r, b').
  Proof.
    intros m f b r b' H. unfold pbind in H. destruct (m b) as [[a|e|] b1]; try discriminate.
    eauto.
  Qed.
End Monad.

Lemma eat_app : forall n x r, lenZ x = n -> eat n (x ++ r) = (Ok x, r).
Proof.
  intros n x r H. unfold eat. rewrite lenZ_app. pose proof (lenZ_nonneg _ r).
  replace (lenZ x + lenZ r <? n) with false by lia.
  now rewrite takeZ_app_exact, dropZ_app_exact.
Qed.

Lemma checked_eat_app : forall n x r, lenZ x = n -> checked_eat n (x ++ r) = (Ok x, r).
Proof.
  intros n x r H. unfold checked_eat. rewrite lenZ_app. pose proof (lenZ_nonneg _ r).
  replace (lenZ x + lenZ r >=? n) with true by lia. now apply eat_app.
Qed.

Lemma checked_eat_short : forall n b, lenZ b < n -> checked_eat n b = (Err peof, b).
Proof. intros n b H. unfold checked_eat. now replace (lenZ b >=? n) with false by lia. Qed.

Lemma checked_eat_inv : forall n b x b', checked_eat n b = (Ok x, b') -> 0 <= n ->
  b = x ++ b' /\ lenZ x = n.
Proof.
  intros n b x b' H Hn. unfold checked_eat, eat in H.
  destruct (lenZ b >=? n) eqn:E; [|discriminate].
  destruct (lenZ b <? n) eqn:F; [lia|].
  injection H as <- <-. split.
  - now rewrite take_drop.
  - rewrite lenZ_takeZ; lia.
Qed.

Lemma eat_inv : forall n b x b', eat n b = (Ok x, b') -> 0 <= n ->
  b = x ++ b' /\ lenZ x = n.
Proof.
  intros n b x b' H Hn. unfold eat in H.
  destruct (lenZ b <? n) eqn:F; [discriminate|].
  injection H as <- <-. split.
  - now rewrite take_drop.
  - rewrite lenZ_takeZ; lia.
Qed.

Lemma checked_eat_uint_val : forall k x r, length x = k ->
  checked_eat_uint k (x ++ r) = (Ok (le_val x), r).
Proof.
  intros k x r H. unfold checked_eat_uint. erewrite pbind_ok.
  2:{ apply checked_eat_app. unfold lenZ. lia. }
  reflexivity.
Qed.

Lemma checked_eat_uint_app : forall k n r, unsigned_ok k n ->
  checked_eat_uint k (le_bytes k n ++ r) = (Ok n, r).
Proof.
  intros. rewrite checked_eat_uint_val by apply le_bytes_length.
  now rewrite le_val_bytes.
Qed.

Lemma eat_uint_app : forall k n r, unsigned_ok k n ->
  eat_uint k (le_bytes k n ++ r) = (Ok n, r).
Proof.
  intros. unfold eat_uint. erewrite pbind_ok.
  2:{ apply eat_app. apply lenZ_le_bytes. }
  unfold pret. now rewrite le_val_bytes.
Qed.

Lemma checked_eat_int_app : forall k n r, (0 < k)%nat -> signed_ok k n ->
  checked_eat_int k (le_bytes k n ++ r) = (Ok n, r).
Proof.
  intros. unfold checked_eat_int. erewrite pbind_ok.
  2:{ apply checked_eat_app. apply lenZ_le_bytes. }
  unfold pret. now rewrite to_signed_bytes.
Qed.

Lemma parse_uint_app : forall k n r, unsigned_ok k n ->
  parse_uint k (le_bytes k n ++ r) = (Ok n, r).
Proof.
  intros. unfold parse_uint. rewrite lenZ_app, lenZ_le_bytes.
  pose proof (lenZ_nonneg _ r). replace (Z.of_nat k + lenZ r <? Z.of_nat k) with false by lia.
  now apply eat_uint_app.
Qed.

Lemma byte_le_bytes : forall n, byte_ok n -> le_bytes 1 n = [n].
Proof. intros n H; cbn [le_bytes]; unfold byte_ok in H; rewrite Z.mod_small; auto. Qed.

Lemma unsigned_ok_1 : forall n, unsigned_ok 1 n <-> byte_ok n.
Proof. intros; unfold unsigned_ok, byte_ok; change (256 ^ Z.of_nat 1) with 256; tauto. Qed.

Lemma checked_eat_u8_cons : forall n r, checked_eat_uint 1 (n :: r) = (Ok n, r).
Proof.
  intros. change (n :: r) with ([n] ++ r). rewrite checked_eat_uint_val by reflexivity.
  cbn [le_val]. now rewrite Z.mul_0_r, Z.add_0_r.
Qed.

Lemma eat_u8_cons : forall n r, eat_uint 1 (n :: r) = (Ok n, r).
Proof.
  intros. unfold eat_uint. erewrite pbind_ok.
  2:{ apply (eat_app _ [n]). reflexivity. }
  cbn [le_val]. unfold pret. now rewrite Z.mul_0_r, Z.add_0_r.
Qed.

Lemma eat_uint_val : forall k x r, length x = k ->
  eat_uint k (x ++ r) = (Ok (le_val x), r).
Proof.
  intros k x r H. unfold eat_uint. erewrite pbind_ok.
  2:{ apply eat_app. unfold lenZ. lia. }
  reflexivity.
Qed.

(** Length-encoded integers. *)
Lemma checked_eat_lenenc_int_spec : forall n w r, lenenc n w ->
  checked_eat_lenenc_int (w ++ r) = (Ok n, r).
Proof.
  intros n w r H. unfold checked_eat_lenenc_int.
  destruct H; cbn [app]; (erewrite pbind_ok; [|apply checked_eat_u8_cons]).
  - now replace (n <=? 250) with true by lia.
  - change (252 <=? 250) with false. change (252 =? 252) with true. cbv iota.
    rewrite wire_uint_le. apply checked_eat_uint_app. unfold unsigned_ok. cbn; lia.
  - change (253 <=? 250) with false. change (253 =? 252) with false.
    change (253 =? 253) with true. cbv iota.
    rewrite wire_uint_le. apply checked_eat_uint_app. unfold unsigned_ok. cbn; lia.
  - change (254 <=? 250) with false. change (254 =? 252) with false.
    change (254 =? 253) with false. change (254 =? 254) with true. cbv iota.
    rewrite wire_uint_le. apply checked_eat_uint_app. unfold unsigned_ok. cbn; lia.
Qed.

Lemma put_lenenc_int_spec : forall n, unsigned_ok 8 n -> lenenc n (put_lenenc_int n).
Proof.
  intros n H. unfold unsigned_ok in H. change (256 ^ Z.of_nat 8) with (2 ^ 64) in H.
  unfold put_lenenc_int.
  destruct (n <? 251) eqn:E1.
  { rewrite byte_le_bytes by (unfold byte_ok; lia). constructor; lia. }
  destruct (n <? 65536) eqn:E2.
  { rewrite <- wire_uint_le. apply lenenc_3. change (2^16) with 65536. lia. }
  destruct (n <? 16777216) eqn:E3.
  { rewrite <- wire_uint_le. apply lenenc_4. change (2^24) with 16777216. lia. }
  rewrite <- wire_uint_le. apply lenenc_9. lia.
Qed.

Lemma put_lenenc_int_len : forall n, lenZ (put_lenenc_int n) = lenenc_int_len n.
Proof.
  intros n. unfold put_lenenc_int, lenenc_int_len.
  destruct (n <? 251); [now rewrite lenZ_le_bytes|].
  destruct (n <? 65536); [now rewrite lenZ_cons, lenZ_le_bytes|].
  destruct (n <? 16777216); now rewrite lenZ_cons, lenZ_le_bytes.
Qed.

Lemma put_lenenc_int_shortest : forall n w, lenenc n w -> lenZ (put_lenenc_int n) <= lenZ w.
Proof.
  intros n w H. rewrite put_lenenc_int_len. unfold lenenc_int_len.
  destruct H; rewrite ?wire_uint_le, ?lenZ_cons, ?lenZ_le_bytes, ?lenZ_nil;
    repeat match goal with |- context [if ?c then _ else _] => destruct c eqn:? end; lia.
Qed.

Lemma put_lenenc_int_head : forall n, unsigned_ok 8 n ->
  exists b r, put_lenenc_int n = b :: r /\ 0 <= b < 255 /\ b <> 251.
Proof.
  intros n H. unfold unsigned_ok in H. unfold put_lenenc_int.
  destruct (n <? 251) eqn:E1.
  { rewrite byte_le_bytes by (unfold byte_ok; lia). exists n, []. repeat split; lia. }
  destruct (n <? 65536); [|destruct (n <? 16777216)]; eexists; eexists; repeat split; lia.
Qed.

Lemma lenenc_int_roundtrip : forall n r, unsigned_ok 8 n ->
  checked_eat_lenenc_int (put_lenenc_int n ++ r) = (Ok n, r).
Proof. intros; apply checked_eat_lenenc_int_spec, put_lenenc_int_spec; auto. Qed.

Lemma wire_lenenc_spec : forall n, unsigned_ok 8 n -> wire_lenenc n = put_lenenc_int n.
Proof.
  intros n H. unfold unsigned_ok in H. unfold wire_lenenc, put_lenenc_int.
  destruct (n <=? 250) eqn:E1; destruct (n <? 251) eqn:F1; try lia.
  { now rewrite byte_le_bytes by (unfold byte_ok; lia). }
  destruct (n <=? 65535) eqn:E2; destruct (n <? 65536) eqn:F2; try lia.
  { now rewrite wire_uint_le. }
  destruct (n <=? 16777215) eqn:E3; destruct (n <? 16777216) eqn:F3; try lia;
    now rewrite wire_uint_le.
Qed.

Lemma lenenc_slice_roundtrip : forall s r, unsigned_ok 8 (lenZ s) ->
  checked_eat_lenenc_slice (put_lenenc_slice s ++ r) = (Ok s, r).
Proof.
  intros s r H. unfold checked_eat_lenenc_slice, put_lenenc_slice.
  rewrite <- app_assoc. erewrite pbind_ok by (apply lenenc_int_roundtrip; auto).
  now apply checked_eat_app.
Qed.

Lemma wire_lenenc_str_spec : forall s, unsigned_ok 8 (lenZ s) ->
  wire_lenenc_str s = put_lenenc_slice s.
Proof. intros s H. unfold wire_lenenc_str, put_lenenc_slice. now rewrite wire_lenenc_spec. Qed.

Lemma wire_lenenc_str_read : forall s r, unsigned_ok 8 (lenZ s) ->
  checked_eat_lenenc_slice (wire_lenenc_str s ++ r) = (Ok s, r).
Proof. intros. rewrite wire_lenenc_str_spec; auto. now apply lenenc_slice_roundtrip. Qed.

Lemma u8_slice_roundtrip : forall s r,
  checked_eat_u8_slice (put_u8_slice s ++ r) = (Ok (takeZ 255 s), r).
Proof.
  intros s r. unfold checked_eat_u8_slice, put_u8_slice. rewrite <- app_assoc.
  pose proof (lenZ_nonneg _ s).
  erewrite pbind_ok.
  2:{ apply checked_eat_uint_app. apply unsigned_ok_1. unfold byte_ok. lia. }
  rewrite checked_eat_app.
  - f_equal. f_equal. destruct (Z.le_gt_cases (lenZ s) 255).
    + rewrite Z.min_l by lia. rewrite !takeZ_all by lia. reflexivity.
    + now rewrite Z.min_r by lia.
  - rewrite lenZ_takeZ; lia.
Qed.

Lemma position_none : forall c s, ~ In c s -> position c s = None.
Proof.
  induction s as [|x s IH]; intros H; cbn [position]; auto.
  destruct (x =? c) eqn:E.
  - exfalso. apply H. left. lia.
  - rewrite IH; auto. intro; apply H; now right.
Qed.

Lemma position_app : forall c s r, ~ In c s -> position c (s ++ c :: r) = Some (lenZ s).
Proof.
  induction s as [|x s IH]; intros r H; cbn [position app].
  - now rewrite Z.eqb_refl.
  - destruct (x =? c) eqn:E.
    + exfalso. apply H. left. lia.
    + rewrite IH by (intro; apply H; now right). cbn [option_map]. rewrite lenZ_cons. f_equal. lia.
Qed.

Lemma position_range : forall c s i, position c s = Some i -> 0 <= i < lenZ s.
Proof.
  induction s as [|x s IH]; intros i H; cbn [position] in H; [discriminate|].
  rewrite lenZ_cons. destruct (x =? c).
  - injection H as <-. pose proof (lenZ_nonneg _ s). lia.
  - destruct (position c s) as [j|]; [|discriminate]. injection H as <-.
    specialize (IH j eq_refl). lia.
Qed.

Lemma strip_zero_app : forall s, strip_zero (s ++ [0]) = s.
Proof. intros s. unfold strip_zero. rewrite rev_app_distr. cbn. apply rev_involutive. Qed.

Lemma strip_zero_not : forall s, ~ In 0 s -> strip_zero s = s.
Proof.
  intros s H. unfold strip_zero. destruct (rev s) as [|x r] eqn:E; auto.
  destruct x; auto. exfalso. apply H. apply in_rev. rewrite E. now left.
Qed.

Lemma eat_null_slice_app : forall s r, ~ In 0 s ->
  eat_null_slice (put_null_slice s ++ r) = (Ok s, r).
Proof.
  intros s r H. unfold eat_null_slice, put_null_slice.
  rewrite <- app_assoc. cbn [app]. rewrite position_app by auto.
  change (s ++ 0 :: r) with (s ++ [0] ++ r). rewrite app_assoc.
  erewrite pbind_ok.
  2:{ apply eat_app. rewrite lenZ_app. reflexivity. }
  unfold pret. now rewrite strip_zero_app.
Qed.

(** A NUL-terminated string always comes back as the part before its first NUL. *)
Lemma eat_null_slice_general : forall s t r, ~ In 0 s ->
  eat_null_slice (s ++ 0 :: t ++ r) = (Ok s, t ++ r).
Proof.
  intros s t r H. pose proof (eat_null_slice_app s (t ++ r) H) as E.
  unfold put_null_slice in E. rewrite <- app_assoc in E. exact E.
Qed.

Lemma split_nul : forall s, In 0 s -> exists a b, s = a ++ 0 :: b /\ ~ In 0 a.
Proof.
  induction s as [|x s IH]; intros H; [destruct H|].
  destruct (Z.eq_dec x 0) as [->|n].
  - exists [], s. split; auto.
  - destruct H as [H|H]; [congruence|]. destruct (IH H) as (a & b & -> & Ha).
    exists (x :: a), b. split; auto. intros [F|F]; [congruence|auto].
Qed.

Lemma eat_null_slice_nul : forall s r, In 0 s ->
  exists a b, s = a ++ 0 :: b /\ ~ In 0 a /\
  eat_null_slice (put_null_slice s ++ r) = (Ok a, b ++ 0 :: r).
Proof.
  intros s r H. destruct (split_nul s H) as (a & b & -> & Ha).
  exists a, b. repeat split; auto. unfold put_null_slice.
  rewrite <- !app_assoc. cbn [app]. rewrite <- ?app_assoc. cbn [app].
  exact (eat_null_slice_general a b (0 :: r) Ha).
Qed.

(** Absence of panics. *)
Definition no_panic {A} (m : P A) : Prop := forall b, fst (m b) <> Panic.

Lemma np_bind : forall A B (m : P A) (f : A -> P B),
  no_panic m -> (forall a, no_panic (f a)) -> no_panic (pbind m f).
Proof.
  intros A B m f Hm Hf b. unfold pbind. specialize (Hm b).
  destruct (m b) as [[a|e|] b']; cbn in *; try congruence; apply Hf.
Qed.

Lemma np_ret : forall A (a : A), no_panic (pret a).
Proof. intros A a b; discriminate. Qed.
Lemma np_err : forall A e, no_panic (@perr A e).
Proof. intros A a b; discriminate. Qed.
Lemma np_skip : forall n, no_panic (skip n).
Proof. intros n b; discriminate. Qed.
Lemma np_check_len : forall n, no_panic (check_len n).
Proof. intros n b; unfold check_len. destruct (lenZ b <? n); discriminate. Qed.
Lemma np_checked_eat : forall n, no_panic (checked_eat n).
Proof.
  intros n b; unfold checked_eat, eat. destruct (lenZ b >=? n) eqn:E; [|discriminate].
  replace (lenZ b <? n) with false by lia. discriminate.
Qed.
Lemma np_checked_eat_uint : forall k, no_panic (checked_eat_uint k).
Proof. intros; apply np_bind; [apply np_checked_eat | intros; apply np_ret]. Qed.
Lemma np_checked_eat_int : forall k, no_panic (checked_eat_int k).
Proof. intros; apply np_bind; [apply np_checked_eat | intros; apply np_ret]. Qed.
Lemma np_checked_eat_lenenc_int : no_panic checked_eat_lenenc_int.
Proof.
  apply np_bind; [apply np_checked_eat_uint|]. intros x.
  repeat match goal with |- context [if ?c then _ else _] => destruct c end;
    auto using np_ret, np_checked_eat_uint.
Qed.
Lemma np_checked_eat_lenenc_slice : no_panic checked_eat_lenenc_slice.
Proof. apply np_bind; [apply np_checked_eat_lenenc_int | intros; apply np_checked_eat]. Qed.
Lemma np_from_utf8 : forall b, no_panic (plift (from_utf8 b)).
Proof. intros b b'. unfold plift, from_utf8. destruct (utf8_decode b); discriminate. Qed.
Lemma np_checked_eat_lenenc_str : no_panic checked_eat_lenenc_str.
Proof. apply np_bind; [apply np_checked_eat_lenenc_slice | intros; apply np_from_utf8]. Qed.
Lemma np_checked_eat_u8_slice : no_panic checked_eat_u8_slice.
Proof. apply np_bind; [apply np_checked_eat_uint | intros; apply np_checked_eat]. Qed.
Lemma np_checked_eat_u8_str : no_panic checked_eat_u8_str.
Proof. apply np_bind; [apply np_checked_eat_u8_slice | intros; apply np_from_utf8]. Qed.
Lemma np_parse_uint : forall k, no_panic (parse_uint k).
Proof.
  intros k b. unfold parse_uint. destruct (lenZ b <? Z.of_nat k) eqn:E; [discriminate|].
  unfold eat_uint, pbind, eat. rewrite E. discriminate.
Qed.
Lemma np_eat_all : no_panic eat_all.
Proof. intros b; discriminate. Qed.
Lemma np_eat_null_slice : no_panic eat_null_slice.
Proof.
  intros b. unfold eat_null_slice, pbind, eat.
  destruct (position 0 b) as [i|] eqn:E.
  - apply position_range in E. replace (lenZ b <? i + 1) with false by lia. discriminate.
  - replace (lenZ b <? lenZ b) with false by lia. discriminate.
Qed.
Lemma np_eat_null_str : no_panic eat_null_str.
Proof. apply np_bind; [apply np_eat_null_slice | intros; apply np_from_utf8]. Qed.

Global Hint Resolve np_ret np_err np_skip np_check_len np_checked_eat np_checked_eat_uint
  np_checked_eat_int np_checked_eat_lenenc_int np_checked_eat_lenenc_slice np_from_utf8
  np_checked_eat_lenenc_str np_checked_eat_u8_slice np_checked_eat_u8_str np_parse_uint
  np_eat_all np_eat_null_slice np_eat_null_str : np.

(** UTF-8. *)
Lemma utf8_decode_char : forall c r, scalar_ok c ->
  utf8_decode (utf8_encode_char c ++ r) = option_map (cons c) (utf8_decode r).
Proof.
  intros c r H. unfold scalar_ok in H. unfold utf8_encode_char.
  destruct (c <? 128) eqn:E1; [|destruct (c <? 2048) eqn:E2; [|destruct (c <? 65536) eqn:E3]].
  - cbn [app utf8_decode]. now rewrite E1.
  - cbn [app utf8_decode].
    replace (192 + c / 64 <? 128) with false by lia.
    replace (192 + c / 64 <? 194) with false by lia.
    replace (192 + c / 64 <? 224) with true by lia.
    unfold cont.
    replace ((128 <=? 128 + c mod 64) && (128 + c mod 64 <? 192)) with true by lia.
    f_equal. f_equal. lia.
  - cbn [app utf8_decode].
    set (b0 := 224 + c / 4096). set (b1 := 128 + (c / 64) mod 64). set (b2 := 128 + c mod 64).
    assert (H0 : 224 <= b0 < 240) by (unfold b0; lia).
    assert (H1 : 128 <= b1 < 192) by (unfold b1; lia).
    assert (H2 : 128 <= b2 < 192) by (unfold b2; lia).
    replace (b0 <? 128) with false by lia.
    replace (b0 <? 194) with false by lia.
    replace (b0 <? 224) with false by lia.
    replace (b0 <? 240) with true by lia.
    assert (Hv : (b0 - 224) * 4096 + (b1 - 128) * 64 + (b2 - 128) = c)
      by (unfold b0, b1, b2; clear - H E2 E3; lia).
    unfold cont.
    replace ((128 <=? b1) && (b1 <? 192)) with true by lia.
    replace ((128 <=? b2) && (b2 <? 192)) with true by lia.
    cbn [andb].
    replace (if b0 =? 224 then 160 <=? b1 else true) with true
      by (destruct (b0 =? 224) eqn:?; lia).
    replace (if b0 =? 237 then b1 <? 160 else true) with true
      by (destruct (b0 =? 237) eqn:?; lia).
    cbn [andb]. now rewrite Hv.
  - cbn [app utf8_decode].
    set (b0 := 240 + c / 262144). set (b1 := 128 + (c / 4096) mod 64).
    set (b2 := 128 + (c / 64) mod 64). set (b3 := 128 + c mod 64).
    assert (H0 : 240 <= b0 < 245) by (unfold b0; lia).
    assert (H1 : 128 <= b1 < 192) by (unfold b1; lia).
    assert (H2 : 128 <= b2 < 192) by (unfold b2; lia).
    assert (H3 : 128 <= b3 < 192) by (unfold b3; lia).
    replace (b0 <? 128) with false by lia.
    replace (b0 <? 194) with false by lia.
    replace (b0 <? 224) with false by lia.
    replace (b0 <? 240) with false by lia.
    replace (b0 <? 245) with true by lia.
    assert (Hv : (b0 - 240) * 262144 + (b1 - 128) * 4096 + (b2 - 128) * 64 + (b3 - 128) = c)
      by (unfold b0, b1, b2, b3; clear - H E2 E3; lia).
    unfold cont.
    replace ((128 <=? b1) && (b1 <? 192)) with true by lia.
    replace ((128 <=? b2) && (b2 <? 192)) with true by lia.
    replace ((128 <=? b3) && (b3 <? 192)) with true by lia.
    cbn [andb].
    replace (if b0 =? 240 then 144 <=? b1 else true) with true
      by (destruct (b0 =? 240) eqn:?; lia).
    replace (if b0 =? 244 then b1 <? 144 else true) with true
      by (destruct (b0 =? 244) eqn:?; lia).
    cbn [andb]. now rewrite Hv.
Qed.

Lemma utf8_roundtrip : forall s, str_ok s -> utf8_decode (utf8_encode s) = Some s.
Proof.
  induction 1 as [|c s Hc Hs IH]; [reflexivity|].
  unfold utf8_encode in *. cbn [flat_map]. rewrite utf8_decode_char by auto. now rewrite IH.
Qed.

Lemma utf8_encode_char_ok : forall c, scalar_ok c -> bytes_ok (utf8_encode_char c).
Proof.
  intros c H. unfold scalar_ok in H. unfold utf8_encode_char, bytes_ok, byte_ok.
  repeat match goal with |- context [if ?c then _ else _] => destruct c eqn:? end;
    repeat constructor; lia.
Qed.

Lemma utf8_encode_ok : forall s, str_ok s -> bytes_ok (utf8_encode s).
Proof.
  induction 1; [constructor|]. unfold utf8_encode. cbn [flat_map].
  apply bytes_ok_app. split; auto. now apply utf8_encode_char_ok.
Qed.

Lemma utf8_decode_sound : forall n l s, (length l <= n)%nat -> bytes_ok l ->
  utf8_decode l = Some s -> str_ok s /\ utf8_encode s = l.
Proof.
  induction n as [|n IH]; intros l s Hn Hl H.
  { destruct l; [|cbn in Hn; lia]. injection H as <-. split; [constructor|reflexivity]. }
  destruct l as [|b0 r0]; [injection H as <-; split; [constructor|reflexivity]|].
  cbn [utf8_decode] in H. cbn [length] in Hn.
  assert (Hb0 : byte_ok b0) by (now inversion Hl).
  assert (Hr0 : bytes_ok r0) by (now inversion Hl). unfold byte_ok in Hb0.
  destruct (b0 <? 128) eqn:E0.
  { destruct (utf8_decode r0) as [t|] eqn:Et; [|discriminate]. injection H as <-.
    destruct (IH r0 t) as [H1 H2]; auto; try lia. split.
    - constructor; auto. unfold scalar_ok. lia.
    - unfold utf8_encode in *. cbn [flat_map]. rewrite H2. unfold utf8_encode_char.
      now rewrite E0. }
  destruct (b0 <? 194) eqn:E1; [discriminate|].
  destruct (b0 <? 224) eqn:E2.
  { destruct r0 as [|b1 r1]; [discriminate|].
    destruct (cont b1) eqn:Ec; [|discriminate]. unfold cont in Ec.
    destruct (utf8_decode r1) as [t|] eqn:Et; [|discriminate]. injection H as <-.
    assert (Hr1 : bytes_ok r1) by (now inversion Hr0). cbn [length] in Hn.
    destruct (IH r1 t) as [H1 H2]; auto; try lia.
    set (c := (b0 - 192) * 64 + (b1 - 128)).
    assert (Hc : 128 <= c < 2048) by (unfold c; lia).
    split.
    - constructor; auto. unfold scalar_ok. lia.
    - unfold utf8_encode in *. cbn [flat_map]. rewrite H2. unfold utf8_encode_char.
      replace (c <? 128) with false by lia. replace (c <? 2048) with true by lia.
      cbn [app]. f_equal; [unfold c; lia|]. f_equal. unfold c; lia. }
  destruct (b0 <? 240) eqn:E3.
  { destruct r0 as [|b1 [|b2 r2]]; try discriminate.
    match type of H with (if ?x then _ else _) = _ => destruct x eqn:Ec end; [|discriminate].
    unfold cont in Ec.
    destruct (utf8_decode r2) as [t|] eqn:Et; [|discriminate]. injection H as <-.
    assert (Hr2 : bytes_ok r2) by exact (Forall_inv_tail (Forall_inv_tail Hr0)). cbn [length] in Hn.
    destruct (IH r2 t) as [H1 H2]; auto; try lia.
    set (c := (b0 - 224) * 4096 + (b1 - 128) * 64 + (b2 - 128)).
    assert (Hc : 2048 <= c < 65536 /\ (c < 55296 \/ 57344 <= c)).
    { unfold c. destruct (b0 =? 224) eqn:?; destruct (b0 =? 237) eqn:?; lia. }
    split.
    - constructor; auto. unfold scalar_ok. lia.
    - unfold utf8_encode in *. cbn [flat_map]. rewrite H2. unfold utf8_encode_char.
      replace (c <? 128) with false by lia. replace (c <? 2048) with false by lia.
      replace (c <? 65536) with true by lia.
      cbn [app]. assert (128 <= b1 < 192 /\ 128 <= b2 < 192) by lia.
      f_equal; [unfold c; lia|]. f_equal; [unfold c; lia|]. f_equal; unfold c; lia. }
  destruct (b0 <? 245) eqn:E4; [|discriminate].
  destruct r0 as [|b1 [|b2 [|b3 r3]]]; try discriminate.
  match type of H with (if ?x then _ else _) = _ => destruct x eqn:Ec end; [|discriminate].
  unfold cont in Ec.
  destruct (utf8_decode r3) as [t|] eqn:Et; [|discriminate]. injection H as <-.
  assert (Hr3 : bytes_ok r3) by exact (Forall_inv_tail (Forall_inv_tail (Forall_inv_tail Hr0))). cbn [length] in Hn.
  destruct (IH r3 t) as [H1 H2]; auto; try lia.
  set (c := (b0 - 240) * 262144 + (b1 - 128) * 4096 + (b2 - 128) * 64 + (b3 - 128)).
  assert (Hc : 65536 <= c < 1114112).
  { unfold c. destruct (b0 =? 240) eqn:?; destruct (b0 =? 244) eqn:?; lia. }
  split.
  - constructor; auto. unfold scalar_ok. lia.
  - unfold utf8_encode in *. cbn [flat_map]. rewrite H2. unfold utf8_encode_char.
    replace (c <? 128) with false by lia. replace (c <? 2048) with false by lia.
    replace (c <? 65536) with false by lia.
    cbn [app]. assert (128 <= b1 < 192 /\ 128 <= b2 < 192 /\ 128 <= b3 < 192) by lia.
    f_equal; [unfold c; lia|]. f_equal; [unfold c; lia|].
    f_equal; [unfold c; lia|]. f_equal; unfold c; lia.
Qed.

Lemma utf8_decode_iff : forall l s, bytes_ok l ->
  (utf8_decode l = Some s <-> str_ok s /\ utf8_encode s = l).
Proof.
  intros l s Hl. split.
  - now apply (utf8_decode_sound (length l)).
  - intros [H <-]. now apply utf8_roundtrip.
Qed.

Lemma utf8_ascii : forall l, Forall (fun b => 0 <= b < 128) l -> utf8_decode l = Some l.
Proof.
  induction 1 as [|b l Hb Hl IH]; cbn [utf8_decode]; auto.
  replace (b <? 128) with true by lia. now rewrite IH.
Qed.

(** Statements used by the property files. *)
Lemma lenenc_written_form : forall n, 0 <= n < 2 ^ 64 ->
  lenenc n (put_lenenc_int n) /\
  (forall w, lenenc n w -> lenZ (put_lenenc_int n) <= lenZ w) /\
  lenZ (put_lenenc_int n) = lenenc_int_len n /\
  exists b r, put_lenenc_int n = b :: r /\ b <> 251 /\ b <> 255.
Proof.
  intros n H. splits.
  - now apply put_lenenc_int_spec.
  - intros w Hw. now apply put_lenenc_int_shortest.
  - apply put_lenenc_int_len.
  - destruct (put_lenenc_int_head n H) as (b & r & Hb). exists b, r. destruct Hb as (E & H1 & H2). splits; [exact E|exact H2|lia].
Qed.

Lemma lenenc_slice_all : forall s r, lenZ s < 2 ^ 64 ->
  checked_eat_lenenc_slice (put_lenenc_slice s ++ r) = (Ok s, r) /\
  put_lenenc_slice s = wire_lenenc_str s /\
  lenZ (put_lenenc_slice s) = lenenc_slice_len s.
Proof.
  intros s r H. assert (U : unsigned_ok 8 (lenZ s)) by (split; [apply lenZ_nonneg|exact H]).
  splits.
  - now apply lenenc_slice_roundtrip.
  - symmetry. now apply wire_lenenc_str_spec.
  - unfold put_lenenc_slice, lenenc_slice_len. now rewrite lenZ_app, put_lenenc_int_len.
Qed.

Lemma u8_slice_all : forall s r,
  checked_eat_u8_slice (put_u8_slice s ++ r) = (Ok (firstn 255 s), r).
Proof. intros. rewrite u8_slice_roundtrip, takeZ_firstn. reflexivity. Qed.

Lemma null_slice_iff : forall s r,
  eat_null_slice (put_null_slice s ++ r) = (Ok s, r) <-> ~ In 0 s.
Proof.
  intros s r. split.
  - intros H Hin. destruct (eat_null_slice_nul s r Hin) as (a & b & -> & Ha & E).
    rewrite E in H. injection H as H _. apply (f_equal (@length Z)) in H.
    rewrite app_length in H. cbn [length] in H. lia.
  - intros. now apply eat_null_slice_app.
Qed.
