(** Lemmas about binary values. *)
From Coq Require Import ZArith List Bool Lia.
From Verif Require Import Base BaseFacts Types ParseBuf BufMut Spec_Wire ParseBuf_proofs ValueBin Spec_Stmt.
Import ListNotations.
Open Scope Z_scope.

Section Bind.
  Context {B : Type}.
  Lemma bind_eat_uint : forall k n r (f : Z -> P B), unsigned_ok k n ->
    pbind (eat_uint k) f (le_bytes k n ++ r) = f n r.
  Proof. intros. now erewrite pbind_ok by (now apply eat_uint_app). Qed.
  Lemma bind_checked_eat_uint : forall k n r (f : Z -> P B), unsigned_ok k n ->
    pbind (checked_eat_uint k) f (le_bytes k n ++ r) = f n r.
  Proof. intros. now erewrite pbind_ok by (now apply checked_eat_uint_app). Qed.
  Lemma bind_checked_eat_int : forall k n r (f : Z -> P B), (0 < k)%nat -> signed_ok k n ->
    pbind (checked_eat_int k) f (le_bytes k n ++ r) = f n r.
  Proof. intros. now erewrite pbind_ok by (now apply checked_eat_int_app). Qed.
  Lemma bind_checked_eat_u8 : forall n r (f : Z -> P B),
    pbind (checked_eat_uint 1) f (n :: r) = f n r.
  Proof. intros. now erewrite pbind_ok by (apply checked_eat_u8_cons). Qed.
  Lemma bind_eat_u8 : forall n r (f : Z -> P B),
    pbind (eat_uint 1) f (n :: r) = f n r.
  Proof. intros. now erewrite pbind_ok by (apply eat_u8_cons). Qed.
  Lemma bind_check_len : forall n x r (f : unit -> P B), n <= lenZ x ->
    pbind (check_len n) f (x ++ r) = f tt (x ++ r).
  Proof.
    intros. unfold pbind, check_len. rewrite lenZ_app. pose proof (lenZ_nonneg _ r).
    now replace (lenZ x + lenZ r <? n) with false by lia.
  Qed.
  Lemma bind_ret : forall A (a : A) (f : A -> P B) b, pbind (pret a) f b = f a b.
  Proof. reflexivity. Qed.
End Bind.

Lemma pbind_assoc : forall A B C (m : P A) (f : A -> P B) (g : B -> P C) b,
  pbind (pbind m f) g b = pbind m (fun a => pbind (f a) g) b.
Proof. intros. unfold pbind. destruct (m b) as [[a|e|] b1]; reflexivity. Qed.

(** The sign of a zero time is not transmitted. *)
Definition canon (v : value) : value :=
  match v with
  | VTime true 0 0 0 0 0 => VTime false 0 0 0 0 0
  | _ => v
  end.

Lemma canon_time : forall neg d h m s u,
  canon (VTime neg d h m s u) = VTime (if all0 [d; h; m; s; u] then false else neg) d h m s u.
Proof.
  intros. unfold all0. cbn [forallb canon].
  destruct neg; [|now destruct (_ && _)].
  destruct d, h, m, s, u; reflexivity.
Qed.

Lemma all0_spec : forall l, all0 l = true -> Forall (fun x => x = 0) l.
Proof.
  intros l H. unfold all0 in H. rewrite forallb_forall in H.
  apply Forall_forall. intros x Hx. apply H in Hx. lia.
Qed.

Ltac all0_zero H :=
  apply all0_spec in H;
  repeat match goal with
  | H : Forall _ (_ :: _) |- _ => inversion H; clear H; subst
  | H : Forall _ [] |- _ => clear H
  end.

Lemma bin_len_serialize : forall v, value_ok v -> v <> VDate 0 0 0 ->
  lenZ (value_serialize v) = bin_len v.
Proof.
  intros v Hok Hd. destruct v; cbn [value_serialize bin_len];
    rewrite ?lenZ_le_bytes; try reflexivity.
  - unfold put_lenenc_slice, lenenc_slice_len. now rewrite lenZ_app, put_lenenc_int_len.
  - destruct (all0 [year; month; day]) eqn:E.
    + all0_zero E. congruence.
    + rewrite !lenZ_app, !lenZ_le_bytes. reflexivity.
  - destruct (all0 [days; _; _; _; _]); [reflexivity|].
    destruct (all0 [micros]); rewrite !lenZ_app, !lenZ_le_bytes; reflexivity.
  - destruct (all0 [year; _; _; _; _; _; _]); [reflexivity|].
    destruct (all0 [hour; _; _; _]); [|destruct (all0 [micro])];
      rewrite !lenZ_app, !lenZ_le_bytes; reflexivity.
Qed.

Lemma bin_len_zero : forall v, value_ok v -> bin_len v = 0 -> v = VNull.
Proof.
  intros v Hok H. destruct v; cbn [bin_len] in H; try discriminate; auto.
  - unfold lenenc_slice_len, lenenc_int_len in H. pose proof (lenZ_nonneg _ b).
    destruct (_ <? _); [|destruct (_ <? _); [|destruct (_ <? _)]]; lia.
  - destruct (all0 _); discriminate.
  - destruct (all0 _); [|destruct (all0 _)]; discriminate.
  - destruct (all0 _); [|destruct (all0 _); [|destruct (all0 _)]]; discriminate.
Qed.

Lemma le_bytes_1_cons : forall n r, unsigned_ok 1 n -> le_bytes 1 n ++ r = n :: r.
Proof. intros. rewrite byte_le_bytes by (now apply unsigned_ok_1). reflexivity. Qed.

Lemma has_unsigned : forall f, has_flag f UNSIGNED_FLAG = Z.testbit f 5.
Proof.
  intros. unfold has_flag, UNSIGNED_FLAG.
  destruct (Z.testbit f 5) eqn:E.
  - apply Z.eqb_eq. apply Z.bits_inj'. intros n Hn. rewrite Z.land_spec.
    change 32 with (2 ^ 5). rewrite Z.pow2_bits_eqb by lia.
    destruct (5 =? n) eqn:F; [|apply andb_false_r].
    apply Z.eqb_eq in F. subst n. now rewrite E.
  - apply Z.eqb_neq. intro H. apply (f_equal (fun z => Z.testbit z 5)) in H.
    rewrite Z.land_spec, E in H. discriminate.
Qed.

Lemma deserialize_date_4 : forall y m d r, unsigned_ok 2 y -> unsigned_ok 1 m -> unsigned_ok 1 d ->
  deserialize_date ([4] ++ (le_bytes 2 y ++ le_bytes 1 m ++ le_bytes 1 d) ++ r) = (Ok (VDate y m d), r).
Proof.
  intros. unfold deserialize_date. cbn [app]. rewrite bind_checked_eat_u8.
  rewrite bind_check_len by (rewrite !lenZ_app, !lenZ_le_bytes; cbn; lia).
  change (4 >=? 4) with true. cbn iota. rewrite <- !app_assoc.
  rewrite !bind_eat_uint by auto. reflexivity.
Qed.

Lemma deserialize_datetime_4 : forall y m d r, unsigned_ok 2 y -> unsigned_ok 1 m -> unsigned_ok 1 d ->
  deserialize_datetime ([4] ++ (le_bytes 2 y ++ le_bytes 1 m ++ le_bytes 1 d) ++ r)
  = (Ok (VDatetime y m d 0 0 0 0), r).
Proof.
  intros. unfold deserialize_datetime. cbn [app]. rewrite bind_checked_eat_u8.
  rewrite bind_check_len by (rewrite !lenZ_app, !lenZ_le_bytes; cbn; lia).
  change (4 >=? 4) with true. change (4 >=? 7) with false. change (4 =? 11) with false. cbn iota.
  rewrite <- !app_assoc, !pbind_assoc.
  rewrite bind_eat_uint by auto. rewrite pbind_assoc, bind_eat_uint by auto.
  rewrite pbind_assoc, bind_eat_uint by auto. reflexivity.
Qed.

Lemma deserialize_datetime_7 : forall y mo d h mi s r, unsigned_ok 2 y -> unsigned_ok 1 mo ->
  unsigned_ok 1 d -> unsigned_ok 1 h -> unsigned_ok 1 mi -> unsigned_ok 1 s ->
  deserialize_datetime ([7] ++ (le_bytes 2 y ++ le_bytes 1 mo ++ le_bytes 1 d
          ++ le_bytes 1 h ++ le_bytes 1 mi ++ le_bytes 1 s) ++ r)
  = (Ok (VDatetime y mo d h mi s 0), r).
Proof.
  intros. unfold deserialize_datetime. cbn [app]. rewrite bind_checked_eat_u8.
  rewrite bind_check_len by (rewrite !lenZ_app, !lenZ_le_bytes; cbn; lia).
  change (7 >=? 4) with true. change (7 >=? 7) with true. change (7 =? 11) with false. cbn iota.
  rewrite <- !app_assoc, !pbind_assoc.
  rewrite bind_eat_uint by auto. rewrite pbind_assoc, bind_eat_uint by auto.
  rewrite pbind_assoc, bind_eat_uint by auto. rewrite bind_ret.
  rewrite !pbind_assoc. rewrite bind_eat_uint by auto. rewrite pbind_assoc, bind_eat_uint by auto.
  rewrite pbind_assoc, bind_eat_uint by auto. reflexivity.
Qed.

Lemma deserialize_datetime_11 : forall y mo d h mi s u r, unsigned_ok 2 y -> unsigned_ok 1 mo ->
  unsigned_ok 1 d -> unsigned_ok 1 h -> unsigned_ok 1 mi -> unsigned_ok 1 s -> unsigned_ok 4 u ->
  deserialize_datetime ([11] ++ (le_bytes 2 y ++ le_bytes 1 mo ++ le_bytes 1 d
          ++ le_bytes 1 h ++ le_bytes 1 mi ++ le_bytes 1 s ++ le_bytes 4 u) ++ r)
  = (Ok (VDatetime y mo d h mi s u), r).
Proof.
  intros. unfold deserialize_datetime. cbn [app]. rewrite bind_checked_eat_u8.
  rewrite bind_check_len by (rewrite !lenZ_app, !lenZ_le_bytes; cbn; lia).
  change (11 >=? 4) with true. change (11 >=? 7) with true. change (11 =? 11) with true. cbn iota.
  rewrite <- !app_assoc, !pbind_assoc.
  rewrite bind_eat_uint by auto. rewrite pbind_assoc, bind_eat_uint by auto.
  rewrite pbind_assoc, bind_eat_uint by auto. rewrite bind_ret.
  rewrite !pbind_assoc. rewrite bind_eat_uint by auto. rewrite pbind_assoc, bind_eat_uint by auto.
  rewrite pbind_assoc, bind_eat_uint by auto. rewrite bind_ret. rewrite bind_eat_uint by auto.
  reflexivity.
Qed.

Lemma deserialize_time_8 : forall neg d h m s r, unsigned_ok 4 d -> unsigned_ok 1 h ->
  unsigned_ok 1 m -> unsigned_ok 1 s ->
  deserialize_time ([8] ++ ([neg_byte neg] ++ le_bytes 4 d ++ le_bytes 1 h ++ le_bytes 1 m ++ le_bytes 1 s) ++ r)
  = (Ok (VTime neg d h m s 0), r).
Proof.
  intros. unfold deserialize_time. change ([8] ++ ?x) with (8 :: x). rewrite bind_checked_eat_u8.
  rewrite bind_check_len by (rewrite !lenZ_app, !lenZ_le_bytes, lenZ_cons, lenZ_nil; cbn; lia).
  change (8 >=? 8) with true. change (8 =? 12) with false. cbn iota.
  rewrite <- !app_assoc, !pbind_assoc. cbn [app]. rewrite bind_eat_u8.
  rewrite !pbind_assoc. rewrite bind_eat_uint by auto.
  rewrite pbind_assoc, bind_eat_uint by auto. rewrite pbind_assoc, bind_eat_uint by auto.
  rewrite pbind_assoc, bind_eat_uint by auto. rewrite !bind_ret. now destruct neg.
Qed.

Lemma deserialize_time_12 : forall neg d h m s u r, unsigned_ok 4 d -> unsigned_ok 1 h ->
  unsigned_ok 1 m -> unsigned_ok 1 s -> unsigned_ok 4 u ->
  deserialize_time ([12] ++ ([neg_byte neg] ++ le_bytes 4 d ++ le_bytes 1 h ++ le_bytes 1 m ++ le_bytes 1 s
      ++ le_bytes 4 u) ++ r)
  = (Ok (VTime neg d h m s u), r).
Proof.
  intros. unfold deserialize_time. change ([12] ++ ?x) with (12 :: x). rewrite bind_checked_eat_u8.
  rewrite bind_check_len by (rewrite !lenZ_app, !lenZ_le_bytes, lenZ_cons, lenZ_nil; cbn; lia).
  change (12 >=? 8) with true. change (12 =? 12) with true. cbn iota.
  rewrite <- !app_assoc, !pbind_assoc. cbn [app]. rewrite bind_eat_u8.
  rewrite !pbind_assoc. rewrite bind_eat_uint by auto.
  rewrite pbind_assoc, bind_eat_uint by auto. rewrite pbind_assoc, bind_eat_uint by auto.
  rewrite pbind_assoc, bind_eat_uint by auto. rewrite !bind_ret.
  rewrite bind_eat_uint by auto. now destruct neg.
Qed.

Lemma deserialize_0 : forall r,
  deserialize_date (0 :: r) = (Ok (VDate 0 0 0), r) /\
  deserialize_datetime (0 :: r) = (Ok (VDatetime 0 0 0 0 0 0 0), r) /\
  deserialize_time (0 :: r) = (Ok (VTime false 0 0 0 0 0), r).
Proof.
  intros r. unfold deserialize_date, deserialize_datetime, deserialize_time.
  rewrite !bind_checked_eat_u8.
  pose proof (fun A => @bind_check_len A 0 [] r) as H. cbn [app] in H.
  rewrite !H by (rewrite lenZ_nil; lia). repeat split.
Qed.

Lemma bin_round_trip : forall v flags r, value_ok v ->
  has_flag flags UNSIGNED_FLAG = value_is_unsigned v ->
  deserialize_bin (value_column_type v) flags (value_serialize v ++ r) = (Ok (canon v), r).
Proof.
  intros v flags r Hok Hf.
  destruct v; cbn [value_column_type value_serialize deserialize_bin value_is_unsigned value_ok] in *;
    rewrite ?Hf; unfold deserialize_num;
    try (rewrite bind_checked_eat_int by (auto; lia); reflexivity);
    try (rewrite bind_checked_eat_uint by (auto; lia); reflexivity).
  - reflexivity.
  - erewrite pbind_ok by (apply lenenc_slice_roundtrip; tauto). reflexivity.
  - rewrite <- app_assoc. apply deserialize_date_4; tauto.
  - rewrite canon_time. destruct (all0 [days; _; _; _; _]) eqn:E.
    + all0_zero E. apply deserialize_0.
    + destruct (all0 [micros]) eqn:F.
      * all0_zero F. rewrite <- app_assoc. apply deserialize_time_8; tauto.
      * rewrite <- app_assoc. apply deserialize_time_12; tauto.
  - cbn [canon]. destruct (all0 [year; _; _; _; _; _; _]) eqn:E.
    + all0_zero E. apply deserialize_0.
    + destruct (all0 [hour; _; _; _]) eqn:F.
      * all0_zero F. rewrite <- app_assoc. apply deserialize_datetime_4; tauto.
      * destruct (all0 [micro]) eqn:G.
        -- all0_zero G. rewrite <- app_assoc. apply deserialize_datetime_7; tauto.
        -- rewrite <- app_assoc. apply deserialize_datetime_11; tauto.
Qed.

(** Decoding every legal server encoding. *)
Lemma u8_ok : forall n, u8 n -> unsigned_ok 1 n.
Proof. auto. Qed.
Lemma u16_ok : forall n, u16 n -> unsigned_ok 2 n.
Proof. auto. Qed.
Lemma u32_ok : forall n, u32 n -> unsigned_ok 4 n.
Proof. auto. Qed.
Lemma u64_ok : forall n, u64 n -> unsigned_ok 8 n.
Proof. auto. Qed.
#[global] Hint Resolve u8_ok u16_ok u32_ok u64_ok : u.

Lemma cons_le_bytes : forall n r, u8 n -> n :: r = le_bytes 1 n ++ r.
Proof. intros. symmetry. apply le_bytes_1_cons. auto with u. Qed.

Lemma bin_enc_decode : forall t u v w flags r, bin_enc t u v w ->
  has_flag flags UNSIGNED_FLAG = u ->
  deserialize_bin t flags (w ++ r) = (Ok v, r).
Proof.
  intros t u v w flags r H Hf.
  destruct H; rewrite ?wire_uint_le;
    try match goal with H : _ \/ _ |- _ => destruct H; subst t end;
    cbn [deserialize_bin]; rewrite ?Hf; unfold deserialize_num;
    try (rewrite bind_checked_eat_int by (auto; lia); reflexivity);
    try (rewrite bind_checked_eat_uint by (auto with u; lia); reflexivity);
    try apply deserialize_0.
  - assert (E : pbind checked_eat_lenenc_slice (fun x => pret (VBytes x)) ((w ++ s) ++ r) = (Ok (VBytes s), r)).
    { erewrite pbind_ok. 2:{ unfold checked_eat_lenenc_slice. rewrite <- app_assoc.
        erewrite pbind_ok by (eapply checked_eat_lenenc_int_spec; eassumption).
        apply checked_eat_app. reflexivity. }
      reflexivity. }
    destruct H; exact E.
  - pose proof (deserialize_date_4 y m d r) as E. rewrite <- !app_assoc in E.
    rewrite !le_bytes_1_cons in E by auto with u. rewrite <- !app_assoc. cbn [app] in *. apply E; auto with u.
  - pose proof (deserialize_datetime_4 y m d r) as E. rewrite <- !app_assoc in E.
    rewrite !le_bytes_1_cons in E by auto with u. rewrite <- !app_assoc. cbn [app] in *. apply E; auto with u.
  - pose proof (deserialize_datetime_4 y m d r) as E. rewrite <- !app_assoc in E.
    rewrite !le_bytes_1_cons in E by auto with u. rewrite <- !app_assoc. cbn [app] in *. apply E; auto with u.
  - pose proof (deserialize_datetime_7 y m d h mi s r) as E. rewrite <- !app_assoc in E.
    rewrite !le_bytes_1_cons in E by auto with u. rewrite <- !app_assoc. cbn [app] in *. apply E; auto with u.
  - pose proof (deserialize_datetime_7 y m d h mi s r) as E. rewrite <- !app_assoc in E.
    rewrite !le_bytes_1_cons in E by auto with u. rewrite <- !app_assoc. cbn [app] in *. apply E; auto with u.
  - pose proof (deserialize_datetime_11 y m d h mi s u r) as E. rewrite <- !app_assoc in E.
    rewrite !le_bytes_1_cons in E by auto with u. rewrite <- !app_assoc. cbn [app] in *. apply E; auto with u.
  - pose proof (deserialize_datetime_11 y m d h mi s u r) as E. rewrite <- !app_assoc in E.
    rewrite !le_bytes_1_cons in E by auto with u. rewrite <- !app_assoc. cbn [app] in *. apply E; auto with u.
  - pose proof (deserialize_time_8 neg d h mi s r) as E. rewrite <- !app_assoc in E.
    rewrite !le_bytes_1_cons in E by auto with u. rewrite <- !app_assoc. cbn [app] in *. apply E; auto with u.
  - pose proof (deserialize_time_12 neg d h mi s u r) as E. rewrite <- !app_assoc in E.
    rewrite !le_bytes_1_cons in E by auto with u. rewrite <- !app_assoc. cbn [app] in *. apply E; auto with u.
Qed.

Lemma canon_cases : forall v,
  canon v = v \/ (v = VTime true 0 0 0 0 0 /\ canon v = VTime false 0 0 0 0 0).
Proof.
  intros v. destruct v; auto. rewrite canon_time.
  destruct (all0 [days; _; _; _; _]) eqn:E; auto.
  all0_zero E. destruct neg; auto.
Qed.

Lemma bin_len_iff : forall v, value_ok v ->
  (lenZ (value_serialize v) = bin_len v <-> v <> VDate 0 0 0).
Proof.
  intros v H. split.
  - intros E ->. discriminate.
  - now apply bin_len_serialize.
Qed.

Lemma bin_len_refuted : exists v, value_ok v /\ lenZ (value_serialize v) <> bin_len v.
Proof. exists (VDate 0 0 0). split; [cbn; unfold unsigned_ok; cbn; lia|discriminate]. Qed.
