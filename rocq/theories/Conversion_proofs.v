(** Lemmas about conversions. *)
From Coq Require Import ZArith List Bool Lia.
From Verif Require Import Base BaseFacts Types Utf8 ParseBuf ParseBuf_proofs Conversion Spec_Conv.
Import ListNotations.
Open Scope Z_scope.

(** ** Primitives *)

Lemma prim_round_trip : forall p x, prim_try_into p (prim_from p x) = Ok x.
Proof. destruct p; reflexivity. Qed.

Lemma prim_other : forall p v, (forall x, v <> prim_from p x) ->
  prim_try_into p v = Err (EWrongValue (prim_type p) v).
Proof.
  intros p v H. destruct p, v; try reflexivity; exfalso; eapply H; reflexivity.
Qed.

Lemma prim_exact : forall p v x, prim_try_into p v = Ok x <-> v = prim_from p x.
Proof.
  intros p v x. split.
  - destruct p, v; intros H; try discriminate H; injection H as <-; reflexivity.
  - intros ->. apply prim_round_trip.
Qed.

Lemma prim_exact_spec : forall p ctor ty, prim_spec p ctor ty ->
  (forall x, prim_from p x = ctor x /\ prim_try_into p (ctor x) = Ok x) /\
  (forall v, (forall x, v <> ctor x) -> prim_try_into p v = Err (EWrongValue ty v)).
Proof.
  intros p ctor ty H. destruct H; (split; [intros x; split; reflexivity|]); intros v N;
    destruct v; try reflexivity; exfalso; eapply N; reflexivity.
Qed.

Lemma vec_other : forall v, (forall b, v <> VBytes b) -> vec_try_into v = Err (EWrongValue TBytes v).
Proof. intros v H. destruct v; try reflexivity. exfalso. eapply H. reflexivity. Qed.

Lemma string_other : forall v, (forall b, v <> VBytes b) -> string_try_into v = Err (EWrongValue TBytes v).
Proof. intros v H. destruct v; try reflexivity. exfalso. eapply H. reflexivity. Qed.

Lemma string_round_trip : forall s, str_ok s -> string_try_into (string_from s) = Ok s.
Proof. intros s H. unfold string_from, string_try_into. rewrite utf8_roundtrip by assumption. reflexivity. Qed.

(** ** UTF-8 *)

Lemma encode_char_spec : forall c, scalar_ok c -> utf8_char c (utf8_encode_char c).
Proof.
  intros c H. unfold utf8_encode_char, scalar_ok in *.
  destruct (c <? 128) eqn:E1; [constructor; lia|].
  destruct (c <? 2048) eqn:E2.
  { replace c with (64 * (c / 64) + c mod 64) at 1 by lia. constructor; lia. }
  destruct (c <? 65536) eqn:E3.
  { assert (V : 4096 * (c / 4096) + 64 * ((c / 64) mod 64) + c mod 64 = c) by lia.
    rewrite <- V at 1. constructor; rewrite ?V; lia. }
  assert (V : 262144 * (c / 262144) + 4096 * ((c / 4096) mod 64) + 64 * ((c / 64) mod 64) + c mod 64 = c) by lia.
  rewrite <- V at 1. constructor; rewrite ?V; lia.
Qed.

Lemma utf8_char_encode : forall c w, utf8_char c w -> scalar_ok c /\ utf8_encode_char c = w.
Proof.
  intros c w H. unfold scalar_ok. destruct H; (split; [lia|]); unfold utf8_encode_char.
  - replace (c <? 128) with true by lia. reflexivity.
  - replace (64 * a + b <? 128) with false by lia. replace (64 * a + b <? 2048) with true by lia.
    repeat f_equal; lia.
  - replace (4096 * a + 64 * b + c <? 128) with false by lia.
    replace (4096 * a + 64 * b + c <? 2048) with false by lia.
    replace (4096 * a + 64 * b + c <? 65536) with true by lia.
    repeat f_equal; lia.
  - replace (262144 * a + 4096 * b + 64 * c + d <? 128) with false by lia.
    replace (262144 * a + 4096 * b + 64 * c + d <? 2048) with false by lia.
    replace (262144 * a + 4096 * b + 64 * c + d <? 65536) with false by lia.
    repeat f_equal; lia.
Qed.

Lemma utf8_text_iff : forall s l, utf8_text s l <-> str_ok s /\ utf8_encode s = l.
Proof.
  intros s l. split.
  - induction 1 as [|c s w l Hc Hs [IH1 IH2]]; [split; [constructor | reflexivity]|].
    apply utf8_char_encode in Hc. destruct Hc as (A & B).
    split; [constructor; assumption|]. unfold utf8_encode in *. cbn [flat_map]. congruence.
  - intros (H & <-). induction H as [|c s Hc Hs IH]; [constructor|].
    unfold utf8_encode in *. cbn [flat_map]. constructor; [now apply encode_char_spec | exact IH].
Qed.

Lemma string_utf8 : forall b s, bytes_ok b -> (string_try_into (VBytes b) = Ok s <-> utf8_text s b).
Proof.
  intros b s H. rewrite utf8_text_iff, <- utf8_decode_iff by assumption.
  unfold string_try_into. destruct (utf8_decode b); split; intros E; try discriminate; congruence.
Qed.

Lemma string_not_utf8 : forall b, bytes_ok b -> (forall s, ~ utf8_text s b) ->
  string_try_into (VBytes b) = Err EFromUtf8.
Proof.
  intros b H N. unfold string_try_into. destruct (utf8_decode b) as [s|] eqn:E; [|reflexivity].
  exfalso. apply (N s). apply utf8_text_iff. now apply utf8_decode_iff.
Qed.

(** ** Options *)

Lemma option_into_cases : forall A (f : value -> res parse_error A) v,
  (option_try_into f v = Ok None <-> v = VNull) /\
  (forall x, option_try_into f v = Ok (Some x) <-> v <> VNull /\ f v = Ok x) /\
  (forall e, option_try_into f v = Err e <-> v <> VNull /\ f v = Err e).
Proof.
  intros A f v. destruct (match v with VNull => true | _ => false end) eqn:E.
  - destruct v; try discriminate. cbn. splits; intros; split; intros; try congruence; try reflexivity;
      destruct H; congruence.
  - assert (Hn : v <> VNull) by (intros ->; discriminate).
    assert (O : option_try_into f v = rmap Some (f v)) by (destruct v; try reflexivity; discriminate).
    rewrite O. unfold rmap, rbind. splits; intros; destruct (f v); split; intros; try congruence;
      try (split; congruence); destruct H; congruence.
Qed.

Lemma option_into_exact : forall A (f : value -> res parse_error A) v, (forall x, f VNull <> Ok x) ->
  (option_try_into f v = Ok None <-> v = VNull) /\
  (forall x, option_try_into f v = Ok (Some x) <-> f v = Ok x) /\
  (forall e, option_try_into f v = Err e <-> v <> VNull /\ f v = Err e).
Proof.
  intros A f v H. destruct (option_into_cases A f v) as (A1 & A2 & A3). splits; auto.
  intros x. rewrite A2. split; [tauto|]. intros E. split; [|assumption]. intros ->. eapply H; eassumption.
Qed.

Lemma option_inverse : forall E A (f : value -> res parse_error A) (g : A -> res E value) o,
  (forall x v, g x = Ok v -> v <> VNull /\ f v = Ok x) ->
  forall v, option_try_from g o = Ok v -> option_try_into f v = Ok o.
Proof.
  intros E A f g o H v Hv. destruct o as [x|]; cbn [option_try_from] in Hv.
  - apply option_into_cases. now apply H.
  - injection Hv as <-. reflexivity.
Qed.

(** ** Dates *)

Lemma leap_iff : forall y, leap_year y = true <-> is_leap y.
Proof.
  intros y. unfold leap_year, is_leap, divides.
  rewrite andb_true_iff, orb_true_iff, negb_true_iff.
  assert (D : forall n, 0 < n -> ((exists k, y = k * n) <-> y mod n = 0)).
  { intros n Hn. split.
    - intros (k & ->). apply Z.mod_mul. lia.
    - intros E. exists (y / n). rewrite (Z.div_mod y n) at 1 by lia. lia. }
  rewrite !D by lia. rewrite !Z.eqb_eq, Z.eqb_neq. tauto.
Qed.

Lemma month_days_spec : forall y m, 1 <= m <= 12 -> last_day y m (month_days y m).
Proof.
  intros y m Hm. unfold month_days. destruct (Z.eqb_spec m 2).
  - subst. destruct (leap_year y) eqn:E; constructor; rewrite <- leap_iff; congruence.
  - destruct ((m =? 4) || (m =? 6) || (m =? 9) || (m =? 11)) eqn:E; constructor; cbn [In]; lia.
Qed.

Lemma last_day_fun : forall y m l, last_day y m l -> 1 <= m <= 12 /\ l = month_days y m.
Proof.
  intros y m l H. destruct H as [y m H|y m H|y H|y H]; unfold month_days.
  - cbn [In] in H. split; [lia|]. replace (m =? 2) with false by lia.
    replace ((m =? 4) || (m =? 6) || (m =? 9) || (m =? 11)) with false by lia. reflexivity.
  - cbn [In] in H. split; [lia|]. replace (m =? 2) with false by lia.
    replace ((m =? 4) || (m =? 6) || (m =? 9) || (m =? 11)) with true by lia. reflexivity.
  - split; [lia|]. apply leap_iff in H. rewrite H. reflexivity.
  - split; [lia|]. destruct (leap_year y) eqn:E; [|reflexivity]. apply leap_iff in E. contradiction.
Qed.

Lemma month_days_le : forall y m, 28 <= month_days y m <= 31.
Proof.
  intros. unfold month_days. destruct (m =? 2); [destruct (leap_year y); lia|].
  destruct (_ || _); lia.
Qed.

Lemma ymd_iff : forall y m d, -262143 <= y <= 262142 ->
  (calendar_date y m d /\ from_ymd_opt y m d = Some (mkDate y m d)) \/
  (~ calendar_date y m d /\ from_ymd_opt y m d = None).
Proof.
  intros y m d Hy. unfold from_ymd_opt.
  destruct ((-262143 <=? y) && (y <=? 262142) && (1 <=? m) && (m <=? 12) && (1 <=? d) && (d <=? month_days y m)) eqn:E.
  - left. split; [|reflexivity]. exists (month_days y m). split; [apply month_days_spec|]; lia.
  - right. split; [|reflexivity]. intros (l & Hl & Hd). apply last_day_fun in Hl. destruct Hl as (Hm & ->). lia.
Qed.

Lemma hms_iff : forall h m s u, 0 <= h -> 0 <= m -> 0 <= s -> 0 <= u ->
  ((clock_time h m s u \/ leap_second h m s u) /\ from_hms_micro_opt h m s u = Some (mkTime h m s (u * 1000))) \/
  (~ (clock_time h m s u \/ leap_second h m s u) /\ from_hms_micro_opt h m s u = None).
Proof.
  intros h m s u Hh Hm Hs Hu. unfold from_hms_micro_opt, clock_time, leap_second. cbv zeta.
  destruct (u * 1000 >=? 4294967296) eqn:E0; [right; split; [lia | reflexivity]|].
  destruct ((h >=? 24) || (m >=? 60) || (s >=? 60)) eqn:E1; [right; split; [lia | reflexivity]|].
  destruct ((u * 1000 >=? 1000000000) && negb (s =? 59)) eqn:E2; [right; split; [lia | reflexivity]|].
  destruct (u * 1000 >=? 2000000000) eqn:E3; [right; split; [lia | reflexivity]|].
  left. split; [lia | reflexivity].
Qed.

Lemma date_small : forall y m d, calendar_date y m d -> 1 <= m <= 12 /\ 1 <= d <= 31.
Proof.
  intros y m d (l & Hl & Hd). apply last_day_fun in Hl. destruct Hl as (Hm & ->).
  pose proof (month_days_le y m). lia.
Qed.

Lemma date_convert : forall d, date_valid d ->
  (0 <= nd_year d < 65536 ->
   date_try_from d = Ok (VDate (nd_year d) (nd_month d) (nd_day d)) /\
   date_try_into (VDate (nd_year d) (nd_month d) (nd_day d)) = Ok d) /\
  (~ 0 <= nd_year d < 65536 -> date_try_from d = Err (SInvalidValue TDate)).
Proof.
  intros [y m d] (Hy & Hc). cbn [nd_year nd_month nd_day] in *. pose proof (date_small _ _ _ Hc).
  unfold date_try_from. cbn [nd_year nd_month nd_day]. split; intros H0.
  - replace ((0 <=? y) && (y <? 65536)) with true by lia.
    rewrite !Z.mod_small by lia. split; [reflexivity|].
    cbn [date_try_into]. destruct (ymd_iff y m d Hy) as [(_ & ->)|(N & _)]; [reflexivity | contradiction].
  - replace ((0 <=? y) && (y <? 65536)) with false by lia. reflexivity.
Qed.

Lemma datetime_convert : forall d t, date_valid d -> time_valid t ->
  (0 <= nd_year d < 65536 -> exists v,
   datetime_try_from d t = Ok v /\
   v = VDatetime (nd_year d) (nd_month d) (nd_day d) (nt_hour t) (nt_minute t) (nt_second t) (nt_nano t / 1000) /\
   datetime_try_into v =
     Ok (d, mkTime (nt_hour t) (nt_minute t) (nt_second t) (nt_nano t / 1000 * 1000))) /\
  (~ 0 <= nd_year d < 65536 -> datetime_try_from d t = Err (SInvalidValue TDatetime)).
Proof.
  intros [y m d] [h mi s n] (Hy & Hc) Ht. cbn [nd_year nd_month nd_day] in *.
  unfold time_valid in Ht. cbn [nt_hour nt_minute nt_second nt_nano] in *.
  pose proof (date_small _ _ _ Hc).
  unfold datetime_try_from. cbn [nd_year nd_month nd_day nt_hour nt_minute nt_second nt_nano].
  split; intros H0.
  - replace ((0 <=? y) && (y <? 65536)) with true by lia.
    rewrite (Z.mod_small m), (Z.mod_small d), (Z.mod_small h), (Z.mod_small mi), (Z.mod_small s) by lia.
    eexists. splits; [reflexivity | reflexivity |].
    cbn [datetime_try_into]. destruct (ymd_iff y m d Hy) as [(_ & ->)|(N & _)]; [|contradiction].
    destruct (hms_iff h mi s (n / 1000)) as [(_ & ->)|(N & _)]; try lia; [reflexivity|].
    exfalso. apply N. unfold clock_time, leap_second. lia.
  - replace ((0 <=? y) && (y <? 65536)) with false by lia. reflexivity.
Qed.

Lemma date_into_exact : forall y m d, unsigned_ok 2 y ->
  (forall x, date_try_into (VDate y m d) = Ok x <-> calendar_date y m d /\ x = mkDate y m d) /\
  (~ calendar_date y m d -> date_try_into (VDate y m d) = Err (EValueOutOfBounds (VDate y m d))).
Proof.
  intros y m d Hy. unfold unsigned_ok in Hy. change (256 ^ Z.of_nat 2) with 65536 in Hy.
  cbn [date_try_into]. destruct (ymd_iff y m d) as [(C & ->)|(N & ->)]; [lia | |]; split.
  - intros x. split; [intros E; injection E as <-; auto | intros (_ & ->); reflexivity].
  - intros N. contradiction.
  - intros x. split; [discriminate | tauto].
  - reflexivity.
Qed.

Lemma datetime_into_exact : forall y m d h mi s u, value_ok (VDatetime y m d h mi s u) ->
  let v := VDatetime y m d h mi s u in
  (forall x, datetime_try_into v = Ok x <->
     calendar_date y m d /\ (clock_time h mi s u \/ leap_second h mi s u) /\
     x = (mkDate y m d, mkTime h mi s (u * 1000))) /\
  (~ (calendar_date y m d /\ (clock_time h mi s u \/ leap_second h mi s u)) ->
   datetime_try_into v = Err (EValueOutOfBounds v)).
Proof.
  intros y m d h mi s u Hv v. cbn [value_ok] in Hv. unfold unsigned_ok in Hv.
  change (256 ^ Z.of_nat 2) with 65536 in Hv. change (256 ^ Z.of_nat 1) with 256 in Hv.
  unfold v. cbn [datetime_try_into].
  destruct (ymd_iff y m d) as [(C & ->)|(N & ->)]; [lia | |].
  - destruct (hms_iff h mi s u) as [(T & ->)|(N & ->)]; try lia; split.
    + intros x. split; [intros E; injection E as <-; auto | intros (_ & _ & ->); reflexivity].
    + intros N. exfalso. tauto.
    + intros x. split; [discriminate | tauto].
    + reflexivity.
  - split; [|reflexivity]. intros x. split; [discriminate | tauto].
Qed.

Lemma date_of_datetime_exact : forall y m d h mi s u, unsigned_ok 2 y ->
  (forall x, date_try_into (VDatetime y m d h mi s u) = Ok x <-> calendar_date y m d /\ x = mkDate y m d) /\
  (~ calendar_date y m d ->
   date_try_into (VDatetime y m d h mi s u) = Err (EValueOutOfBounds (VDatetime y m d h mi s u))).
Proof.
  intros y m d h mi s u Hy. unfold unsigned_ok in Hy. change (256 ^ Z.of_nat 2) with 65536 in Hy.
  cbn [date_try_into]. destruct (ymd_iff y m d) as [(C & ->)|(N & ->)]; [lia | |]; split.
  - intros x. split; [intros E; injection E as <-; auto | intros (_ & ->); reflexivity].
  - intros N. contradiction.
  - intros x. split; [discriminate | tauto].
  - reflexivity.
Qed.

Lemma dates_other : forall v,
  ((forall y m d, v <> VDate y m d) -> (forall y m d h mi s u, v <> VDatetime y m d h mi s u) ->
   date_try_into v = Err (EWrongValue TDate v)) /\
  ((forall y m d h mi s u, v <> VDatetime y m d h mi s u) ->
   datetime_try_into v = Err (EWrongValue TDatetime v)).
Proof.
  intros v. split.
  - intros A B. destruct v; try reflexivity; exfalso; [eapply A | eapply B]; reflexivity.
  - intros A. destruct v; try reflexivity; exfalso; eapply A; reflexivity.
Qed.

(** ** Durations *)

Lemma duration_other : forall v, (forall neg d h m s u, v <> VTime neg d h m s u) ->
  duration_try_into v = Err (EWrongValue TTime v).
Proof. intros v A. destruct v; try reflexivity; exfalso; eapply A; reflexivity. Qed.


Lemma duration_new_valid : forall s n d, 0 <= n -> duration_new s n = Some d -> duration_valid d /\ d = mkDuration s n.
Proof.
  intros s n d Hn H. unfold duration_new in H. cbv zeta in H.
  destruct (_ || _) eqn:E in H; [discriminate|]. injection H as <-.
  unfold duration_valid, total_nanos. cbn [du_secs du_nanos]. split; [lia | reflexivity].
Qed.

Lemma duration_new_ok : forall s n, duration_valid (mkDuration s n) -> duration_new s n = Some (mkDuration s n).
Proof.
  intros s n (H & R). unfold total_nanos in R. cbn [du_secs du_nanos] in *. unfold duration_new. cbv zeta.
  destruct (_ || _) eqn:E; [lia | reflexivity].
Qed.

Lemma duration_unique : forall a b, duration_valid a -> duration_valid b -> total_nanos a = total_nanos b -> a = b.
Proof.
  intros [s n] [s' n'] (A & _) (B & _) E. unfold total_nanos in E. cbn [du_secs du_nanos] in *.
  f_equal; lia.
Qed.

Lemma num_seconds_quot : forall d, 0 <= du_nanos d < 1000000000 -> num_seconds d = Z.quot (total_nanos d) 1000000000.
Proof.
  intros [s n] H. cbn [du_nanos] in H. unfold num_seconds, total_nanos. cbn [du_secs du_nanos].
  destruct ((s <? 0) && (n >? 0)) eqn:E.
  - rewrite <- (Z.opp_involutive (s * 1000000000 + n)), Z.quot_opp_l, Z.quot_div_nonneg by lia. lia.
  - destruct (Z.ltb_spec s 0).
    + assert (n = 0) by lia. subst. rewrite Z.add_0_r, Z.quot_mul by lia. reflexivity.
    + rewrite Z.quot_div_nonneg by lia. lia.
Qed.

Lemma subsec_rem : forall d, 0 <= du_nanos d < 1000000000 ->
  total_nanos d = num_seconds d * 1000000000 + subsec_nanos d /\
  Z.abs (subsec_nanos d) < 1000000000 /\
  (num_seconds d < 0 -> subsec_nanos d <= 0) /\ (0 < num_seconds d -> 0 <= subsec_nanos d).
Proof.
  intros [s n] H. cbn [du_nanos] in H. unfold num_seconds, subsec_nanos, total_nanos. cbn [du_secs du_nanos].
  destruct ((s <? 0) && (n >? 0)) eqn:E; lia.
Qed.

Lemma time_into_exact : forall neg d h m s u, value_ok (VTime neg d h m s u) ->
  let v := VTime neg d h m s u in
  (u < 1000000 -> exists x, duration_try_into v = Ok x /\ duration_valid x /\
     total_nanos x = time_micros neg d h m s u * 1000) /\
  (1000000 <= u -> duration_try_into v = Err (EValueOutOfBounds v)).
Proof.
  intros neg d h m s u Hv v. cbn [value_ok] in Hv. unfold unsigned_ok in Hv.
  change (256 ^ Z.of_nat 4) with 4294967296 in Hv. change (256 ^ Z.of_nat 1) with 256 in Hv.
  unfold v. cbn [duration_try_into]. split; intros Hu.
  - replace (u >=? 1000000) with false by lia. cbv zeta.
    assert (G : forall x n, 0 <= n < 1000000000 -> x * 1000000000 + n = time_micros neg d h m s u * 1000 ->
      exists y, match duration_new x n with Some r => Ok r | None => @Err parse_error duration (EValueOutOfBounds (VTime neg d h m s u)) end = Ok y
        /\ duration_valid y /\ total_nanos y = time_micros neg d h m s u * 1000).
    { intros x n Hn E.
      assert (V : duration_valid (mkDuration x n)).
      { split; [assumption|]. unfold total_nanos. cbn [du_secs du_nanos]. rewrite E. unfold time_micros.
        destruct neg; lia. }
      rewrite (duration_new_ok _ _ V). eexists. split; [reflexivity | split; [exact V | exact E]]. }
    unfold time_micros in *.
    destruct neg.
    + destruct (Z.eqb_spec u 0); cbn [negb]; apply G; lia.
    + apply G; lia.
  - replace (u >=? 1000000) with true by lia. reflexivity.
Qed.

Lemma duration_from_micros : forall d, duration_valid d -> Z.abs (Z.quot (total_nanos d) 86400000000000) < 4294967296 ->
  exists neg a b c e f, duration_from d = VTime neg a b c e f /\ value_ok (VTime neg a b c e f) /\ f < 1000000 /\
    time_micros neg a b c e f =
      (if (-1000000000 <? total_nanos d) && (total_nanos d <? 0) then - trunc_micros (total_nanos d)
       else trunc_micros (total_nanos d)).
Proof.
  intros d (Hn & Hr) Hd. destruct (subsec_rem d Hn) as (E & Hs & Hneg & Hpos).
  unfold duration_from. cbv zeta.
  set (S := num_seconds d) in *. set (N := subsec_nanos d) in *. set (T := total_nanos d) in *.
  assert (Q : Z.abs (Z.quot T 86400000000000) = Z.abs T / 86400000000000).
  { destruct (Z.leb_spec 0 T).
    - rewrite Z.quot_div_nonneg by lia. rewrite !Z.abs_eq; lia.
    - rewrite <- (Z.opp_involutive T), Z.quot_opp_l, Z.quot_div_nonneg by lia. rewrite Z.opp_involutive.
      rewrite Z.abs_opp, Z.abs_eq, (Z.abs_neq T) by lia. reflexivity. }
  rewrite Q in Hd.
  assert (QT : trunc_micros T = (if T <? 0 then - (- T / 1000) else T / 1000)).
  { unfold trunc_micros. destruct (Z.ltb_spec T 0).
    - rewrite <- (Z.opp_involutive T), Z.quot_opp_l, Z.quot_div_nonneg by lia. rewrite Z.opp_involutive. reflexivity.
    - rewrite Z.quot_div_nonneg by lia. reflexivity. }
  assert (Days : 0 <= Z.abs S / 60 / 60 / 24 < 4294967296).
  { clear Q QT. lia. }
  eexists _, _, _, _, _, _. splits; [reflexivity | | |].
  - cbn [value_ok]. unfold unsigned_ok.
    change (256 ^ Z.of_nat 4) with 4294967296. change (256 ^ Z.of_nat 1) with 256. clear Q QT Hd E. lia.
  - clear Q QT Hd E. lia.
  - rewrite (Z.mod_small (Z.abs S / 60 / 60 / 24)) by lia. rewrite QT. unfold time_micros.
    clear Q QT Days Hd Hr.
    assert (X : Z.abs S / 60 / 60 / 24 * 86400 + (Z.abs S / 60 / 60) mod 24 * 3600 + (Z.abs S / 60) mod 60 * 60 + Z.abs S mod 60 = Z.abs S) by lia.
    rewrite X. clear X.
    destruct (S <? 0) eqn:ES; destruct (T <? 0) eqn:ET; destruct (-1000000000 <? T) eqn:E1; cbn [andb]; lia.
Qed.

Lemma duration_round_trip : forall d, duration_valid d -> Z.abs (Z.quot (total_nanos d) 86400000000000) < 4294967296 ->
  exists d', duration_try_into (duration_from d) = Ok d' /\ duration_valid d' /\
    (total_nanos d' = trunc_micros (total_nanos d) * 1000 <->
     ~ (-1000000000 < total_nanos d <= -1000)).
Proof.
  intros d V Hd. destruct (duration_from_micros d V Hd) as (neg & a & b & c & e & f & E & Hv & Hf & M).
  rewrite E. destruct (time_into_exact neg a b c e f Hv) as (A & _). destruct (A Hf) as (x & Ex & Vx & Tx).
  exists x. split; [assumption | split; [exact Vx |]].
  rewrite Tx, M. set (T := total_nanos d). clear.
  assert (QT : trunc_micros T = (if T <? 0 then - (- T / 1000) else T / 1000)).
  { unfold trunc_micros. destruct (Z.ltb_spec T 0).
    - rewrite <- (Z.opp_involutive T), Z.quot_opp_l, Z.quot_div_nonneg by lia. rewrite Z.opp_involutive. reflexivity.
    - rewrite Z.quot_div_nonneg by lia. reflexivity. }
  rewrite QT. clear QT.
  destruct (T <? 0) eqn:ET; destruct (-1000000000 <? T) eqn:E1; cbn [andb]; lia.
Qed.

(** ** Booleans *)

Lemma bool_exact : forall v n, int_of v = Some n -> bool_try_into v = Ok (0 <? n).
Proof. intros v n H. destruct v; try discriminate; injection H as <-; cbn; now rewrite Z.gtb_ltb. Qed.

Lemma bool_truth : forall v n, int_of v = Some n ->
  (bool_try_into v = Ok (negb (n =? 0)) <-> 0 <= n).
Proof.
  intros v n H. rewrite (bool_exact v n H). split; intros E.
  - injection E as E. destruct (Z.ltb_spec 0 n); destruct (Z.eqb_spec n 0); cbn in E; try discriminate; lia.
  - f_equal. destruct (Z.ltb_spec 0 n); destruct (Z.eqb_spec n 0); cbn; lia || reflexivity.
Qed.

Lemma bool_other : forall v, int_of v = None -> bool_try_into v = Err (EWrongValue TNumber v).
Proof. intros v H. destruct v; try discriminate; reflexivity. Qed.

Lemma bool_round_trip : forall b, bool_try_into (bool_from b) = Ok b.
Proof. destruct b; reflexivity. Qed.

(** ** Every conversion rejects NULL *)
Lemma all_reject_null :
  (forall p ctor ty, prim_spec p ctor ty -> prim_try_into p VNull = Err (EWrongValue ty VNull)) /\
  bool_try_into VNull = Err (EWrongValue TNumber VNull) /\
  string_try_into VNull = Err (EWrongValue TBytes VNull) /\
  vec_try_into VNull = Err (EWrongValue TBytes VNull) /\
  date_try_into VNull = Err (EWrongValue TDate VNull) /\
  datetime_try_into VNull = Err (EWrongValue TDatetime VNull) /\
  duration_try_into VNull = Err (EWrongValue TTime VNull).
Proof. splits; try reflexivity. destruct 1; reflexivity. Qed.
