(** Properties C23-C28: conversions between Rust values and [Value]. *)
From Coq Require Import ZArith List Bool Lia.
From Verif Require Import Base BaseFacts Types Utf8 Conversion Spec_Conv Conversion_proofs.
Import ListNotations.
Open Scope Z_scope.

(** C23: each primitive is wrapped in its own variant, read back unchanged, and every other
    variant is refused with the expected type and the offending value. *)
Theorem C23_primitives : forall p ctor ty, prim_spec p ctor ty ->
  (forall x, prim_from p x = ctor x /\ prim_try_into p (ctor x) = Ok x) /\
  (forall v, (forall x, v <> ctor x) -> prim_try_into p v = Err (EWrongValue ty v)).
Proof. exact prim_exact_spec. Qed.
Print Assumptions C23_primitives.

Theorem C23_strings_and_bytes :
  (forall s, str_ok s -> string_try_into (string_from s) = Ok s) /\
  (forall b, vec_from b = VBytes b /\ vec_try_into (VBytes b) = Ok b) /\
  (forall v, (forall b, v <> VBytes b) ->
     string_try_into v = Err (EWrongValue TBytes v) /\ vec_try_into v = Err (EWrongValue TBytes v)).
Proof.
  split; [exact string_round_trip|]. split; [split; reflexivity|].
  intros v H. split; [exact (string_other v H) | exact (vec_other v H)].
Qed.
Print Assumptions C23_strings_and_bytes.

Example C23_case :
  prim_try_into I16 (prim_from I16 (-300)) = Ok (-300) /\
  prim_try_into I16 (VUShort 5) = Err (EWrongValue TShort (VUShort 5)) /\
  string_try_into (string_from [104; 8364]) = Ok [104; 8364] /\
  string_try_into (VInt 1) = Err (EWrongValue TBytes (VInt 1)).
Proof. splits; vm_compute; reflexivity. Qed.

(** C24: for every target type with a conversion [f] that refuses NULL. *)
Theorem C24_option : forall A (f : value -> res parse_error A) v, (forall x, f VNull <> Ok x) ->
  (option_try_into f v = Ok None <-> v = VNull) /\
  (forall x, option_try_into f v = Ok (Some x) <-> f v = Ok x) /\
  (forall e, option_try_into f v = Err e <-> v <> VNull /\ f v = Err e).
Proof. exact option_into_exact. Qed.
Print Assumptions C24_option.

(** All conversions of the crate refuse NULL. *)
Theorem C24_null_refused :
  (forall p ctor ty, prim_spec p ctor ty -> prim_try_into p VNull = Err (EWrongValue ty VNull)) /\
  bool_try_into VNull = Err (EWrongValue TNumber VNull) /\
  string_try_into VNull = Err (EWrongValue TBytes VNull) /\
  vec_try_into VNull = Err (EWrongValue TBytes VNull) /\
  date_try_into VNull = Err (EWrongValue TDate VNull) /\
  datetime_try_into VNull = Err (EWrongValue TDatetime VNull) /\
  duration_try_into VNull = Err (EWrongValue TTime VNull).
Proof. exact all_reject_null. Qed.
Print Assumptions C24_null_refused.

(** Writing an option and reading it back. *)
Theorem C24_option_inverse : forall E A (f : value -> res parse_error A) (g : A -> res E value) o,
  (forall x v, g x = Ok v -> v <> VNull /\ f v = Ok x) ->
  (option_try_from g None = Ok VNull) /\
  (forall x, option_try_from g (Some x) = g x) /\
  forall v, option_try_from g o = Ok v -> option_try_into f v = Ok o.
Proof. intros E A f g o H. split; [reflexivity|]. split; [reflexivity|]. exact (option_inverse E A f g o H). Qed.
Print Assumptions C24_option_inverse.

Example C24_case :
  option_try_into (prim_try_into U8) VNull = Ok None /\
  option_try_into (prim_try_into U8) (VUTiny 0) = Ok (Some 0) /\
  option_try_into (prim_try_into U8) (VTiny 0) = Err (EWrongValue TUTiny (VTiny 0)).
Proof. splits; reflexivity. Qed.

(** C25 *)
Theorem C25_string_utf8 : forall b, bytes_ok b ->
  (forall s, string_try_into (VBytes b) = Ok s <-> utf8_text s b) /\
  ((forall s, ~ utf8_text s b) -> string_try_into (VBytes b) = Err EFromUtf8).
Proof. intros b H. split; [intros s; exact (string_utf8 b s H) | exact (string_not_utf8 b H)]. Qed.
Print Assumptions C25_string_utf8.

Example C25_case :
  string_try_into (VBytes [240; 159; 152; 128; 65]) = Ok [128512; 65] /\
  string_try_into (VBytes [237; 160; 128]) = Err EFromUtf8 /\
  string_try_into (VBytes [192; 128]) = Err EFromUtf8.
Proof. splits; vm_compute; reflexivity. Qed.

(** C26: dates. *)
Theorem C26_date : forall d, date_valid d ->
  (0 <= nd_year d < 65536 ->
   date_try_from d = Ok (VDate (nd_year d) (nd_month d) (nd_day d)) /\
   date_try_into (VDate (nd_year d) (nd_month d) (nd_day d)) = Ok d) /\
  (~ 0 <= nd_year d < 65536 -> date_try_from d = Err (SInvalidValue TDate)).
Proof. exact date_convert. Qed.
Print Assumptions C26_date.

Theorem C26_date_values : forall y m d, unsigned_ok 2 y ->
  (forall x, date_try_into (VDate y m d) = Ok x <-> calendar_date y m d /\ x = mkDate y m d) /\
  (~ calendar_date y m d -> date_try_into (VDate y m d) = Err (EValueOutOfBounds (VDate y m d))).
Proof. exact date_into_exact. Qed.
Print Assumptions C26_date_values.

(** Datetimes lose what is below a microsecond. *)
Theorem C26_datetime : forall d t, date_valid d -> time_valid t ->
  (0 <= nd_year d < 65536 -> exists v,
   datetime_try_from d t = Ok v /\
   v = VDatetime (nd_year d) (nd_month d) (nd_day d) (nt_hour t) (nt_minute t) (nt_second t) (nt_nano t / 1000) /\
   datetime_try_into v =
     Ok (d, mkTime (nt_hour t) (nt_minute t) (nt_second t) (nt_nano t / 1000 * 1000))) /\
  (~ 0 <= nd_year d < 65536 -> datetime_try_from d t = Err (SInvalidValue TDatetime)).
Proof. exact datetime_convert. Qed.
Print Assumptions C26_datetime.

(** Exactly the calendar dates with a clock time are accepted, and besides those second 59 with a
    fraction of one to two seconds (chrono's leap seconds). *)
Theorem C26_datetime_values_partial : forall y m d h mi s u, value_ok (VDatetime y m d h mi s u) ->
  let v := VDatetime y m d h mi s u in
  (forall x, datetime_try_into v = Ok x <->
     calendar_date y m d /\ (clock_time h mi s u \/ leap_second h mi s u) /\
     x = (mkDate y m d, mkTime h mi s (u * 1000))) /\
  (~ (calendar_date y m d /\ (clock_time h mi s u \/ leap_second h mi s u)) ->
   datetime_try_into v = Err (EValueOutOfBounds v)).
Proof. exact datetime_into_exact. Qed.
Print Assumptions C26_datetime_values_partial.

Theorem C26_datetime_values_refuted : exists y m d h mi s u x,
  value_ok (VDatetime y m d h mi s u) /\ ~ clock_time h mi s u /\
  datetime_try_into (VDatetime y m d h mi s u) = Ok x.
Proof.
  exists 2024, 1, 1, 10, 20, 59, 1500000. eexists. splits; [| |vm_compute; reflexivity].
  - cbn [value_ok]. unfold unsigned_ok. lia.
  - unfold clock_time. lia.
Qed.
Print Assumptions C26_datetime_values_refuted.

(** A date read from a datetime value takes the date part and ignores the time part, valid or not. *)
Theorem C26_date_of_datetime : forall y m d h mi s u, unsigned_ok 2 y ->
  (forall x, date_try_into (VDatetime y m d h mi s u) = Ok x <-> calendar_date y m d /\ x = mkDate y m d) /\
  (~ calendar_date y m d ->
   date_try_into (VDatetime y m d h mi s u) = Err (EValueOutOfBounds (VDatetime y m d h mi s u))).
Proof. exact date_of_datetime_exact. Qed.
Print Assumptions C26_date_of_datetime.

(** Values of other types are refused. *)
Theorem C26_other_types : forall v,
  ((forall y m d, v <> VDate y m d) -> (forall y m d h mi s u, v <> VDatetime y m d h mi s u) ->
   date_try_into v = Err (EWrongValue TDate v)) /\
  ((forall y m d h mi s u, v <> VDatetime y m d h mi s u) ->
   datetime_try_into v = Err (EWrongValue TDatetime v)).
Proof. exact dates_other. Qed.
Print Assumptions C26_other_types.

Example C26_case :
  date_try_into (VDate 2000 2 29) = Ok (mkDate 2000 2 29) /\
  date_try_into (VDate 1900 2 29) = Err (EValueOutOfBounds (VDate 1900 2 29)) /\
  date_try_into (VDate 0 0 0) = Err (EValueOutOfBounds (VDate 0 0 0)) /\
  datetime_try_into (VDatetime 2023 12 31 23 59 59 999999) =
    Ok (mkDate 2023 12 31, mkTime 23 59 59 999999000) /\
  date_try_from (mkDate (-1) 1 1) = Err (SInvalidValue TDate).
Proof. splits; vm_compute; reflexivity. Qed.

(** C27: from values to durations, exactly. *)
Theorem C27_time_to_duration : forall neg d h m s u, value_ok (VTime neg d h m s u) ->
  let v := VTime neg d h m s u in
  (u < 1000000 -> exists x, duration_try_into v = Ok x /\ duration_valid x /\
     total_nanos x = time_micros neg d h m s u * 1000) /\
  (1000000 <= u -> duration_try_into v = Err (EValueOutOfBounds v)).
Proof. exact time_into_exact. Qed.
Print Assumptions C27_time_to_duration.

(** The round trip truncates towards zero to microseconds exactly for durations that are not
    strictly between minus one second and minus one microsecond (inclusive). *)
Theorem C27_round_trip_partial : forall d, duration_valid d ->
  Z.abs (Z.quot (total_nanos d) 86400000000000) < 4294967296 ->
  exists d', duration_try_into (duration_from d) = Ok d' /\ duration_valid d' /\
    (total_nanos d' = trunc_micros (total_nanos d) * 1000 <->
     ~ (-1000000000 < total_nanos d <= -1000)).
Proof. exact duration_round_trip. Qed.
Print Assumptions C27_round_trip_partial.

(** Minus half a second comes back as plus half a second. *)
Theorem C27_round_trip_refuted : exists d d', duration_valid d /\
  total_nanos d = -500000000 /\ duration_try_into (duration_from d) = Ok d' /\ total_nanos d' = 500000000.
Proof.
  exists (mkDuration (-1) 500000000), (mkDuration 0 500000000).
  unfold duration_valid, total_nanos. cbn [du_secs du_nanos].
  split; [lia|]. splits; vm_compute; reflexivity.
Qed.
Print Assumptions C27_round_trip_refuted.

(** The day count is cut to 32 bits without an error. *)
Theorem C27_days_refuted : exists d d', duration_valid d /\
  duration_try_into (duration_from d) = Ok d' /\ total_nanos d = 4294967296 * 86400000000000 /\ total_nanos d' = 0.
Proof.
  exists (mkDuration (4294967296 * 86400) 0), (mkDuration 0 0).
  unfold duration_valid, total_nanos. cbn [du_secs du_nanos].
  split; [lia|]. splits; vm_compute; reflexivity.
Qed.
Print Assumptions C27_days_refuted.

Theorem C27_other_types : forall v, (forall neg d h m s u, v <> VTime neg d h m s u) ->
  duration_try_into v = Err (EWrongValue TTime v).
Proof. exact duration_other. Qed.
Print Assumptions C27_other_types.

Example C27_case :
  duration_from (mkDuration (-2) 500000000) = VTime true 0 0 0 1 500000 /\
  duration_try_into (VTime true 0 0 0 1 500000) = Ok (mkDuration (-2) 500000000) /\
  duration_from (mkDuration 200000 1999) = VTime false 2 7 33 20 1.
Proof. splits; vm_compute; reflexivity. Qed.

(** C28: SQL truth holds exactly for the integers that are not negative. *)
Theorem C28_bool_partial : forall v n, int_of v = Some n ->
  bool_try_into v = Ok (0 <? n) /\ (bool_try_into v = Ok (negb (n =? 0)) <-> 0 <= n).
Proof. intros v n H. split; [exact (bool_exact v n H) | exact (bool_truth v n H)]. Qed.
Print Assumptions C28_bool_partial.

Theorem C28_bool_refuted : exists v n, int_of v = Some n /\ n <> 0 /\ bool_try_into v = Ok false.
Proof. exists (VInt (-1)), (-1). splits; [reflexivity | lia | reflexivity]. Qed.
Print Assumptions C28_bool_refuted.

Theorem C28_bool_round_trip : forall b,
  bool_from b = VTiny (if b then 1 else 0) /\ bool_try_into (bool_from b) = Ok b.
Proof. intros b. split; [reflexivity | exact (bool_round_trip b)]. Qed.
Print Assumptions C28_bool_round_trip.

Theorem C28_other_types : forall v, int_of v = None -> bool_try_into v = Err (EWrongValue TNumber v).
Proof. exact bool_other. Qed.
Print Assumptions C28_other_types.

Example C28_case : bool_try_into (VULong 7) = Ok true /\ bool_try_into (VShort 0) = Ok false.
Proof. split; reflexivity. Qed.
