(** Conversions between Rust values and [Value]: src/types/value/conversion.rs, src/types/hex.rs.
    The chrono types are given by their documented fields and constructors. *)
From Coq Require Import ZArith List Bool.
From Verif Require Import Base Types Utf8.
Import ListNotations.
Open Scope Z_scope.

(** ** Primitive types *)

(** The types of src/types/value/conversion.rs:28-39; floats by bit pattern. *)
Inductive prim : Type := I8 | I16 | I32 | I64 | U8 | U16 | U32 | U64 | F32 | F64.

(** [ValueType::$name]: src/types/value/conversion.rs:21, 28-39 *)
Definition prim_type (p : prim) : value_type :=
  match p with
  | I8 => TTiny | I16 => TShort | I32 => TInt | I64 => TLong
  | U8 => TUTiny | U16 => TUShort | U32 => TUInt | U64 => TULong
  | F32 => TFloat | F64 => TDouble
  end.

(** [From<$t> for Value]: src/types/value/conversion.rs:9-13 *)
Definition prim_from (p : prim) (x : Z) : value :=
  match p with
  | I8 => VTiny x | I16 => VShort x | I32 => VInt x | I64 => VLong x
  | U8 => VUTiny x | U16 => VUShort x | U32 => VUInt x | U64 => VULong x
  | F32 => VFloat x | F64 => VDouble x
  end.

(** [TryInto<$t> for Value]: src/types/value/conversion.rs:15-24 *)
Definition prim_try_into (p : prim) (v : value) : res parse_error Z :=
  match p, v with
  | I8, VTiny x | I16, VShort x | I32, VInt x | I64, VLong x
  | U8, VUTiny x | U16, VUShort x | U32, VUInt x | U64, VULong x
  | F32, VFloat x | F64, VDouble x => Ok x
  | _, _ => Err (EWrongValue (prim_type p) v)
  end.

(** [From<bool>]: src/types/value/conversion.rs:41-45 *)
Definition bool_from (b : bool) : value := VTiny (if b then 1 else 0).

(** [TryInto<bool>]: src/types/value/conversion.rs:47-63 *)
Definition bool_try_into (v : value) : res parse_error bool :=
  match v with
  | VTiny x | VShort x | VInt x | VLong x | VUTiny x | VUShort x | VUInt x | VULong x => Ok (x >? 0)
  | _ => Err (EWrongValue TNumber v)
  end.

(** [From<String>]: src/types/value/conversion.rs:65-69 *)
Definition string_from (s : str) : value := VBytes (utf8_encode s).

(** [TryInto<String>]: src/types/value/conversion.rs:71-80 *)
Definition string_try_into (v : value) : res parse_error str :=
  match v with
  | VBytes x => match utf8_decode x with Some s => Ok s | None => Err EFromUtf8 end
  | _ => Err (EWrongValue TBytes v)
  end.

(** [From<Vec<u8>>]: src/types/value/conversion.rs:82-86; [From<Hex>]: src/types/hex.rs:89-93 *)
Definition vec_from (b : bytes) : value := VBytes b.

(** [TryInto<Vec<u8>>]: src/types/value/conversion.rs:88-97; [TryInto<Hex>]: src/types/hex.rs:95-104 *)
Definition vec_try_into (v : value) : res parse_error bytes :=
  match v with
  | VBytes x => Ok x
  | _ => Err (EWrongValue TBytes v)
  end.

(** ** Dates (crate chrono) *)

(** [chrono::NaiveDate], used at src/types/value/conversion.rs:4 *)
Record naive_date : Type := mkDate { nd_year : Z; nd_month : Z; nd_day : Z }.

(** [chrono::NaiveTime], used at src/types/value/conversion.rs:4; the nanoseconds exceed
    999999999 in the representation of a leap second. *)
Record naive_time : Type := mkTime { nt_hour : Z; nt_minute : Z; nt_second : Z; nt_nano : Z }.

(** Proleptic Gregorian calendar of chrono (src/types/value/conversion.rs:139) *)
Definition leap_year (y : Z) : bool := (y mod 4 =? 0) && (negb (y mod 100 =? 0) || (y mod 400 =? 0)).

(** Proleptic Gregorian calendar of chrono (src/types/value/conversion.rs:139) *)
Definition month_days (y m : Z) : Z :=
  if m =? 2 then if leap_year y then 29 else 28
  else if (m =? 4) || (m =? 6) || (m =? 9) || (m =? 11) then 30 else 31.

(** [NaiveDate::from_ymd_opt] (chrono 0.4.38), used at src/types/value/conversion.rs:139, 153 *)
Definition from_ymd_opt (y m d : Z) : option naive_date :=
  if (-262143 <=? y) && (y <=? 262142) && (1 <=? m) && (m <=? 12) && (1 <=? d) && (d <=? month_days y m)
  then Some (mkDate y m d) else None.

(** [NaiveTime::from_hms_micro_opt] (chrono 0.4.38), used at src/types/value/conversion.rs:158 *)
Definition from_hms_micro_opt (h m s micro : Z) : option naive_time :=
  let nano := micro * 1000 in
  if nano >=? 4294967296 then None
  else if (h >=? 24) || (m >=? 60) || (s >=? 60) then None
  else if (nano >=? 1000000000) && negb (s =? 59) then None
  else if nano >=? 2000000000 then None
  else Some (mkTime h m s nano).

(** [i32 -> u16] [try_into] of the year, then casts: src/types/value/conversion.rs:102-111 *)
Definition date_try_from (d : naive_date) : res serialize_error value :=
  if (0 <=? nd_year d) && (nd_year d <? 65536)
  then Ok (VDate (nd_year d) (nd_month d mod 256) (nd_day d mod 256))
  else Err (SInvalidValue TDate).

(** src/types/value/conversion.rs:117-130 *)
Definition datetime_try_from (d : naive_date) (t : naive_time) : res serialize_error value :=
  if (0 <=? nd_year d) && (nd_year d <? 65536)
  then Ok (VDatetime (nd_year d) (nd_month d mod 256) (nd_day d mod 256)
             (nt_hour t mod 256) (nt_minute t mod 256) (nt_second t mod 256) (nt_nano t / 1000))
  else Err (SInvalidValue TDatetime).

(** src/types/value/conversion.rs:136-144 *)
Definition date_try_into (v : value) : res parse_error naive_date :=
  match v with
  | VDate y m d | VDatetime y m d _ _ _ _ =>
    match from_ymd_opt y m d with
    | Some x => Ok x
    | None => Err (EValueOutOfBounds v)
    end
  | _ => Err (EWrongValue TDate v)
  end.

(** src/types/value/conversion.rs:150-164 *)
Definition datetime_try_into (v : value) : res parse_error (naive_date * naive_time) :=
  match v with
  | VDatetime y m d h mi s u =>
    match from_ymd_opt y m d with
    | None => Err (EValueOutOfBounds v)
    | Some date =>
      match from_hms_micro_opt h mi s u with
      | None => Err (EValueOutOfBounds v)
      | Some time => Ok (date, time)
      end
    end
  | _ => Err (EWrongValue TDatetime v)
  end.

(** ** Durations (crate chrono) *)

(** [chrono::Duration] (TimeDelta): seconds and a non-negative nanosecond part
    (src/types/value/conversion.rs:203-204) *)
Record duration : Type := mkDuration { du_secs : Z; du_nanos : Z }.

(** [TimeDelta::new] (chrono 0.4.38), used at src/types/value/conversion.rs:218; the range is that
    of an i64 number of milliseconds without the least one. *)
Definition duration_new (secs nanos : Z) : option duration :=
  let max_secs := 9223372036854775 in
  let min_secs := -9223372036854776 in
  if (secs <? min_secs) || (max_secs <? secs) || (nanos >=? 1000000000)
     || ((secs =? max_secs) && (nanos >? 807000000))
     || ((secs =? min_secs) && (nanos <? 193000000))
  then None else Some (mkDuration secs nanos).

(** [TimeDelta::num_seconds] (chrono), used at src/types/value/conversion.rs:169, 175 *)
Definition num_seconds (d : duration) : Z :=
  if (du_secs d <? 0) && (du_nanos d >? 0) then du_secs d + 1 else du_secs d.

(** [TimeDelta::subsec_nanos] (chrono), used at src/types/value/conversion.rs:180 *)
Definition subsec_nanos (d : duration) : Z :=
  if (du_secs d <? 0) && (du_nanos d >? 0) then du_nanos d - 1000000000 else du_nanos d.

(** [From<Duration>]: src/types/value/conversion.rs:167-183 *)
Definition duration_from (d : duration) : value :=
  let seconds := Z.abs (num_seconds d) in
  let minutes := seconds / 60 in
  let hours := minutes / 60 in
  let days := hours / 24 in
  VTime (num_seconds d <? 0) (days mod 4294967296) (hours mod 24) (minutes mod 60) (seconds mod 60)
    (Z.abs (subsec_nanos d) / 1000).

(** [TryInto<Duration>]: src/types/value/conversion.rs:185-223 *)
Definition duration_try_into (v : value) : res parse_error duration :=
  match v with
  | VTime negative days hours minutes seconds micros =>
    if micros >=? 1000000 then Err (EValueOutOfBounds v)
    else
    let x := ((days * 24 + hours) * 60 + minutes) * 60 + seconds in
    let '(x, nanos) :=
      if negative then
        if negb (micros =? 0) then (x * -1 - 1, (1000000 - micros) * 1000) else (x * -1, 0)
      else (x, micros * 1000) in
    match duration_new x nanos with
    | Some d => Ok d
    | None => Err (EValueOutOfBounds v)
    end
  | _ => Err (EWrongValue TTime v)
  end.

(** ** Options *)

(** [TryFrom<Option<T>> for Value]: src/types/value/conversion.rs:225-237; [g] is the conversion of T. *)
Definition option_try_from {E A} (g : A -> res E value) (o : option A) : res E value :=
  match o with
  | Some x => g x
  | None => Ok VNull
  end.

(** [impl_try_into_option!]: src/types/value/conversion.rs:239-258, src/types/hex.rs:106; [f] is the
    conversion to T. *)
Definition option_try_into {A} (f : value -> res parse_error A) (v : value) : res parse_error (option A) :=
  match v with
  | VNull => Ok None
  | x => rmap Some (f x)
  end.
