(** Facts about calendar, clock, durations and UTF-8 that the conversion properties refer to.
    Uses only the record types of the model,
    none of its functions. *)
From Coq Require Import ZArith List Bool.
From Verif Require Import Types Conversion.
Import ListNotations.
Open Scope Z_scope.

(** ** Calendar *)
Definition divides (a b : Z) : Prop := exists k, b = k * a.

(** Gregorian leap years. *)
Definition is_leap (y : Z) : Prop := divides 4 y /\ (~ divides 100 y \/ divides 400 y).

(** Last day of a month. *)
Inductive last_day : Z -> Z -> Z -> Prop :=
| ld31 : forall y m, In m [1; 3; 5; 7; 8; 10; 12] -> last_day y m 31
| ld30 : forall y m, In m [4; 6; 9; 11] -> last_day y m 30
| ld29 : forall y, is_leap y -> last_day y 2 29
| ld28 : forall y, ~ is_leap y -> last_day y 2 28.

Definition calendar_date (y m d : Z) : Prop := exists l, last_day y m l /\ 1 <= d <= l.

(** Time of day with microseconds. *)
Definition clock_time (h m s u : Z) : Prop :=
  0 <= h < 24 /\ 0 <= m < 60 /\ 0 <= s < 60 /\ 0 <= u < 1000000.

(** Leap second in chrono's representation: second 59 with a fraction of one second or more. *)
Definition leap_second (h m s u : Z) : Prop :=
  0 <= h < 24 /\ 0 <= m < 60 /\ s = 59 /\ 1000000 <= u < 2000000.

(** ** TIME values *)

(** A TIME value in microseconds. *)
Definition time_micros (neg : bool) (days hours minutes seconds micros : Z) : Z :=
  (if neg then -1 else 1) *
  ((days * 86400 + hours * 3600 + minutes * 60 + seconds) * 1000000 + micros).

(** ** UTF-8: byte sequences of Unicode scalar values *)
Inductive utf8_char : Z -> list Z -> Prop :=
| utf8_1 : forall c, 0 <= c < 128 -> utf8_char c [c]
| utf8_2 : forall a b, 0 <= a < 32 -> 0 <= b < 64 -> 128 <= 64 * a + b < 2048 ->
    utf8_char (64 * a + b) [192 + a; 128 + b]
| utf8_3 : forall a b c, 0 <= a < 16 -> 0 <= b < 64 -> 0 <= c < 64 ->
    2048 <= 4096 * a + 64 * b + c < 65536 -> ~ (55296 <= 4096 * a + 64 * b + c < 57344) ->
    utf8_char (4096 * a + 64 * b + c) [224 + a; 128 + b; 128 + c]
| utf8_4 : forall a b c d, 0 <= a < 8 -> 0 <= b < 64 -> 0 <= c < 64 -> 0 <= d < 64 ->
    65536 <= 262144 * a + 4096 * b + 64 * c + d < 1114112 ->
    utf8_char (262144 * a + 4096 * b + 64 * c + d) [240 + a; 128 + b; 128 + c; 128 + d].

Inductive utf8_text : list Z -> list Z -> Prop :=
| utf8_nil : utf8_text [] []
| utf8_cons : forall c s w l, utf8_char c w -> utf8_text s l -> utf8_text (c :: s) (w ++ l).

(** ** Values of the Rust types *)
(** A date chrono can hold. *)
Definition date_valid (d : naive_date) : Prop :=
  -262143 <= nd_year d <= 262142 /\ calendar_date (nd_year d) (nd_month d) (nd_day d).

(** A time of day chrono can hold. *)
Definition time_valid (t : naive_time) : Prop :=
  0 <= nt_hour t < 24 /\ 0 <= nt_minute t < 60 /\ 0 <= nt_second t < 60 /\
  (0 <= nt_nano t < 1000000000 \/ nt_second t = 59 /\ 0 <= nt_nano t < 2000000000).

(** Total nanoseconds. *)
Definition total_nanos (d : duration) : Z := du_secs d * 1000000000 + du_nanos d.

(** A duration chrono can hold: the nanosecond part normalised, at most i64::MAX milliseconds. *)
Definition duration_valid (d : duration) : Prop :=
  0 <= du_nanos d < 1000000000 /\
  -9223372036854775807000000 <= total_nanos d <= 9223372036854775807000000.

(** Truncation to microseconds, towards zero. *)
Definition trunc_micros (t : Z) : Z := Z.quot t 1000.

(** The integer in an integer value. *)
Definition int_of (v : value) : option Z :=
  match v with
  | VTiny x | VShort x | VInt x | VLong x | VUTiny x | VUShort x | VUInt x | VULong x => Some x
  | _ => None
  end.


(** The variant and the name of each primitive type. *)
Inductive prim_spec : prim -> (Z -> value) -> value_type -> Prop :=
| ps_i8 : prim_spec I8 VTiny TTiny
| ps_i16 : prim_spec I16 VShort TShort
| ps_i32 : prim_spec I32 VInt TInt
| ps_i64 : prim_spec I64 VLong TLong
| ps_u8 : prim_spec U8 VUTiny TUTiny
| ps_u16 : prim_spec U16 VUShort TUShort
| ps_u32 : prim_spec U32 VUInt TUInt
| ps_u64 : prim_spec U64 VULong TULong
| ps_f32 : prim_spec F32 VFloat TFloat
| ps_f64 : prim_spec F64 VDouble TDouble.
