(** Specification of C105: the packets that are read as rows, whether a server would send them or not,
    and those on which reading breaks. *)
From Coq Require Import ZArith List Bool.
From Verif Require Import Base Types Spec_Wire Spec_Conv Spec_Packets Spec_Stmt Spec_Text Spec_TextForms.
Import ListNotations.
Open Scope Z_scope.

(** Integer columns: the width in bytes, the signed and the unsigned value. *)
Inductive int_column : column_type -> nat -> (Z -> value) -> (Z -> value) -> Prop :=
| ic_tiny : int_column CTiny 1 VTiny VUTiny
| ic_short : int_column CShort 2 VShort VUShort
| ic_year : int_column CYear 2 VShort VUShort
| ic_long : int_column CLong 4 VInt VUInt
| ic_int24 : int_column CInt24 4 VInt VUInt
| ic_longlong : int_column CLongLong 8 VLong VULong.

Definition half (k : nat) : Z := 256 ^ Z.of_nat k / 2.

(** ** Text rows *)

Section TextRows.
  (** [f32] and [f64] read floating-point numbers; [long]: more than six digits of a fraction of a
      second are allowed (and ignored). *)
  Variables (f32 f64 : list Z -> option Z) (long : bool).

  Inductive text_form : column_type -> bool -> value -> list Z -> Prop :=
  | tf_signed : forall t k i u n l, int_column t k i u -> - half k <= n < half k -> integer_form n l ->
      text_form t false (i n) l
  | tf_unsigned : forall t k i u n l, int_column t k i u -> n < 256 ^ Z.of_nat k -> nat_text n l ->
      text_form t true (u n) l
  | tf_float : forall b s x l, utf8_text s l -> f32 s = Some x -> text_form CFloat b (VFloat x) l
  | tf_double : forall b s x l, utf8_text s l -> f64 s = Some x -> text_form CDouble b (VDouble x) l
  | tf_str : forall t b l, str_type t -> t <> CLongBlob -> text_form t b (VBytes l) l
  | tf_date : forall b y m d l, spec_date y m d l -> text_form CDate b (VDate y m d) l
  | tf_datetime : forall t b v l, t = CDatetime \/ t = CTimestamp -> datetime_form long v l -> text_form t b v l
  | tf_time : forall b v l, time_form long v l -> text_form CTime b v l.

  (** Cells one after the other; a length that starts with 0xFB would be NULL. *)
  Inductive text_cells : list (column_type * bool) -> list value -> list Z -> Prop :=
  | tc_nil : text_cells [] [] []
  | tc_null : forall t u cs vs w, text_cells cs vs w -> text_cells ((t, u) :: cs) (VNull :: vs) (251 :: w)
  | tc_val : forall t u cs v vs l pre w, text_form t u v l -> loose_int (Z.of_nat (length l)) pre -> pre <> [251] ->
      text_cells cs vs w -> text_cells ((t, u) :: cs) (v :: vs) (pre ++ l ++ w).
End TextRows.

(** Texts on which reading breaks: any of a type without text form; with overflow checks, times with
    more than six digits of a fraction. *)
Inductive text_breaks (checks : bool) : column_type -> list Z -> Prop :=
| tb_type : forall t l, In t [CNull; CLongBlob; CNewDate; CTimestamp2; CDatetime2; CTime2; CTypedArray; CUnknown] ->
    text_breaks checks t l
| tb_time : forall l v, checks = true -> time_form true v l -> (forall v, ~ time_form false v l) -> text_breaks checks CTime l
| tb_datetime : forall t l v, checks = true -> t = CDatetime \/ t = CTimestamp -> datetime_form true v l ->
    (forall v, ~ datetime_form false v l) -> text_breaks checks t l.

(** ** Binary rows *)

(** [bin_form t unsigned v w rest]: at [w ++ rest], [w] is read as [v].  Lengths of dates and times need
    not be documented ones: what they promise has to be there, but may be left for the next column. *)
Inductive bin_form : column_type -> bool -> value -> list Z -> list Z -> Prop :=
| bf_signed : forall t k i u n rest, int_column t k i u -> - half k <= n < half k -> bin_form t false (i n) (wire_uint k n) rest
| bf_unsigned : forall t k i u n rest, int_column t k i u -> 0 <= n < 256 ^ Z.of_nat k -> bin_form t true (u n) (wire_uint k n) rest
| bf_float : forall b x rest, u32 x -> bin_form CFloat b (VFloat x) (wire_uint 4 x) rest
| bf_double : forall b x rest, u64 x -> bin_form CDouble b (VDouble x) (wire_uint 8 x) rest
| bf_str : forall t b s w rest, str_type t -> loose_int (Z.of_nat (length s)) w -> bin_form t b (VBytes s) (w ++ s) rest
| bf_null : forall b rest, bin_form CNull b VNull [] rest
| bf_date_none : forall b n rest, 0 <= n < 4 -> n <= Z.of_nat (length rest) -> bin_form CDate b (VDate 0 0 0) [n] rest
| bf_date : forall b n y m d rest, 4 <= n < 256 -> u16 y -> u8 m -> u8 d -> n - 4 <= Z.of_nat (length rest) ->
    bin_form CDate b (VDate y m d) ([n] ++ wire_uint 2 y ++ [m; d]) rest
| bf_dt_none : forall t b n rest, t = CDatetime \/ t = CTimestamp -> 0 <= n < 4 -> n <= Z.of_nat (length rest) ->
    bin_form t b (VDatetime 0 0 0 0 0 0 0) [n] rest
| bf_dt_date : forall t b n y m d rest, t = CDatetime \/ t = CTimestamp -> 4 <= n < 7 -> u16 y -> u8 m -> u8 d ->
    n - 4 <= Z.of_nat (length rest) ->
    bin_form t b (VDatetime y m d 0 0 0 0) ([n] ++ wire_uint 2 y ++ [m; d]) rest
| bf_dt_time : forall t b n y m d h mi s rest, t = CDatetime \/ t = CTimestamp -> 7 <= n < 256 -> n <> 11 ->
    u16 y -> u8 m -> u8 d -> u8 h -> u8 mi -> u8 s -> n - 7 <= Z.of_nat (length rest) ->
    bin_form t b (VDatetime y m d h mi s 0) ([n] ++ wire_uint 2 y ++ [m; d; h; mi; s]) rest
| bf_dt_full : forall t b y m d h mi s u rest, t = CDatetime \/ t = CTimestamp ->
    u16 y -> u8 m -> u8 d -> u8 h -> u8 mi -> u8 s -> u32 u ->
    bin_form t b (VDatetime y m d h mi s u) ([11] ++ wire_uint 2 y ++ [m; d; h; mi; s] ++ wire_uint 4 u) rest
| bf_time_none : forall b n rest, 0 <= n < 8 -> n <= Z.of_nat (length rest) -> bin_form CTime b (VTime false 0 0 0 0 0) [n] rest
| bf_time : forall b n sign d h mi s rest, 8 <= n < 256 -> n <> 12 -> u8 sign -> u32 d -> u8 h -> u8 mi -> u8 s ->
    n - 8 <= Z.of_nat (length rest) ->
    bin_form CTime b (VTime (sign =? 1) d h mi s 0) ([n; sign] ++ wire_uint 4 d ++ [h; mi; s]) rest
| bf_time_full : forall b sign d h mi s u rest, u8 sign -> u32 d -> u8 h -> u8 mi -> u8 s -> u32 u ->
    bin_form CTime b (VTime (sign =? 1) d h mi s u) ([12; sign] ++ wire_uint 4 d ++ [h; mi; s] ++ wire_uint 4 u) rest.

(** The bit of column [i] in the bitmap of a row. *)
Definition null_mark (bm : list Z) (i : nat) : bool := Z.testbit (nth ((i + 2) / 8) bm 0) (Z.of_nat ((i + 2) mod 8)).

(** The values of the columns from number [i] on; those marked take nothing. *)
Inductive bin_cells (bm : list Z) : nat -> list (column_type * bool) -> list value -> list Z -> list Z -> Prop :=
| bc_nil : forall i rest, bin_cells bm i [] [] [] rest
| bc_null : forall i t u cs vs w rest, null_mark bm i = true -> bin_cells bm (S i) cs vs w rest ->
    bin_cells bm i ((t, u) :: cs) (VNull :: vs) w rest
| bc_val : forall i t u cs v vs w1 w2 rest, null_mark bm i = false -> bin_form t u v w1 (w2 ++ rest) ->
    bin_cells bm (S i) cs vs w2 rest -> bin_cells bm i ((t, u) :: cs) (v :: vs) (w1 ++ w2) rest.

(** A packet for [n] columns: any byte, the bitmap, the rest. *)
Definition bin_packet (n : nat) (bm body pkt : list Z) : Prop :=
  exists x, pkt = x :: bm ++ body /\ length bm = ((n + 9) / 8)%nat.

(** Types without binary form. *)
Definition bin_breaks (t : column_type) : Prop := In t [CNewDate; CTimestamp2; CDatetime2; CTime2; CTypedArray; CUnknown].
