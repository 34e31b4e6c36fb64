(** Specification of C122: what the columns of a result hold, and how a server writes it as text and in
    binary form. *)
From Coq Require Import ZArith List Bool.
From Verif Require Import Base Types Spec_Wire Spec_Stmt Spec_Text.
Import ListNotations.
Open Scope Z_scope.

(** A column: its type, whether it is unsigned, and the number of digits of fractions of a second. *)
Record sql_column : Type := mkSqlColumn { sc_type : column_type; sc_unsigned : bool; sc_scale : nat }.

(** What is stored: floating-point numbers by their bits, times with all their hours. *)
Inductive datum : Type :=
| DNull
| DNumber (n : Z)
| DFloat (bits : Z)
| DDouble (bits : Z)
| DBytes (b : list Z)
| DDate (y m d : Z)
| DDatetime (y mo d h mi s u : Z)
| DTime (neg : bool) (h m s u : Z).

(** The width of the integer types in bits. *)
Definition int_bits (t : column_type) : option Z :=
  match t with
  | CTiny => Some 8 | CShort => Some 16 | CYear => Some 16 | CInt24 => Some 24 | CLong => Some 32 | CLongLong => Some 64
  | _ => None
  end.

(** Fractions of a second have no more digits than the column. *)
Definition fraction_ok (scale : nat) (u : Z) : Prop :=
  (scale <= 6)%nat /\ exists k, 0 <= k < 10 ^ Z.of_nat scale /\ u = k * 10 ^ (6 - Z.of_nat scale).

(** What a column can hold.  There is no negative time of length zero. *)
Inductive holds : sql_column -> datum -> Prop :=
| holds_null : forall c, holds c DNull
| holds_signed : forall t s k n, int_bits t = Some k -> - 2 ^ (k - 1) <= n < 2 ^ (k - 1) -> holds (mkSqlColumn t false s) (DNumber n)
| holds_unsigned : forall t s k n, int_bits t = Some k -> 0 <= n < 2 ^ k -> holds (mkSqlColumn t true s) (DNumber n)
| holds_float : forall b s x, u32 x -> holds (mkSqlColumn CFloat b s) (DFloat x)
| holds_double : forall b s x, u64 x -> holds (mkSqlColumn CDouble b s) (DDouble x)
| holds_bytes : forall t b s x, str_type t -> holds (mkSqlColumn t b s) (DBytes x)
| holds_date : forall b s y m d, 0 <= y <= 9999 -> 0 <= m <= 12 -> 0 <= d <= 31 -> holds (mkSqlColumn CDate b s) (DDate y m d)
| holds_datetime : forall t b sc y mo d h mi s u, t = CDatetime \/ t = CTimestamp ->
    0 <= y <= 9999 -> 0 <= mo <= 12 -> 0 <= d <= 31 -> 0 <= h <= 23 -> 0 <= mi <= 59 -> 0 <= s <= 59 -> fraction_ok sc u ->
    holds (mkSqlColumn t b sc) (DDatetime y mo d h mi s u)
| holds_time : forall b sc neg h m s u, 0 <= h <= 838 -> 0 <= m <= 59 -> 0 <= s <= 59 -> fraction_ok sc u ->
    ~ (neg = true /\ h = 0 /\ m = 0 /\ s = 0 /\ u = 0) -> holds (mkSqlColumn CTime b sc) (DTime neg h m s u).

Section Writing.
  (** The texts of floating-point numbers. *)
  Variables show32 show64 : Z -> list Z -> Prop.

  (** HH:MM:SS and as many digits of a fraction as the column has. *)
  Definition clock_text (hours : Z -> list Z -> Prop) (scale : nat) (h m s u : Z) (l : list Z) : Prop :=
    exists a b c f, l = a ++ [58] ++ b ++ [58] ++ c ++ f /\ hours h a /\ fixed_text 2 m b /\ fixed_text 2 s c /\
      match scale with
      | O => f = []
      | S _ => exists g, f = 46 :: g /\ fixed_text scale (u / 10 ^ (6 - Z.of_nat scale)) g
      end.

  (** The text of what is stored; integers may be filled with zeros. *)
  Inductive writes_text : sql_column -> datum -> list Z -> Prop :=
  | wt_natural : forall c n l, 0 <= n -> nat_text n l -> writes_text c (DNumber n) l
  | wt_negative : forall c n l, n < 0 -> nat_text (- n) l -> writes_text c (DNumber n) (45 :: l)
  | wt_float : forall c x l, show32 x l -> writes_text c (DFloat x) l
  | wt_double : forall c x l, show64 x l -> writes_text c (DDouble x) l
  | wt_bytes : forall c b, writes_text c (DBytes b) b
  | wt_date : forall c y m d l, spec_date y m d l -> writes_text c (DDate y m d) l
  | wt_datetime : forall c y mo d h mi s u a b, spec_date y mo d a -> clock_text (fixed_text 2) (sc_scale c) h mi s u b ->
      writes_text c (DDatetime y mo d h mi s u) (a ++ [32] ++ b)
  | wt_time : forall c (neg : bool) h m s u a,
      clock_text (fun h a => (2 <= length a)%nat /\ nat_text h a) (sc_scale c) h m s u a ->
      writes_text c (DTime neg h m s u) ((if neg then [45] else []) ++ a).

  (** A packet of the text protocol. *)
  Inductive row_as_text : list sql_column -> list datum -> list Z -> Prop :=
  | rt_nil : row_as_text [] [] []
  | rt_null : forall c cs ds w, row_as_text cs ds w -> row_as_text (c :: cs) (DNull :: ds) (251 :: w)
  | rt_cell : forall c cs d ds l pre w, writes_text c d l -> lenenc (Z.of_nat (length l)) pre -> row_as_text cs ds w ->
      row_as_text (c :: cs) (d :: ds) (pre ++ l ++ w).
End Writing.

(** The binary form: integers in the width of their type, dates and times without the zeros at their
    end, times in days and hours. *)
Inductive writes_binary : sql_column -> datum -> list Z -> Prop :=
| wb_number : forall c n k, int_bits (sc_type c) = Some k ->
    writes_binary c (DNumber n) (wire_uint (Z.to_nat ((if k =? 24 then 32 else k) / 8)) n)
| wb_float : forall c x, writes_binary c (DFloat x) (wire_uint 4 x)
| wb_double : forall c x, writes_binary c (DDouble x) (wire_uint 8 x)
| wb_bytes : forall c b pre, lenenc (Z.of_nat (length b)) pre -> writes_binary c (DBytes b) (pre ++ b)
| wb_date_zero : forall c, writes_binary c (DDate 0 0 0) [0]
| wb_date : forall c y m d, (y, m, d) <> (0, 0, 0) -> writes_binary c (DDate y m d) ([4] ++ wire_uint 2 y ++ [m; d])
| wb_datetime_zero : forall c, writes_binary c (DDatetime 0 0 0 0 0 0 0) [0]
| wb_datetime_day : forall c y m d, (y, m, d) <> (0, 0, 0) -> writes_binary c (DDatetime y m d 0 0 0 0) ([4] ++ wire_uint 2 y ++ [m; d])
| wb_datetime_second : forall c y m d h mi s, (h, mi, s) <> (0, 0, 0) ->
    writes_binary c (DDatetime y m d h mi s 0) ([7] ++ wire_uint 2 y ++ [m; d; h; mi; s])
| wb_datetime_fraction : forall c y m d h mi s u, u <> 0 ->
    writes_binary c (DDatetime y m d h mi s u) ([11] ++ wire_uint 2 y ++ [m; d; h; mi; s] ++ wire_uint 4 u)
| wb_time_zero : forall c neg, writes_binary c (DTime neg 0 0 0 0) [0]
| wb_time_second : forall c (neg : bool) h m s, (h, m, s) <> (0, 0, 0) ->
    writes_binary c (DTime neg h m s 0) ([8; if neg then 1 else 0] ++ wire_uint 4 (h / 24) ++ [h mod 24; m; s])
| wb_time_fraction : forall c (neg : bool) h m s u, u <> 0 ->
    writes_binary c (DTime neg h m s u) ([12; if neg then 1 else 0] ++ wire_uint 4 (h / 24) ++ [h mod 24; m; s] ++ wire_uint 4 u).

Inductive cells_binary : list sql_column -> list datum -> list Z -> Prop :=
| cb_nil : cells_binary [] [] []
| cb_null : forall c cs ds w, cells_binary cs ds w -> cells_binary (c :: cs) (DNull :: ds) w
| cb_cell : forall c cs d ds w1 w2, writes_binary c d w1 -> cells_binary cs ds w2 -> cells_binary (c :: cs) (d :: ds) (w1 ++ w2).

(** A packet of the binary protocol: a zero, a bit for each column (from the third on) that says
    whether it is NULL, and the others. *)
Definition row_as_binary (cs : list sql_column) (ds : list datum) (pkt : list Z) : Prop :=
  exists bm w, pkt = [0] ++ bm ++ w /\ length bm = ((length cs + 9) / 8)%nat /\ Forall (fun b => 0 <= b < 256) bm /\
    (forall i, (i < length ds)%nat ->
       (Z.testbit (nth ((i + 2) / 8) bm 0) (Z.of_nat ((i + 2) mod 8)) = true <-> nth_error ds i = Some DNull)) /\
    cells_binary cs ds w.

(** The value that stands for what is stored. *)
Inductive stands_for : sql_column -> datum -> value -> Prop :=
| sf_null : forall c, stands_for c DNull VNull
| sf_tiny : forall s n, stands_for (mkSqlColumn CTiny false s) (DNumber n) (VTiny n)
| sf_utiny : forall s n, stands_for (mkSqlColumn CTiny true s) (DNumber n) (VUTiny n)
| sf_short : forall t s n, t = CShort \/ t = CYear -> stands_for (mkSqlColumn t false s) (DNumber n) (VShort n)
| sf_ushort : forall t s n, t = CShort \/ t = CYear -> stands_for (mkSqlColumn t true s) (DNumber n) (VUShort n)
| sf_int : forall t s n, t = CLong \/ t = CInt24 -> stands_for (mkSqlColumn t false s) (DNumber n) (VInt n)
| sf_uint : forall t s n, t = CLong \/ t = CInt24 -> stands_for (mkSqlColumn t true s) (DNumber n) (VUInt n)
| sf_long : forall s n, stands_for (mkSqlColumn CLongLong false s) (DNumber n) (VLong n)
| sf_ulong : forall s n, stands_for (mkSqlColumn CLongLong true s) (DNumber n) (VULong n)
| sf_float : forall c x, stands_for c (DFloat x) (VFloat x)
| sf_double : forall c x, stands_for c (DDouble x) (VDouble x)
| sf_bytes : forall c b, stands_for c (DBytes b) (VBytes b)
| sf_date : forall c y m d, stands_for c (DDate y m d) (VDate y m d)
| sf_datetime : forall c y mo d h mi s u, stands_for c (DDatetime y mo d h mi s u) (VDatetime y mo d h mi s u)
| sf_time : forall c neg days h m s u, 0 <= h < 24 -> stands_for c (DTime neg (days * 24 + h) m s u) (VTime neg days h m s u).
