(** How a MySQL server reads the packets of the prepared-statement protocol and how it
    writes binary rows; from the protocol documentation (COM_STMT_EXECUTE,
    COM_STMT_SEND_LONG_DATA, Binary Protocol Resultset Row, Binary Protocol Value).
    Independent of the model's functions; only the data type of values is shared. *)
From Coq Require Import ZArith List Bool.
From Verif Require Import Types Spec_Wire.
Import ListNotations.
Open Scope Z_scope.

(** ** Server side reading *)

Definition srv_take (n : nat) (l : list Z) : option (list Z * list Z) :=
  if (length l <? n)%nat then None else Some (firstn n l, skipn n l).

Definition srv_uint (l : list Z) : Z := fold_right (fun b acc => b + 256 * acc) 0 l.

Definition srv_sint (l : list Z) : Z :=
  let m := 256 ^ Z.of_nat (length l) in
  let u := srv_uint l in
  if 2 * u <? m then u else u - m.

(** Option monad. *)
Definition obind {A B} (m : option A) (f : A -> option B) : option B :=
  match m with Some a => f a | None => None end.
Notation "'let?' p := m 'in' k" := (obind m (fun p => k))
  (at level 200, p pattern, right associativity).

(** Integer of [k] bytes. *)
Definition srv_int (k : nat) (unsigned : bool) (l : list Z) : option (Z * list Z) :=
  let? (x, l') := srv_take k l in
  Some (if unsigned then srv_uint x else srv_sint x, l').

Definition srv_lenenc (l : list Z) : option (Z * list Z) :=
  match l with
  | [] => None
  | x :: r =>
    if x <? 251 then Some (x, r)
    else if x =? 252 then srv_int 2 true r
    else if x =? 253 then srv_int 3 true r
    else if x =? 254 then srv_int 8 true r
    else None
  end.

Definition srv_string (l : list Z) : option (list Z * list Z) :=
  let? (n, r) := srv_lenenc l in srv_take (Z.to_nat n) r.

Definition srv_byte (l : list Z) : option (Z * list Z) :=
  match l with x :: r => Some (x, r) | [] => None end.

(** The date part: year, month, day. *)
Definition srv_ymd (l : list Z) : option ((Z * Z * Z) * list Z) :=
  let? (y, l) := srv_int 2 true l in
  let? (m, l) := srv_byte l in
  let? (d, l) := srv_byte l in
  Some ((y, m, d), l).

Definition srv_hms (l : list Z) : option ((Z * Z * Z) * list Z) :=
  let? (h, l) := srv_byte l in
  let? (m, l) := srv_byte l in
  let? (s, l) := srv_byte l in
  Some ((h, m, s), l).

(** A parameter value of the given type. *)
Definition srv_value (code : Z) (unsigned : bool) (l : list Z) : option (value * list Z) :=
  match code with
  | 1 => let? (x, r) := srv_int 1 unsigned l in Some (if unsigned then VUTiny x else VTiny x, r)
  | 2 => let? (x, r) := srv_int 2 unsigned l in Some (if unsigned then VUShort x else VShort x, r)
  | 3 => let? (x, r) := srv_int 4 unsigned l in Some (if unsigned then VUInt x else VInt x, r)
  | 8 => let? (x, r) := srv_int 8 unsigned l in Some (if unsigned then VULong x else VLong x, r)
  | 4 => let? (x, r) := srv_int 4 true l in Some (VFloat x, r)
  | 5 => let? (x, r) := srv_int 8 true l in Some (VDouble x, r)
  | 6 => Some (VNull, l)
  | 253 => let? (s, r) := srv_string l in Some (VBytes s, r)
  | 10 =>
    let? (n, l) := srv_byte l in
    match n with
    | 0 => Some (VDate 0 0 0, l)
    | 4 => let? (y, m, d, l) := srv_ymd l in Some (VDate y m d, l)
    | _ => None
    end
  | 12 =>
    let? (n, l) := srv_byte l in
    match n with
    | 0 => Some (VDatetime 0 0 0 0 0 0 0, l)
    | 4 => let? (y, m, d, l) := srv_ymd l in Some (VDatetime y m d 0 0 0 0, l)
    | 7 =>
      let? (y, m, d, l) := srv_ymd l in
      let? (h, mi, s, l) := srv_hms l in
      Some (VDatetime y m d h mi s 0, l)
    | 11 =>
      let? (y, m, d, l) := srv_ymd l in
      let? (h, mi, s, l) := srv_hms l in
      let? (u, l) := srv_int 4 true l in
      Some (VDatetime y m d h mi s u, l)
    | _ => None
    end
  | 11 =>
    let? (n, l) := srv_byte l in
    match n with
    | 0 => Some (VTime false 0 0 0 0 0, l)
    | 8 =>
      let? (neg, l) := srv_byte l in
      let? (d, l) := srv_int 4 true l in
      let? (h, mi, s, l) := srv_hms l in
      Some (VTime (neg =? 1) d h mi s 0, l)
    | 12 =>
      let? (neg, l) := srv_byte l in
      let? (d, l) := srv_int 4 true l in
      let? (h, mi, s, l) := srv_hms l in
      let? (u, l) := srv_int 4 true l in
      Some (VTime (neg =? 1) d h mi s u, l)
    | _ => None
    end
  | _ => None
  end.

(** NULL bitmap: bit [i] of the parameter bitmap, least significant bit first. *)
Definition srv_bit (bm : list Z) (i : nat) : bool :=
  Z.testbit (nth (i / 8) bm 0) (Z.of_nat (i mod 8)).

(** Type codes of the parameters; the byte after the code is 128 for unsigned, else 0. *)
Fixpoint srv_types (n : nat) (l : list Z) : option (list (Z * bool) * list Z) :=
  match n with
  | O => Some ([], l)
  | S n' =>
    let? (code, l) := srv_byte l in
    let? (flag, l) := srv_byte l in
    if negb ((flag =? 0) || (flag =? 128)) then None else
    let? (r, l) := srv_types n' l in
    Some ((code, flag =? 128) :: r, l)
  end.

(** The values: NULL by bitmap, long data if any was received, inline otherwise. *)
Fixpoint srv_values (bm : list Z) (long : nat -> option (list Z)) (i : nat)
  (types : list (Z * bool)) (l : list Z) : option (list value * list Z) :=
  match types with
  | [] => Some ([], l)
  | (code, u) :: ts =>
    if srv_bit bm i then
      let? (vs, l) := srv_values bm long (S i) ts l in Some (VNull :: vs, l)
    else
      match long i with
      | Some d =>
        let? (vs, l) := srv_values bm long (S i) ts l in Some (VBytes d :: vs, l)
      | None =>
        let? (v, l) := srv_value code u l in
        let? (vs, l) := srv_values bm long (S i) ts l in
        Some (v :: vs, l)
      end
  end.

(** COM_STMT_EXECUTE for a statement with [n] parameters: statement id, cursor flags,
    iteration count and parameters; the packet must be consumed entirely. *)
Definition srv_execute (n : nat) (long : nat -> option (list Z)) (pkt : list Z)
  : option (Z * Z * Z * list value) :=
  let? (cmd, l) := srv_byte pkt in
  if negb (cmd =? 23) then None else
  let? (id, l) := srv_int 4 true l in
  let? (flags, l) := srv_byte l in
  let? (iter, l) := srv_int 4 true l in
  match n with
  | O => match l with [] => Some (id, flags, iter, []) | _ => None end
  | _ =>
    let? (bm, l) := srv_take ((n + 7) / 8) l in
    let? (bound, l) := srv_byte l in
    if negb (bound =? 1) then None else
    let? (types, l) := srv_types n l in
    let? (vs, l) := srv_values bm long 0 types l in
    match l with [] => Some (id, flags, iter, vs) | _ => None end
  end.

(** COM_STMT_SEND_LONG_DATA: statement id, parameter number, data. *)
Definition srv_long_data (pkt : list Z) : option (Z * Z * list Z) :=
  let? (cmd, l) := srv_byte pkt in
  if negb (cmd =? 24) then None else
  let? (id, l) := srv_int 4 true l in
  let? (p, l) := srv_int 2 true l in
  Some (id, p, l).

(** The pieces of long data received for statement [id] by a sequence of packets, each of
    which must be a long-data packet for that statement. *)
Fixpoint srv_receive (id : Z) (pkts : list (list Z)) : option (list (nat * list Z)) :=
  match pkts with
  | [] => Some []
  | p :: r =>
    let? (id', n, d) := srv_long_data p in
    if negb (id' =? id) then None else
    let? ps := srv_receive id r in
    Some ((Z.to_nat n, d) :: ps)
  end.

(** The long data of parameter [i]: all pieces in order; [None] if there was none. *)
Definition srv_long (pieces : list (nat * list Z)) (i : nat) : option (list Z) :=
  match filter (fun p => (fst p =? i)%nat) pieces with
  | [] => None
  | l => Some (concat (map snd l))
  end.

(** ** Server side writing: binary rows *)

(** [bin_enc t unsigned v w]: [w] is a legal binary encoding of the non-null value [v] in a
    column of type [t]. *)
Inductive str_type : column_type -> Prop :=
| st1 : str_type CString | st2 : str_type CVarString | st3 : str_type CVarchar
| st4 : str_type CBlob | st5 : str_type CTinyBlob | st6 : str_type CMediumBlob
| st7 : str_type CLongBlob | st8 : str_type CSet | st9 : str_type CEnum
| st10 : str_type CDecimal | st11 : str_type CBit | st12 : str_type CNewDecimal
| st13 : str_type CGeometry | st14 : str_type CJson.

Definition u8 (n : Z) : Prop := 0 <= n < 2 ^ 8.
Definition u16 (n : Z) : Prop := 0 <= n < 2 ^ 16.
Definition u32 (n : Z) : Prop := 0 <= n < 2 ^ 32.
Definition u64 (n : Z) : Prop := 0 <= n < 2 ^ 64.

Inductive bin_enc : column_type -> bool -> value -> list Z -> Prop :=
| be_tiny_s : forall x, - 2 ^ 7 <= x < 2 ^ 7 -> bin_enc CTiny false (VTiny x) (wire_uint 1 x)
| be_tiny_u : forall x, u8 x -> bin_enc CTiny true (VUTiny x) (wire_uint 1 x)
| be_short_s : forall t x, t = CShort \/ t = CYear -> - 2 ^ 15 <= x < 2 ^ 15 ->
    bin_enc t false (VShort x) (wire_uint 2 x)
| be_short_u : forall t x, t = CShort \/ t = CYear -> u16 x ->
    bin_enc t true (VUShort x) (wire_uint 2 x)
| be_long_s : forall t x, t = CLong \/ t = CInt24 -> - 2 ^ 31 <= x < 2 ^ 31 ->
    bin_enc t false (VInt x) (wire_uint 4 x)
| be_long_u : forall t x, t = CLong \/ t = CInt24 -> u32 x ->
    bin_enc t true (VUInt x) (wire_uint 4 x)
| be_longlong_s : forall x, - 2 ^ 63 <= x < 2 ^ 63 -> bin_enc CLongLong false (VLong x) (wire_uint 8 x)
| be_longlong_u : forall x, u64 x -> bin_enc CLongLong true (VULong x) (wire_uint 8 x)
| be_float : forall b x, u32 x -> bin_enc CFloat b (VFloat x) (wire_uint 4 x)
| be_double : forall b x, u64 x -> bin_enc CDouble b (VDouble x) (wire_uint 8 x)
| be_str : forall t b s w, str_type t -> lenenc (Z.of_nat (length s)) w ->
    bin_enc t b (VBytes s) (w ++ s)
| be_date_0 : forall b, bin_enc CDate b (VDate 0 0 0) [0]
| be_date_4 : forall b y m d, u16 y -> u8 m -> u8 d ->
    bin_enc CDate b (VDate y m d) ([4] ++ wire_uint 2 y ++ [m; d])
| be_dt_0 : forall t b, t = CDatetime \/ t = CTimestamp ->
    bin_enc t b (VDatetime 0 0 0 0 0 0 0) [0]
| be_dt_4 : forall t b y m d, t = CDatetime \/ t = CTimestamp -> u16 y -> u8 m -> u8 d ->
    bin_enc t b (VDatetime y m d 0 0 0 0) ([4] ++ wire_uint 2 y ++ [m; d])
| be_dt_7 : forall t b y m d h mi s, t = CDatetime \/ t = CTimestamp ->
    u16 y -> u8 m -> u8 d -> u8 h -> u8 mi -> u8 s ->
    bin_enc t b (VDatetime y m d h mi s 0) ([7] ++ wire_uint 2 y ++ [m; d; h; mi; s])
| be_dt_11 : forall t b y m d h mi s u, t = CDatetime \/ t = CTimestamp ->
    u16 y -> u8 m -> u8 d -> u8 h -> u8 mi -> u8 s -> u32 u ->
    bin_enc t b (VDatetime y m d h mi s u)
      ([11] ++ wire_uint 2 y ++ [m; d; h; mi; s] ++ wire_uint 4 u)
| be_time_0 : forall b, bin_enc CTime b (VTime false 0 0 0 0 0) [0]
| be_time_8 : forall b (neg : bool) d h mi s, u32 d -> u8 h -> u8 mi -> u8 s ->
    bin_enc CTime b (VTime neg d h mi s 0)
      ([8; if neg then 1 else 0] ++ wire_uint 4 d ++ [h; mi; s])
| be_time_12 : forall b (neg : bool) d h mi s u, u32 d -> u8 h -> u8 mi -> u8 s -> u32 u ->
    bin_enc CTime b (VTime neg d h mi s u)
      ([12; if neg then 1 else 0] ++ wire_uint 4 d ++ [h; mi; s] ++ wire_uint 4 u).

(** The values of a row, concatenated; NULLs contribute nothing. *)
Inductive bin_values : list (column_type * bool) -> list value -> list Z -> Prop :=
| bv_nil : bin_values [] [] []
| bv_null : forall t u cs vs w, bin_values cs vs w ->
    bin_values ((t, u) :: cs) (VNull :: vs) w
| bv_val : forall t u cs v vs w1 w2, bin_enc t u v w1 -> bin_values cs vs w2 ->
    bin_values ((t, u) :: cs) (v :: vs) (w1 ++ w2).

(** [null_bits vs bm]: [bm] has (n + 9) / 8 bytes and bit i + 2 is set exactly if the i-th
    value is NULL. *)
Definition null_bits (vs : list value) (bm : list Z) : Prop :=
  length bm = ((length vs + 9) / 8)%nat /\
  Forall (fun b => 0 <= b < 256) bm /\
  forall i, (i < length vs)%nat ->
    (Z.testbit (nth ((i + 2) / 8) bm 0) (Z.of_nat ((i + 2) mod 8)) = true
     <-> nth_error vs i = Some VNull).

(** A binary row packet. *)
Definition bin_row (cols : list (column_type * bool)) (vs : list value) (pkt : list Z) : Prop :=
  exists bm w, null_bits vs bm /\ bin_values cols vs w /\ pkt = [0] ++ bm ++ w.
