(** Binary protocol values: src/types/value/bin.rs. *)
From Coq Require Import ZArith List Bool.
From Verif Require Import Base Types ParseBuf BufMut.
Import ListNotations.
Open Scope Z_scope.
Open Scope parse_scope.

(** The match arms of bin.rs test fields against zero; [all0] is the conjunction of such
    literal patterns (e.g. src/types/value/bin.rs:28-32). *)
Definition all0 (l : list Z) : bool := forallb (fun x => x =? 0) l.

(** src/types/value/bin.rs:14-36 *)
Definition bin_len (v : value) : Z :=
  match v with
  | VNull => 0
  | VTiny _ => 1
  | VShort _ => 2
  | VInt _ => 4
  | VLong _ => 8
  | VUTiny _ => 1
  | VUShort _ => 2
  | VUInt _ => 4
  | VULong _ => 8
  | VFloat _ => 4
  | VDouble _ => 8
  | VBytes x => lenenc_slice_len x
  | VDate y m d => if all0 [y; m; d] then 1 else 5
  | VDatetime y mo d h mi s u =>
    if all0 [y; mo; d; h; mi; s; u] then 1
    else if all0 [h; mi; s; u] then 5
    else if all0 [u] then 8
    else 12
  | VTime _ d h m s u =>
    if all0 [d; h; m; s; u] then 1
    else if all0 [u] then 9
    else 13
  end.

(** [if *neg { 1 } else { 0 }]: src/types/value/bin.rs:87, 95 *)
Definition neg_byte (neg : bool) : Z := if neg then 1 else 0.

(** src/types/value/bin.rs:39-104 *)
Definition value_serialize (v : value) : bytes :=
  match v with
  | VNull => []
  | VTiny x => le_bytes 1 x
  | VShort x => le_bytes 2 x
  | VInt x => le_bytes 4 x
  | VLong x => le_bytes 8 x
  | VUTiny x => le_bytes 1 x
  | VUShort x => le_bytes 2 x
  | VUInt x => le_bytes 4 x
  | VULong x => le_bytes 8 x
  | VFloat x => le_bytes 4 x
  | VDouble x => le_bytes 8 x
  | VBytes x => put_lenenc_slice x
  | VDate y m d => [4] ++ le_bytes 2 y ++ le_bytes 1 m ++ le_bytes 1 d
  | VDatetime y mo d h mi s u =>
    if all0 [y; mo; d; h; mi; s; u] then [0]
    else if all0 [h; mi; s; u] then [4] ++ le_bytes 2 y ++ le_bytes 1 mo ++ le_bytes 1 d
    else if all0 [u] then
      [7] ++ le_bytes 2 y ++ le_bytes 1 mo ++ le_bytes 1 d
          ++ le_bytes 1 h ++ le_bytes 1 mi ++ le_bytes 1 s
    else
      [11] ++ le_bytes 2 y ++ le_bytes 1 mo ++ le_bytes 1 d
           ++ le_bytes 1 h ++ le_bytes 1 mi ++ le_bytes 1 s ++ le_bytes 4 u
  | VTime neg d h m s u =>
    if all0 [d; h; m; s; u] then [0]
    else if all0 [u] then
      [8] ++ [neg_byte neg] ++ le_bytes 4 d ++ le_bytes 1 h ++ le_bytes 1 m ++ le_bytes 1 s
    else
      [12] ++ [neg_byte neg] ++ le_bytes 4 d ++ le_bytes 1 h ++ le_bytes 1 m ++ le_bytes 1 s
           ++ le_bytes 4 u
  end.

(** [deserialize_num!]: src/types/value/bin.rs:106-124 *)
Definition deserialize_num (k : nat) (i u : Z -> value) (unsigned : bool) : P value :=
  if unsigned
  then x <- checked_eat_uint k ;; pret (u x)
  else x <- checked_eat_int k ;; pret (i x).

(** src/types/value/bin.rs:126-141 *)
Definition deserialize_date : P value :=
  len <- checked_eat_uint 1 ;;
  check_len len ;;;
  if len >=? 4 then
    year <- eat_uint 2 ;;
    month <- eat_uint 1 ;;
    day <- eat_uint 1 ;;
    pret (VDate year month day)
  else pret (VDate 0 0 0).

(** src/types/value/bin.rs:143-178 *)
Definition deserialize_datetime : P value :=
  len <- checked_eat_uint 1 ;;
  check_len len ;;;
  date <- (if len >=? 4 then
             year <- eat_uint 2 ;;
             month <- eat_uint 1 ;;
             day <- eat_uint 1 ;;
             pret (year, month, day)
           else pret (0, 0, 0)) ;;
  time <- (if len >=? 7 then
             hour <- eat_uint 1 ;;
             minute <- eat_uint 1 ;;
             second <- eat_uint 1 ;;
             pret (hour, minute, second)
           else pret (0, 0, 0)) ;;
  micro <- (if len =? 11 then eat_uint 4 else pret 0) ;;
  let '(year, month, day) := date in
  let '(hour, minute, second) := time in
  pret (VDatetime year month day hour minute second micro).

(** src/types/value/bin.rs:180-210 *)
Definition deserialize_time : P value :=
  len <- checked_eat_uint 1 ;;
  check_len len ;;;
  t <- (if len >=? 8 then
          n <- eat_uint 1 ;;
          days <- eat_uint 4 ;;
          hours <- eat_uint 1 ;;
          minutes <- eat_uint 1 ;;
          seconds <- eat_uint 1 ;;
          pret (n =? 1, days, hours, minutes, seconds)
        else pret (false, 0, 0, 0, 0)) ;;
  micro <- (if len =? 12 then eat_uint 4 else pret 0) ;;
  let '(neg, days, hours, minutes, seconds) := t in
  pret (VTime neg days hours minutes seconds micro).

(** src/types/value/bin.rs:212-254; [flags] are the column flags. *)
Definition deserialize_bin (t : column_type) (flags : Z) : P value :=
  let unsigned := has_flag flags UNSIGNED_FLAG in
  match t with
  | CTiny => deserialize_num 1 VTiny VUTiny unsigned
  | CShort | CYear => deserialize_num 2 VShort VUShort unsigned
  | CLong | CInt24 => deserialize_num 4 VInt VUInt unsigned
  | CLongLong => deserialize_num 8 VLong VULong unsigned
  | CFloat => x <- checked_eat_uint 4 ;; pret (VFloat x)
  | CDouble => x <- checked_eat_uint 8 ;; pret (VDouble x)
  | CString | CVarString | CVarchar | CBlob | CTinyBlob | CMediumBlob | CLongBlob
  | CSet | CEnum | CDecimal | CBit | CNewDecimal | CGeometry | CJson =>
    x <- checked_eat_lenenc_slice ;; pret (VBytes x)
  | CDate => deserialize_date
  | CTimestamp | CDatetime => deserialize_datetime
  | CTime => deserialize_time
  | CNull => pret VNull
  | _ => ppanic
  end.
