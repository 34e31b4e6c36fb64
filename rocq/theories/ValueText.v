(** Text forms of values: src/types/value/text.rs.

    [debug] says whether integer overflow panics (debug build) or wraps (release build).
    The text forms of floating-point numbers are those of the standard library; they are
    parameters ([f32], [f64] bit pattern to text and back). *)
From Coq Require Import ZArith List Bool String.
From Verif Require Import Base Types Utf8 ParseBuf.
Import ListNotations.
Open Scope Z_scope.

(** ** Escapers *)

(** One character of [write_escaped_chars]: src/types/value/text.rs:22-62 *)
Definition escape_char (c : Z) : str :=
  if c =? 0 then s2l "\0"
  else if c =? 8 then s2l "\b"
  else if c =? 10 then s2l "\n"
  else if c =? 13 then s2l "\r"
  else if c =? 9 then s2l "\t"
  else if c =? 26 then s2l "\z"
  else if c =? 39 then [92; 39]
  else if c =? 34 then [92; 34]
  else if c =? 92 then [92; 92]
  else [c].

(** src/types/value/text.rs:16-65 *)
Definition write_escaped_chars (s : str) : str := flat_map escape_char s.

(** [StringEscape]: src/types/value/text.rs:70-76 *)
Definition string_escape (s : str) : str := [34] ++ write_escaped_chars s ++ [34].

(** [char::is_whitespace] of the standard library (Unicode White_Space), used at
    src/types/value/text.rs:94 *)
Definition is_whitespace (c : Z) : bool :=
  ((9 <=? c) && (c <=? 13)) || (c =? 32) || (c =? 133) || (c =? 160) || (c =? 5760)
  || ((8192 <=? c) && (c <=? 8202)) || (c =? 8232) || (c =? 8233) || (c =? 8239)
  || (c =? 8287) || (c =? 12288).

(** src/types/value/text.rs:88-90 *)
Definition ident_char_valid (c : Z) : bool := (1 <=? c) && (c <=? 65535).

(** The first loop: src/types/value/text.rs:92-97 *)
Fixpoint ident_last_char (i : Z) (last : Z) (s : str) : Z :=
  match s with
  | [] => last
  | c :: r =>
    ident_last_char (i + 1) (if negb (is_whitespace c) && ident_char_valid c then i else last) r
  end.

(** The second loop: src/types/value/text.rs:99-106 *)
Fixpoint ident_write (i last : Z) (s : str) : str :=
  match s with
  | [] => []
  | c :: r =>
    (if (i <=? last) && ident_char_valid c
     then (if c =? 96 then [96] else []) ++ [c]
     else []) ++ ident_write (i + 1) last r
  end.

(** [IdentifierEscape]: src/types/value/text.rs:83-109 *)
Definition identifier_escape (s : str) : str :=
  [96] ++ ident_write 0 (ident_last_char 0 0 s) s ++ [96].

(** src/types/value/text.rs:120-122 *)
Definition unquoted_char_valid (c : Z) : bool :=
  ((48 <=? c) && (c <=? 57)) || ((97 <=? c) && (c <=? 122)) || ((65 <=? c) && (c <=? 90))
  || (c =? 36) || (c =? 95) || ((128 <=? c) && (c <=? 65535)).

(** [UnquotedIdentifierEscape]: src/types/value/text.rs:117-131 *)
Fixpoint unquoted_identifier_escape (s : str) : str :=
  match s with
  | [] => []
  | c :: r => (if unquoted_char_valid c then [c] else []) ++ unquoted_identifier_escape r
  end.

(** ** Display *)

(** [Display] of an unsigned integer (standard library), used at src/types/value/text.rs:158-165. *)
Fixpoint dec_digits (fuel : nat) (n : Z) : str :=
  match fuel with
  | O => []
  | S f => if n <? 10 then [48 + n] else dec_digits f (n / 10) ++ [48 + n mod 10]
  end.

(** The digits of [n >= 0] ([Display] of the integers, used in src/types/value/text.rs:133-215); the fuel
    is at least the number of digits. *)
Definition dec (n : Z) : str := dec_digits (S (Z.to_nat (Z.log2 n))) n.

(** [Display] of a signed integer (standard library), used at src/types/value/text.rs:158-161. *)
Definition dec_signed (n : Z) : str := if n <? 0 then 45 :: dec (- n) else dec n.

(** [{x:0>w}]: right-aligned, filled with '0' (std::fmt), used at src/types/value/text.rs:141-152. *)
Definition pad0 (w : Z) (s : str) : str := repeatZ 48 (w - lenZ s) ++ s.

(** src/types/value/text.rs:135-142 *)
Definition format_date (year month day : Z) : str :=
  pad0 4 (dec year) ++ [45] ++ pad0 2 (dec month) ++ [45] ++ pad0 2 (dec day).

(** src/types/value/text.rs:143-155 *)
Definition format_time (hours minutes seconds micros : Z) : str :=
  pad0 2 (dec hours) ++ [58] ++ pad0 2 (dec minutes) ++ [58] ++ pad0 2 (dec seconds)
  ++ (if micros =? 0 then [] else [46] ++ pad0 6 (dec micros)).

(** [hex::encode] (crate hex), used at src/types/value/text.rs:170: lower-case digits. *)
Definition hex_digit (n : Z) : Z := if n <? 10 then 48 + n else 87 + n.

(** [hex::encode] (crate hex), used at src/types/value/text.rs:170 and src/types/hex.rs:84. *)
Definition hex_encode (b : bytes) : str := flat_map (fun x => [hex_digit (x / 16); hex_digit (x mod 16)]) b.

(** [u32] arithmetic: [None] is an overflow panic. (src/types/value/text.rs:184) *)
Definition u32_checked (debug : bool) (n : Z) : option Z :=
  if n <? 4294967296 then Some n else if debug then None else Some (n mod 4294967296).

(** [*days * 24 + *hours as u32]: src/types/value/text.rs:184 *)
Definition total_hours (debug : bool) (days hours : Z) : option Z :=
  match u32_checked debug (days * 24) with
  | Some d => u32_checked debug (d + hours)
  | None => None
  end.

(** [Display for Value]: src/types/value/text.rs:133-200; [None] is a panic. *)
Definition value_display (debug : bool) (fmt_f32 fmt_f64 : Z -> str) (v : value) : option str :=
  match v with
  | VNull => Some (s2l "NULL")
  | VTiny x | VShort x | VInt x | VLong x => Some (dec_signed x)
  | VUTiny x | VUShort x | VUInt x | VULong x => Some (dec x)
  | VFloat x => Some (fmt_f32 x)
  | VDouble x => Some (fmt_f64 x)
  | VBytes x => Some (s2l "0x" ++ hex_encode x)
  | VDate y m d => Some ([34] ++ format_date y m d ++ [34])
  | VTime neg days hours minutes seconds micros =>
    match total_hours debug days hours with
    | Some h =>
      Some ([34] ++ (if neg then [45] else []) ++ format_time h minutes seconds micros ++ [34])
    | None => None
    end
  | VDatetime y mo d h mi s u =>
    Some ([34] ++ format_date y mo d ++ [32] ++ format_time h mi s u ++ [34])
  end.

(** ** Parsing *)

(** Loop of [btoi::btou] (crate btoi), used e.g. at src/types/value/text.rs:212; [max] is the
    largest value of the target type. *)
Fixpoint btou_loop (max acc : Z) (b : bytes) : option Z :=
  match b with
  | [] => Some acc
  | c :: r =>
    if (48 <=? c) && (c <=? 57) then
      let m := acc * 10 in
      if m >? max then None
      else let a := m + (c - 48) in
           if a >? max then None else btou_loop max a r
    else None
  end.

(** [btoi::btou] (crate btoi), used at src/types/value/text.rs:212-246, 318-339. *)
Definition btou (max : Z) (b : bytes) : option Z :=
  match b with
  | [] => None
  | _ => btou_loop max 0 b
  end.

(** Loop for negative numbers of [btoi::btoi] (crate btoi), used at src/types/value/text.rs:320-341. *)
Fixpoint btoi_neg_loop (min acc : Z) (b : bytes) : option Z :=
  match b with
  | [] => Some acc
  | c :: r =>
    if (48 <=? c) && (c <=? 57) then
      let m := acc * 10 in
      if m <? min then None
      else let a := m - (c - 48) in
           if a <? min then None else btoi_neg_loop min a r
    else None
  end.

(** [btoi::btoi] (crate btoi), used at src/types/value/text.rs:320-341. *)
Definition btoi (min max : Z) (b : bytes) : option Z :=
  match b with
  | [] => None
  | c :: r =>
    if c =? 43 then btou max r
    else if c =? 45 then match r with [] => None | _ => btoi_neg_loop min 0 r end
    else btou max b
  end.

(** [Err(invalid_value().into())]: src/types/value/text.rs:204, 238 *)
Definition invalid_value {A} (t : value_type) (b : bytes) : res protocol_error A :=
  Err (PParse (EInvalidValue t b)).

(** [..ok_or / map_err(|_| invalid_value())?]: src/types/value/text.rs:212-216 *)
Definition or_invalid {A} (o : option A) (t : value_type) (b : bytes) : res protocol_error A :=
  match o with Some a => Ok a | None => invalid_value t b end.

(** [&value[a..b]] inside bounds (the callers check the length): src/types/value/text.rs:212-222 *)
Definition slice (b : bytes) (from to : Z) : bytes := takeZ (to - from) (dropZ from b).

(** [value[i]] inside bounds: src/types/value/text.rs:209, 219, 240 *)
Definition at_ (b : bytes) (i : Z) : Z := nth (Z.to_nat i) b 0.

(** [microseconds *= 10u32.pow(6 - buf.len() as u32)]: src/types/value/text.rs:224.  With more
    than six digits the subtraction overflows: a panic in a debug build; in a release build the
    exponent wraps to more than 2^31, and a power of ten beyond 10^31 is 0 modulo 2^32. *)
Definition scale_micros (debug : bool) (m len : Z) : res protocol_error Z :=
  if len <=? 6 then Ok (m * 10 ^ (6 - len))
  else if debug then Panic else Ok 0.

(** src/types/value/text.rs:203-233 *)
Definition time_text_inner (debug : bool) (v : bytes) : res protocol_error (Z * Z * Z * Z * Z) :=
  match position 58 v with
  | None => Err peof
  | Some c =>
    if lenZ v <? c + 6 then invalid_value TTime v
    else if negb (at_ v (c + 3) =? 58) then invalid_value TTime v
    else
    rbind (or_invalid (btou 4294967295 (slice v 0 c)) TTime v) (fun hours =>
    rbind (or_invalid (btou 255 (slice v (c + 1) (c + 3))) TTime v) (fun minutes =>
    rbind (or_invalid (btou 255 (slice v (c + 4) (c + 6))) TTime v) (fun seconds =>
    rbind (if lenZ v >? c + 7 then
             if negb (at_ v (c + 6) =? 46) then invalid_value TTime v
             else let buf := dropZ (c + 7) v in
                  rbind (or_invalid (btou 4294967295 buf) TTime v) (fun m =>
                  scale_micros debug m (lenZ buf))
           else Ok 0) (fun micros =>
    Ok (hours / 24, hours mod 24, minutes, seconds, micros)))))
  end.

(** src/types/value/text.rs:235-248 *)
Definition date_text_inner (v : bytes) : res protocol_error (Z * Z * Z) :=
  if negb (lenZ v =? 10) then invalid_value TDate v
  else if negb (at_ v 4 =? 45) then invalid_value TDate v
  else if negb (at_ v 7 =? 45) then invalid_value TDate v
  else
  rbind (or_invalid (btou 65535 (slice v 0 4)) TDate v) (fun year =>
  rbind (or_invalid (btou 255 (slice v 5 7)) TDate v) (fun month =>
  rbind (or_invalid (btou 255 (slice v 8 10)) TDate v) (fun day =>
  Ok (year, month, day)))).

(** src/types/value/text.rs:250-265 *)
Definition time_text (debug : bool) (v : bytes) : res protocol_error value :=
  match v with
  | [] => Err peof
  | c :: r =>
    let negative := c =? 45 in
    rbind (time_text_inner debug (if negative then r else v)) (fun t =>
    let '(days, hours, minutes, seconds, micros) := t in
    Ok (VTime negative days hours minutes seconds micros))
  end.

(** src/types/value/text.rs:267-270 *)
Definition date_text (v : bytes) : res protocol_error value :=
  rbind (date_text_inner v) (fun d => let '(y, m, day) := d in Ok (VDate y m day)).

(** src/types/value/text.rs:272-291 *)
Definition datetime_text (debug : bool) (v : bytes) : res protocol_error value :=
  if lenZ v <? 19 then invalid_value TDate v
  else
  rbind (date_text_inner (takeZ 10 v)) (fun d =>
  rbind (time_text_inner debug (dropZ 11 v)) (fun t =>
  let '(y, m, day) := d in
  let '(_, hour, minute, second, micro) := t in
  Ok (VDatetime y m day hour minute second micro))).

(** [map_err(|e| io::Error::new(io::ErrorKind::InvalidData, e).into())]:
    src/types/value/text.rs:346, 349, 353, 358 *)
Definition or_invalid_data {A} (o : option A) : res protocol_error A :=
  match o with Some a => Ok a | None => Err (PIo IoInvalidData) end.

(** Integer columns: src/types/value/text.rs:310-346; [k] is the width in bytes. *)
Definition int_text (k : nat) (i u : Z -> value) (unsigned : bool) (b : bytes) : res protocol_error value :=
  let m := 256 ^ Z.of_nat k in
  or_invalid_data
    (if unsigned then option_map u (btou (m - 1) b)
     else option_map i (btoi (- (m / 2)) (m / 2 - 1) b)).

(** Float columns: src/types/value/text.rs:347-363.  [from_str] is [f32::from_str] or
    [f64::from_str] as a function to the bit pattern. *)
Definition float_text (from_str : str -> option Z) (mk : Z -> value) (b : bytes) : res protocol_error value :=
  match utf8_decode b with
  | None => Err (PIo IoInvalidData)
  | Some s => or_invalid_data (option_map mk (from_str s))
  end.

(** The value part of src/types/value/text.rs:309-383 *)
Definition text_value (debug : bool) (f32_from_str f64_from_str : str -> option Z)
  (t : column_type) (flags : Z) (b : bytes) : res protocol_error value :=
  let unsigned := has_flag flags UNSIGNED_FLAG in
  match t with
  | CTiny => int_text 1 VTiny VUTiny unsigned b
  | CShort | CYear => int_text 2 VShort VUShort unsigned b
  | CLong | CInt24 => int_text 4 VInt VUInt unsigned b
  | CLongLong => int_text 8 VLong VULong unsigned b
  | CFloat => float_text f32_from_str VFloat b
  | CDouble => float_text f64_from_str VDouble b
  | CString | CVarString | CVarchar | CBlob | CTinyBlob | CMediumBlob | CSet | CEnum
  | CDecimal | CBit | CNewDecimal | CGeometry | CJson => Ok (VBytes b)
  | CTimestamp | CDatetime => datetime_text debug b
  | CDate => date_text b
  | CTime => time_text debug b
  | _ => Panic
  end.

(** src/types/value/text.rs:293-386 *)
Definition deserialize_text (debug : bool) (f32_from_str f64_from_str : str -> option Z)
  (t : column_type) (flags : Z) : P value :=
  fun b =>
    match b with
    | [] => (Err peof, b)
    | c :: _ =>
      if c =? 251 then pbind (skip 1) (fun _ => pret VNull) b
      else pbind checked_eat_lenenc_slice
             (fun x => plift (text_value debug f32_from_str f64_from_str t flags x)) b
    end.
