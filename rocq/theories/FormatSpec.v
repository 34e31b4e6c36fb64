(** [Display for Value] and [Display for Hex] with a format specification such as [{:>8}] or [{:.2}]:
    src/types/value/text.rs:133-200, src/types/hex.rs:82-87, with the parts of std::fmt they use.
    ValueText.v has the case without one. *)
From Coq Require Import String ZArith List Bool.
From Verif Require Import Base Types ValueText Hex.
Import ListNotations.
Open Scope Z_scope.

(** [std::fmt::Alignment]; used through src/types/value/text.rs:158-170 *)
Inductive alignment : Type := ALeft | ACenter | ARight.

(** The options of a [Formatter] (std) that [Display] of numbers and strings looks at;
    src/types/value/text.rs:158-170 hands them on.  [fm_zero]: the flag 0 as in [{:08}]. *)
Record format : Type := mkFormat {
  fm_fill : Z; fm_align : option alignment; fm_plus : bool; fm_zero : bool; fm_width : option Z; fm_precision : option Z
}.

(** No options, as for [{}]: src/types/value/text.rs:133-134 is called with these. *)
Definition no_format : format := mkFormat 32 None false false None None.

(** [Formatter::padding] (std) around [s], with the default alignment; used through
    src/types/value/text.rs:158-170 *)
Definition padding (fill : Z) (align : alignment) (n : Z) (s : str) : str :=
  match align with
  | ALeft => s ++ repeatZ fill n
  | ARight => repeatZ fill n ++ s
  | ACenter => repeatZ fill (n / 2) ++ s ++ repeatZ fill ((n + 1) / 2)
  end.

(** The alignment given or the default one (std); used through src/types/value/text.rs:158-170 *)
Definition align_or (a : option alignment) (d : alignment) : alignment := match a with Some x => x | None => d end.

(** [Formatter::pad] (std), for strings: src/types/value/text.rs:170, src/types/hex.rs:85 *)
Definition pad_str (f : format) (s : str) : str :=
  let s := match fm_precision f with Some n => takeZ n s | None => s end in
  match fm_width f with
  | None => s
  | Some w => if lenZ s >=? w then s else padding (fm_fill f) (align_or (fm_align f) ALeft) (w - lenZ s) s
  end.

(** [Formatter::pad_integral] (std), for integers, and [pad_formatted_parts] (std), for floats, given
    the sign and the rest: src/types/value/text.rs:158-167 *)
Definition pad_number (f : format) (sign s : str) : str :=
  match fm_width f with
  | None => sign ++ s
  | Some w =>
    let n := lenZ sign + lenZ s in
    if n >=? w then sign ++ s
    else if fm_zero f then sign ++ padding 48 ARight (w - n) s
    else padding (fm_fill f) (align_or (fm_align f) ARight) (w - n) (sign ++ s)
  end.

(** [Display] of an integer (std): src/types/value/text.rs:158-165 *)
Definition format_int (f : format) (n : Z) : str :=
  pad_number f (if n <? 0 then [45] else if fm_plus f then [43] else []) (dec (Z.abs n)).

(** [Display for Value]: src/types/value/text.rs:133-200.  [ff32] and [ff64] are the sign and the digits
    std writes for a float, by the precision and whether a plus sign is asked for.  What is written with
    [write!] or [write_str] does not depend on the format; [None] is a panic. *)
Definition value_format (debug : bool) (ff32 ff64 : option Z -> bool -> Z -> str * str) (f : format) (v : value) : option str :=
  match v with
  | VNull => Some (s2l "NULL")
  | VTiny x | VShort x | VInt x | VLong x | VUTiny x | VUShort x | VUInt x | VULong x => Some (format_int f x)
  | VFloat x => let '(sign, s) := ff32 (fm_precision f) (fm_plus f) x in Some (pad_number f sign s)
  | VDouble x => let '(sign, s) := ff64 (fm_precision f) (fm_plus f) x in Some (pad_number f sign s)
  | VBytes x => Some (s2l "0x" ++ pad_str f (hex_encode x))
  | VDate y m d => Some ([34] ++ format_date y m d ++ [34])
  | VTime neg days hours minutes seconds micros =>
    match total_hours debug days hours with
    | Some h => Some ([34] ++ (if neg then [45] else []) ++ format_time h minutes seconds micros ++ [34])
    | None => None
    end
  | VDatetime y mo d h mi s u => Some ([34] ++ format_date y mo d ++ [32] ++ format_time h mi s u ++ [34])
  end.

(** [Display for Hex]: src/types/hex.rs:82-87 *)
Definition hex_format (f : format) (b : bytes) : str := [48; 120] ++ pad_str f (hex_encode b).
