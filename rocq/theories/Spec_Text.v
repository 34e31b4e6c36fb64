(** How MySQL writes values in text rows and reads literals in statements; from the
    reference manual (string literals, hexadecimal literals, identifiers, date and time
    literals) and the protocol documentation (Text Resultset Row).  Independent of the
    model's functions. *)
From Coq Require Import ZArith List Bool.
From Verif Require Import Types Spec_Wire Spec_Stmt.
Import ListNotations.
Open Scope Z_scope.

(** ** Numbers *)
Definition digit (c : Z) : Prop := 48 <= c <= 57.
Definition dec_val (l : list Z) : Z := fold_left (fun a c => a * 10 + (c - 48)) l 0.

(** Decimal text of a natural number (leading zeros allowed, e.g. ZEROFILL). *)
Definition nat_text (n : Z) (l : list Z) : Prop := l <> [] /\ Forall digit l /\ dec_val l = n.

(** Decimal text of an integer. *)
Definition signed_text (n : Z) (l : list Z) : Prop :=
  nat_text n l \/ exists l', l = 45 :: l' /\ nat_text (- n) l'.

(** Exactly [w] digits. *)
Definition fixed_text (w : nat) (n : Z) (l : list Z) : Prop :=
  length l = w /\ Forall digit l /\ dec_val l = n.

(** ** Dates and times *)

(** YYYY-MM-DD *)
Definition spec_date (y m d : Z) (l : list Z) : Prop :=
  exists a b c, l = a ++ [45] ++ b ++ [45] ++ c /\
    fixed_text 4 y a /\ fixed_text 2 m b /\ fixed_text 2 d c.

(** Optional fraction of one to six digits, in microseconds. *)
Definition spec_fraction (u : Z) (l : list Z) : Prop :=
  (u = 0 /\ l = []) \/
  exists f, l = 46 :: f /\ (1 <= length f <= 6)%nat /\ Forall digit f /\
    u = dec_val f * 10 ^ (6 - Z.of_nat (length f)).

(** H..H:MM:SS with optional fraction. *)
Definition spec_clock (h m s u : Z) (l : list Z) : Prop :=
  exists a b c f, l = a ++ [58] ++ b ++ [58] ++ c ++ f /\
    (2 <= length a)%nat /\ nat_text h a /\ fixed_text 2 m b /\ fixed_text 2 s c /\ spec_fraction u f.

(** TIME value: sign, hours possibly above 23 counted in days. *)
Inductive spec_time : value -> list Z -> Prop :=
| spec_time_pos : forall days h m s u l, 0 <= h < 24 -> 0 <= days -> days * 24 + h < 2 ^ 32 ->
    spec_clock (days * 24 + h) m s u l -> spec_time (VTime false days h m s u) l
| spec_time_neg : forall days h m s u l, 0 <= h < 24 -> 0 <= days -> days * 24 + h < 2 ^ 32 ->
    spec_clock (days * 24 + h) m s u l -> spec_time (VTime true days h m s u) (45 :: l).

(** YYYY-MM-DD HH:MM:SS with optional fraction. *)
Definition spec_datetime (y mo d h mi s u : Z) (l : list Z) : Prop :=
  exists a b, l = a ++ [32] ++ b /\ spec_date y mo d a /\
    0 <= h < 24 /\ spec_clock h mi s u b /\
    (exists r, exists hh, b = hh ++ [58] ++ r /\ fixed_text 2 h hh).

(** ** Text rows *)

Section TextRows.
  (** Text forms of floating-point values (by bit pattern). *)
  Variable f32_text f64_text : Z -> list Z -> Prop.

  Inductive text_enc : column_type -> bool -> value -> list Z -> Prop :=
  | te_tiny_s : forall x l, - 2 ^ 7 <= x < 2 ^ 7 -> signed_text x l -> text_enc CTiny false (VTiny x) l
  | te_tiny_u : forall x l, u8 x -> nat_text x l -> text_enc CTiny true (VUTiny x) l
  | te_short_s : forall t x l, t = CShort \/ t = CYear -> - 2 ^ 15 <= x < 2 ^ 15 -> signed_text x l ->
      text_enc t false (VShort x) l
  | te_short_u : forall t x l, t = CShort \/ t = CYear -> u16 x -> nat_text x l ->
      text_enc t true (VUShort x) l
  | te_long_s : forall t x l, t = CLong \/ t = CInt24 -> - 2 ^ 31 <= x < 2 ^ 31 -> signed_text x l ->
      text_enc t false (VInt x) l
  | te_long_u : forall t x l, t = CLong \/ t = CInt24 -> u32 x -> nat_text x l ->
      text_enc t true (VUInt x) l
  | te_longlong_s : forall x l, - 2 ^ 63 <= x < 2 ^ 63 -> signed_text x l -> text_enc CLongLong false (VLong x) l
  | te_longlong_u : forall x l, u64 x -> nat_text x l -> text_enc CLongLong true (VULong x) l
  | te_float : forall b x l, f32_text x l -> text_enc CFloat b (VFloat x) l
  | te_double : forall b x l, f64_text x l -> text_enc CDouble b (VDouble x) l
  | te_str : forall t b s, str_type t -> text_enc t b (VBytes s) s
  | te_date : forall b y m d l, spec_date y m d l -> text_enc CDate b (VDate y m d) l
  | te_datetime : forall t b y mo d h mi s u l, t = CDatetime \/ t = CTimestamp ->
      spec_datetime y mo d h mi s u l -> text_enc t b (VDatetime y mo d h mi s u) l
  | te_time : forall b v l, spec_time v l -> text_enc CTime b v l.

  (** A text row packet: NULL as 0xFB, other values as length-encoded strings. *)
  Inductive text_row : list (column_type * bool) -> list value -> list Z -> Prop :=
  | tr_nil : text_row [] [] []
  | tr_null : forall t u cs vs w, text_row cs vs w -> text_row ((t, u) :: cs) (VNull :: vs) (251 :: w)
  | tr_val : forall t u cs v vs l pre w, text_enc t u v l -> lenenc (Z.of_nat (length l)) pre ->
      text_row cs vs w -> text_row ((t, u) :: cs) (v :: vs) (pre ++ l ++ w).
End TextRows.

(** ** Literals in statements *)

(** Escape sequences of string literals: [unescape c] is what backslash [c] stands for. *)
Definition unescape (c : Z) : list Z :=
  match c with
  | 48 => [0]           (* \0 *)
  | 98 => [8]           (* \b *)
  | 110 => [10]         (* \n *)
  | 114 => [13]         (* \r *)
  | 116 => [9]          (* \t *)
  | 90 => [26]          (* \Z *)
  | 37 => [92; 37]      (* \% *)
  | 95 => [92; 95]      (* \_ *)
  | _ => [c]
  end.

(** Reads the rest of a literal opened by quote [q]; result: content and text after the
    closing quote.  [backslash] = false is SQL mode NO_BACKSLASH_ESCAPES. *)
Fixpoint lex_quoted (backslash : bool) (q : Z) (l : list Z) : option (list Z * list Z) :=
  match l with
  | [] => None
  | c :: r =>
    if backslash && (c =? 92) then
      match r with
      | [] => None
      | e :: r' =>
        match lex_quoted backslash q r' with
        | Some (s, rest) => Some (unescape e ++ s, rest)
        | None => None
        end
      end
    else if c =? q then
      match r with
      | c' :: r' =>
        if c' =? q then
          match lex_quoted backslash q r' with
          | Some (s, rest) => Some (q :: s, rest)
          | None => None
          end
        else Some ([], r)
      | [] => Some ([], [])
      end
    else
      match lex_quoted backslash q r with
      | Some (s, rest) => Some (c :: s, rest)
      | None => None
      end
  end.

(** A string literal (default SQL mode: both quote characters delimit strings). *)
Definition lex_string (backslash : bool) (l : list Z) : option (list Z * list Z) :=
  match l with
  | 34 :: r => lex_quoted backslash 34 r
  | 39 :: r => lex_quoted backslash 39 r
  | _ => None
  end.

(** A quoted identifier: backtick, no backslash escapes. *)
Definition lex_identifier (l : list Z) : option (list Z * list Z) :=
  match l with
  | 96 :: r => lex_quoted false 96 r
  | _ => None
  end.

(** Hexadecimal digits. *)
Definition hex_val (c : Z) : option Z :=
  if (48 <=? c) && (c <=? 57) then Some (c - 48)
  else if (97 <=? c) && (c <=? 102) then Some (c - 87)
  else if (65 <=? c) && (c <=? 70) then Some (c - 55)
  else None.

(** Digit pairs. *)
Inductive hex_pairs : list Z -> list Z -> Prop :=
| hp_nil : hex_pairs [] []
| hp_cons : forall a b h l bs t, hex_val a = Some h -> hex_val b = Some l -> hex_pairs bs t ->
    hex_pairs ((16 * h + l) :: bs) (a :: b :: t).

(** A hexadecimal literal 0x... needs at least one digit; an odd number of digits has an
    implicit leading zero. *)
Inductive hex_literal : list Z -> list Z -> Prop :=
| hl_even : forall bs t, t <> [] -> hex_pairs bs t -> hex_literal bs (48 :: 120 :: t)
| hl_odd : forall bs t, hex_pairs bs (48 :: t) -> hex_literal bs (48 :: 120 :: t).

(** ** Identifiers *)

(** Characters permitted in quoted identifiers: U+0001 .. U+FFFF. *)
Definition ident_allowed (c : Z) : Prop := 1 <= c <= 65535.

(** Unicode White_Space. *)
Definition space (c : Z) : Prop :=
  In c [9; 10; 11; 12; 13; 32; 133; 160; 5760; 8192; 8193; 8194; 8195; 8196; 8197; 8198; 8199;
        8200; 8201; 8202; 8232; 8233; 8239; 8287; 12288].

(** [selects P s out]: [out] is [s] without the characters outside [P]. *)
Inductive selects (P : Z -> Prop) : list Z -> list Z -> Prop :=
| sel_nil : selects P [] []
| sel_keep : forall c s out, P c -> selects P s out -> selects P (c :: s) (c :: out)
| sel_drop : forall c s out, ~ P c -> selects P s out -> selects P (c :: s) out.

(** The name meant by an input: disallowed characters removed, then trailing whitespace. *)
Definition ident_name (s name : list Z) : Prop :=
  exists tail, selects ident_allowed s (name ++ tail) /\ Forall space tail /\
    (name = [] \/ exists n c, name = n ++ [c] /\ ~ space c).

(** Characters permitted in unquoted identifiers: 0-9 a-z A-Z $ _ U+0080 .. U+FFFF. *)
Definition unquoted_allowed (c : Z) : Prop :=
  48 <= c <= 57 \/ 97 <= c <= 122 \/ 65 <= c <= 90 \/ c = 36 \/ c = 95 \/ 128 <= c <= 65535.

(** The texts that denote a byte string: optional 0x or 0X, then digit pairs. *)
Definition hex_text (bs s : list Z) : Prop :=
  exists t, hex_pairs bs t /\ (s = t \/ s = [48; 120] ++ t \/ s = [48; 88] ++ t).

(** The digits [t] of [s]: what follows the prefix, if there is one. *)
Definition hex_digits_of (s t : list Z) : Prop :=
  s = [48; 120] ++ t \/ s = [48; 88] ++ t \/
  (s = t /\ (forall r, s <> [48; 120] ++ r) /\ (forall r, s <> [48; 88] ++ r)).
