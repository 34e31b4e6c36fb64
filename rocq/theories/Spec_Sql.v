(** How MySQL divides the text of a statement into tokens (default SQL mode); from the reference manual
    (literals, identifiers, comments).  Numbers with an exponent, and comments that are executed, are not
    treated apart.  Independent of the model's functions (C121). *)
From Coq Require Import ZArith List Bool.
From Verif Require Import Types Spec_Wire Spec_Stmt Spec_Text.
Import ListNotations.
Open Scope Z_scope.

Inductive token : Type :=
| TString (content : list Z)   (* a string literal *)
| TName (name : list Z)        (* a quoted identifier *)
| TWord (w : list Z)           (* a keyword, an unquoted identifier or a number *)
| TMark (c : Z).               (* any other character *)

Definition blank (c : Z) : bool := ((9 <=? c) && (c <=? 13)) || (c =? 32).
Definition control (c : Z) : bool := (c <? 32) || (c =? 127).
Definition is_digit (c : Z) : bool := (48 <=? c) && (c <=? 57).
Definition word_char (c : Z) : bool :=
  is_digit c || ((97 <=? c) && (c <=? 122)) || ((65 <=? c) && (c <=? 90)) || (c =? 36) || (c =? 95) || (128 <=? c).

(** The longest beginning of characters for which [p] holds, and the rest. *)
Fixpoint run (p : Z -> bool) (l : list Z) : list Z * list Z :=
  match l with
  | [] => ([], [])
  | c :: r => if p c then let '(a, b) := run p r in (c :: a, b) else ([], l)
  end.

(** After a comment that ends with the line. *)
Fixpoint after_line (l : list Z) : list Z :=
  match l with [] => [] | c :: r => if c =? 10 then r else after_line r end.

(** After a comment that ends with an asterisk and a slash. *)
Fixpoint after_comment (l : list Z) : option (list Z) :=
  match l with
  | [] => None
  | c :: r =>
    match r with
    | d :: r' => if (c =? 42) && (d =? 47) then Some r' else after_comment r
    | [] => None
    end
  end.

(** A word; digits may be followed by a point and more digits. *)
Definition lex_word (l : list Z) : list Z * list Z :=
  let '(w, r) := run word_char l in
  match r with
  | 46 :: d :: _ =>
    if forallb is_digit w && is_digit d then let '(f, r') := run is_digit (tl r) in (w ++ 46 :: f, r') else (w, r)
  | _ => (w, r)
  end.

Definition starts (p : Z -> bool) (l : list Z) : bool := match l with c :: _ => p c | [] => false end.

(** What the text begins with: a token, or ([None]) something that is passed over. *)
Definition next_token (l : list Z) : option (option token * list Z) :=
  match l with
  | [] => None
  | c :: r =>
    if blank c then Some (None, r)
    else if (c =? 34) || (c =? 39) then
      match lex_string true l with Some (s, r') => Some (Some (TString s), r') | None => None end
    else if c =? 96 then
      match lex_identifier l with Some (s, r') => Some (Some (TName s), r') | None => None end
    else if c =? 35 then Some (None, after_line r)
    else if (c =? 45) && starts (Z.eqb 45) r && negb (starts (fun x => negb (blank x || control x)) (tl r))
    then Some (None, after_line r)
    else if (c =? 47) && starts (Z.eqb 42) r then
      match after_comment (tl r) with Some r' => Some (None, r') | None => None end
    else if word_char c then let '(w, r') := lex_word l in Some (Some (TWord w), r')
    else Some (Some (TMark c), r)
  end.

(** The tokens [ts] are read from [l], up to where [rest] remains. *)
Inductive reads : list Z -> list token -> list Z -> Prop :=
| reads_none : forall l, reads l [] l
| reads_pass : forall l r ts rest, next_token l = Some (None, r) -> reads r ts rest -> reads l ts rest
| reads_token : forall l t r ts rest, next_token l = Some (Some t, r) -> reads r ts rest -> reads l (t :: ts) rest.

(** A text that gives the same tokens whatever follows. *)
Definition fixed (t : list Z) (ts : list token) : Prop := forall rest, reads (t ++ rest) ts rest.

(** What is put between the fixed texts of a statement. *)
Inductive hole : Type :=
| HString (s : list Z)     (* an escaped string *)
| HName (s : list Z)       (* an escaped identifier *)
| HUnquoted (s : list Z)   (* an identifier without quotes *)
| HValue (v : value).      (* a value, as it is displayed *)

(** What may follow: nothing that would continue the token. *)
Definition may_follow (h : hole) (rest : list Z) : Prop :=
  match h with
  | HString _ => starts (Z.eqb 34) rest = false
  | HName _ => starts (Z.eqb 96) rest = false
  | HUnquoted _ => starts word_char rest = false /\ starts (Z.eqb 46) rest = false
  | HValue _ => starts (Z.eqb 34) rest = false /\ starts word_char rest = false /\ starts (Z.eqb 46) rest = false
  end.

(** The tokens of what is put in: one, or two for negative numbers. *)
Inductive shape : hole -> list token -> Prop :=
| shape_string : forall s c, shape (HString s) [TString c]
| shape_name : forall s n, Forall ident_allowed n -> shape (HName s) [TName n]
| shape_unquoted : forall s w, Forall unquoted_allowed w -> shape (HUnquoted s) [TWord w]
| shape_time : forall v c, shape (HValue v) [TString c]
| shape_word : forall v w, shape (HValue v) [TWord w]
| shape_negative : forall v w, shape (HValue v) [TMark 45; TWord w].

(** The numbers of the integer values. *)
Definition int_of (v : value) : option Z :=
  match v with
  | VTiny x | VShort x | VInt x | VLong x | VUTiny x | VUShort x | VUInt x | VULong x => Some x
  | _ => None
  end.

(** The tokens mean what is put in. *)
Inductive means : hole -> list token -> Prop :=
| means_string : forall s, means (HString s) [TString s]
| means_name : forall s n, ident_name s n -> means (HName s) [TName n]
| means_unquoted : forall s w, selects unquoted_allowed s w -> means (HUnquoted s) [TWord w]
| means_null : means (HValue VNull) [TWord [78; 85; 76; 76]]
| means_int : forall v n w, int_of v = Some n -> nat_text n w -> means (HValue v) [TWord w]
| means_negative : forall v n w, int_of v = Some n -> n < 0 -> nat_text (- n) w -> means (HValue v) [TMark 45; TWord w]
| means_bytes : forall b w, hex_literal b w -> means (HValue (VBytes b)) [TWord w]
| means_date : forall y m d t, spec_date y m d t -> means (HValue (VDate y m d)) [TString t]
| means_datetime : forall y mo d h mi s u t, spec_datetime y mo d h mi s u t ->
    means (HValue (VDatetime y mo d h mi s u)) [TString t]
| means_time : forall neg days h m s u t, spec_time (VTime neg days h m s u) t ->
    means (HValue (VTime neg days h m s u)) [TString t].

(** Exactly what can be expressed: no Control+Z in strings, no identifier of spaces only, no empty byte
    string, dates with four digits in the year, times of less than 2^32 hours. *)
Definition expressible (h : hole) : Prop :=
  match h with
  | HString s => ~ In 26 s
  | HName s => (exists c, In c s /\ ident_allowed c /\ ~ space c) \/
      match s with c :: _ => ~ (ident_allowed c /\ space c) | [] => True end
  | HUnquoted _ => True
  | HValue v =>
    match v with
    | VFloat _ | VDouble _ => False
    | VBytes b => b <> []
    | VDate y m d => y < 10000 /\ m < 100 /\ d < 100
    | VDatetime y mo d h mi s u => y < 10000 /\ mo < 100 /\ d < 100 /\ h < 24 /\ mi < 100 /\ s < 100 /\ u < 1000000
    | VTime _ days h m s u => h < 24 /\ days * 24 + h < 2 ^ 32 /\ m < 100 /\ s < 100 /\ u < 1000000
    | _ => True
    end
  end.

(** Text of a floating-point value: decimal, or one of the three words. *)
Definition float_text (t : list Z) : Prop :=
  (exists w f, w <> [] /\ Forall digit w /\ (f = [] \/ exists d, d <> [] /\ Forall digit d /\ f = 46 :: d) /\
     (t = w ++ f \/ t = 45 :: w ++ f)) \/
  t = [78; 97; 78] \/ t = [105; 110; 102] \/ t = [45; 105; 110; 102].

(** A statement: fixed texts with something after each, and a last text.  [tx h x]: [x] is the text of
    [h]; nothing after it continues its token. *)
Inductive assembled (tx : hole -> list Z -> Prop) : list (list Z * hole) -> list Z -> list Z -> Prop :=
| assembled_last : forall last, assembled tx [] last last
| assembled_part : forall t h x parts last rest, tx h x -> may_follow h rest -> assembled tx parts last rest ->
    assembled tx ((t, h) :: parts) last (t ++ x ++ rest).

(** The tokens of the fixed texts and of what is put in, in order. *)
Fixpoint in_order (fixed_tokens hole_tokens : list (list token)) (last : list token) : list token :=
  match fixed_tokens, hole_tokens with
  | a :: r, b :: r' => a ++ b ++ in_order r r' last
  | _, _ => last
  end.
