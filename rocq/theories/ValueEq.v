(** [==] of values: src/types/value/mod.rs:16 ([derive(PartialEq)]). *)
From Coq Require Import ZArith List Bool.
From Verif Require Import Base Types.
Import ListNotations.
Open Scope Z_scope.

(** [is_nan] of floating-point numbers with [m] bits of mantissa and [w] of exponent, given by their bits
    (std); used by src/types/value/mod.rs:16 *)
Definition is_nan (m w x : Z) : bool := ((x / 2 ^ m) mod 2 ^ w =? 2 ^ w - 1) && negb (x mod 2 ^ m =? 0).

(** Zero of either sign (std); used by src/types/value/mod.rs:16 *)
Definition is_zero (m w x : Z) : bool := x mod 2 ^ (m + w) =? 0.

(** [PartialEq] of [f32] and [f64] (std); used by src/types/value/mod.rs:16 *)
Definition float_eqb (m w x y : Z) : bool :=
  negb (is_nan m w x) && negb (is_nan m w y) && ((x =? y) || (is_zero m w x && is_zero m w y)).

(** [PartialEq for Value], derived: src/types/value/mod.rs:16-36 *)
Definition value_eqb (v w : value) : bool :=
  match v, w with
  | VNull, VNull => true
  | VTiny x, VTiny y | VShort x, VShort y | VInt x, VInt y | VLong x, VLong y
  | VUTiny x, VUTiny y | VUShort x, VUShort y | VUInt x, VUInt y | VULong x, VULong y => x =? y
  | VFloat x, VFloat y => float_eqb 23 8 x y
  | VDouble x, VDouble y => float_eqb 52 11 x y
  | VBytes x, VBytes y => list_eqb x y
  | VDate a b c, VDate a' b' c' => (a =? a') && (b =? b') && (c =? c')
  | VTime n d h m s u, VTime n' d' h' m' s' u' =>
    Bool.eqb n n' && (d =? d') && (h =? h') && (m =? m') && (s =? s') && (u =? u')
  | VDatetime a b c d e f g, VDatetime a' b' c' d' e' f' g' =>
    (a =? a') && (b =? b') && (c =? c') && (d =? d') && (e =? e') && (f =? f') && (g =? g')
  | _, _ => false
  end.
