(** What it means that two values are the same: same type and same content; floating-point numbers are
    the same if they are the same number (IEEE 754).  Independent of the model's functions. *)
From Coq Require Import ZArith List.
From Verif Require Import Types Spec_Stored.
Import ListNotations.
Open Scope Z_scope.

(** Sign, exponent and mantissa: [m] bits of mantissa, [w] of exponent. *)
Definition fields (m w x : Z) (s e f : Z) : Prop :=
  x = s * 2 ^ (m + w) + e * 2 ^ m + f /\ 0 <= s <= 1 /\ 0 <= e < 2 ^ w /\ 0 <= f < 2 ^ m.

(** The number, in units of the least positive one. *)
Definition finite (m w x n : Z) : Prop :=
  exists s e f, fields m w x s e f /\ e <> 2 ^ w - 1 /\
    n = (1 - 2 * s) * (if e =? 0 then f else (2 ^ m + f) * 2 ^ (e - 1)).
Definition infinite (m w x s : Z) : Prop := fields m w x s (2 ^ w - 1) 0.

Definition same_float (m w x y : Z) : Prop :=
  (exists n, finite m w x n /\ finite m w y n) \/ (exists s, infinite m w x s /\ infinite m w y s).

(** Neither a number nor infinite. *)
Definition no_number (m w x : Z) : Prop := exists s f, fields m w x s (2 ^ w - 1) f /\ f <> 0.

Inductive same_value : value -> value -> Prop :=
| same_float32 : forall x y, same_float 23 8 x y -> same_value (VFloat x) (VFloat y)
| same_float64 : forall x y, same_float 52 11 x y -> same_value (VDouble x) (VDouble y)
| same_other : forall v, (forall x, v <> VFloat x) -> (forall x, v <> VDouble x) -> same_value v v.

(** Not NaN. *)
Definition is_number (v : value) : Prop :=
  (forall x, v = VFloat x -> ~ no_number 23 8 x) /\ (forall x, v = VDouble x -> ~ no_number 52 11 x).

(** The same content of a column. *)
Inductive same_content : datum -> datum -> Prop :=
| content_float : forall x y, same_float 23 8 x y -> same_content (DFloat x) (DFloat y)
| content_double : forall x y, same_float 52 11 x y -> same_content (DDouble x) (DDouble y)
| content_other : forall d, (forall x, d <> DFloat x) -> (forall x, d <> DDouble x) -> same_content d d.
