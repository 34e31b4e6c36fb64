(** The texts of times that are read as values, including forms no server sends. *)
From Coq Require Import ZArith List.
From Verif Require Import Types Spec_Text.
Import ListNotations.
Open Scope Z_scope.

(** After the seconds: nothing or one arbitrary character, or a point and digits.  More than six
    digits count as nothing, if [long] admits them at all. *)
Definition tail_form (long : bool) (u : Z) (l : list Z) : Prop :=
  (u = 0 /\ (length l <= 1)%nat) \/
  exists f, l = 46 :: f /\ f <> [] /\ Forall digit f /\ dec_val f < 2 ^ 32 /\
    (((length f <= 6)%nat /\ u = dec_val f * 10 ^ (6 - Z.of_nat (length f))) \/
     ((6 < length f)%nat /\ long = true /\ u = 0)).

(** Any number of digits, two digits, two digits. *)
Definition clock_form (long : bool) (h m s u : Z) (l : list Z) : Prop :=
  exists a b c f, l = a ++ [58] ++ b ++ [58] ++ c ++ f /\
    nat_text h a /\ h < 2 ^ 32 /\ fixed_text 2 m b /\ fixed_text 2 s c /\ tail_form long u f.

(** A time with an optional minus sign; days are 24 hours. *)
Definition time_form (long : bool) (v : value) (l : list Z) : Prop :=
  exists neg h m s u l', v = VTime neg (h / 24) (h mod 24) m s u /\ l = (if neg then [45] else []) ++ l' /\
    clock_form long h m s u l'.

(** A date, any character, a time whose full days are dropped. *)
Definition datetime_form (long : bool) (v : value) (l : list Z) : Prop :=
  exists y mo d h m s u a x b, v = VDatetime y mo d (h mod 24) m s u /\ l = a ++ [x] ++ b /\
    (19 <= length l)%nat /\ spec_date y mo d a /\ clock_form long h m s u b.

(** An integer with an optional sign. *)
Definition integer_form (n : Z) (l : list Z) : Prop := signed_text n l \/ exists l', l = 43 :: l' /\ nat_text n l'.
