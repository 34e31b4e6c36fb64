(** Announcements of columns that are cut off. *)
From Coq Require Import ZArith List.
Import ListNotations.
Open Scope Z_scope.

(** An integer of the protocol that is not there, or whose first byte promises more bytes than follow. *)
Inductive cut_count : list Z -> Prop :=
| cut_none : cut_count []
| cut_two : forall r, (length r < 2)%nat -> cut_count (252 :: r)
| cut_three : forall r, (length r < 3)%nat -> cut_count (253 :: r)
| cut_eight : forall r, (length r < 8)%nat -> cut_count (254 :: r).
