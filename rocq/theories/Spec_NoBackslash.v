(** Specification of C16 in SQL mode NO_BACKSLASH_ESCAPES. *)
From Coq Require Import ZArith List.
Import ListNotations.
Open Scope Z_scope.

(** The characters that are written with a backslash. *)
Definition marked : list Z := [0; 8; 9; 10; 13; 26; 34; 39; 92].
