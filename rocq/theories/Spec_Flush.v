(** Specification for C97. *)
From Coq Require Import ZArith List.
Open Scope Z_scope.

(** The size of the last piece handed to the stream for a payload of [n] bytes: the body of the last
    frame, or the header alone if that frame has no body. *)
Definition last_piece (n : Z) : Z :=
  if n mod (2 ^ 24 - 1) =? 0 then 4 else n mod (2 ^ 24 - 1).
