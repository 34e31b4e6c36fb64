(** src/connection/types/null_bitmap.rs.  [client] is the const generic CLIENT_SIDE. *)
From Coq Require Import ZArith List Bool.
From Verif Require Import Base Types ParseBuf.
Import ListNotations.
Open Scope Z_scope.
Open Scope parse_scope.

(** src/connection/types/null_bitmap.rs:10-15 *)
Definition nb_offset (client : bool) : Z := if client then 0 else 2.

(** src/connection/types/null_bitmap.rs:6-8 *)
Definition bitmap_len (client : bool) (num_columns : Z) : Z :=
  (num_columns + 7 + nb_offset client) / 8.

(** src/connection/types/null_bitmap.rs:17-25; [None] where the assertion fails. *)
Definition byte_and_bit (client : bool) (bm : bytes) (i : Z) : option (Z * Z) :=
  let offset := i + nb_offset client in
  let byte := offset / 8 in
  let bit := Z.shiftl 1 (offset mod 8) in
  if byte <? lenZ bm then Some (byte, bit) else None.

(** src/connection/types/null_bitmap.rs:27-30; [None] is a panic. *)
Definition is_null (client : bool) (bm : bytes) (i : Z) : option bool :=
  match byte_and_bit client bm i with
  | None => None
  | Some (byte, bit) =>
    option_map (fun b => negb (Z.land b bit =? 0)) (index_opt bm byte)
  end.

(** src/connection/types/null_bitmap.rs:46-48 *)
Definition nb_new (client : bool) (num_columns : Z) : bytes :=
  repeatZ 0 (bitmap_len client num_columns).

(** [self.0[byte] = f(self.0[byte])]: src/connection/types/null_bitmap.rs:55, 57 *)
Fixpoint update_nth (i : nat) (f : Z -> Z) (l : bytes) : bytes :=
  match l, i with
  | [], _ => []
  | x :: r, O => f x :: r
  | x :: r, S i' => x :: update_nth i' f r
  end.

(** src/connection/types/null_bitmap.rs:52-59; [None] is a panic. *)
Definition nb_set (client : bool) (bm : bytes) (i : Z) (null : bool) : option bytes :=
  match byte_and_bit client bm i with
  | None => None
  | Some (byte, bit) =>
    if null
    then Some (update_nth (Z.to_nat byte) (fun b => Z.lor b bit) bm)
    else Some (update_nth (Z.to_nat byte) (fun b => Z.land b (255 - bit)) bm)
  end.

(** src/connection/types/null_bitmap.rs:66-70 *)
Definition nb_deserialize (client : bool) (num_columns : Z) : P bytes :=
  checked_eat (bitmap_len client num_columns).
