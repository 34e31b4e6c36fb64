(** src/utils/buf_mut_ext.rs and src/utils/mod.rs.  A writer appends to a buffer; the model
    gives the appended bytes. *)
From Coq Require Import ZArith List Bool.
From Verif Require Import Base.
Import ListNotations.
Open Scope Z_scope.

(** src/utils/mod.rs:14-24 *)
Definition lenenc_int_len (x : Z) : Z :=
  if x <? 251 then 1
  else if x <? 65536 then 3
  else if x <? 16777216 then 4
  else 9.

(** src/utils/mod.rs:26-29 *)
Definition lenenc_slice_len (s : bytes) : Z :=
  let len := lenZ s in lenenc_int_len len + len.

(** src/utils/mod.rs:31-37, applied to the three length bytes in src/connection/io.rs:54 *)
Definition read_u32 (v : bytes) : Z := le_val v.

(** src/utils/buf_mut_ext.rs:5-18 *)
Definition put_lenenc_int (n : Z) : bytes :=
  if n <? 251 then le_bytes 1 n
  else if n <? 65536 then 252 :: le_bytes 2 n
  else if n <? 16777216 then 253 :: le_bytes 3 n
  else 254 :: le_bytes 8 n.

(** src/utils/buf_mut_ext.rs:21-24 *)
Definition put_lenenc_slice (s : bytes) : bytes := put_lenenc_int (lenZ s) ++ s.

(** src/utils/buf_mut_ext.rs:28-32 *)
Definition put_u8_slice (s : bytes) : bytes :=
  let len := Z.min (lenZ s) 255 in le_bytes 1 len ++ takeZ len s.

(** src/utils/buf_mut_ext.rs:43-46 *)
Definition put_null_slice (s : bytes) : bytes := s ++ [0].
