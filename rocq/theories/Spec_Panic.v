(** Specification of what may stop the client: packets of the server that it cannot handle. *)
From Coq Require Import ZArith List.
From Verif Require Import Base Types Spec_Wire.
Import ListNotations.
Open Scope Z_scope.

(** A packet without content (no packet of the protocol is empty where a row is expected: a row has
    at least one byte per column), a LOCAL INFILE request (0xFB), an announcement of more columns
    than could ever be stored (104 bytes each), or a row the decoder of the rows panics on. *)
Inductive fatal {A} (decode : list column -> list Z -> res error A) : list Z -> Prop :=
| fatal_empty : fatal decode []
| fatal_infile : forall r, fatal decode (251 :: r)
| fatal_columns : forall n w r, lenenc n w -> 2 ^ 63 <= n * 104 -> fatal decode (w ++ r)
| fatal_row : forall cols p, decode cols p = Panic -> fatal decode p.

(** The bytes taken from the input end with a packet of that kind. *)
Definition fatal_input {A} (decode : list column -> list Z -> res error A) (before after : list Z) : Prop :=
  exists pre q p w q', before = pre ++ w ++ after /\ frames q p w q' /\ fatal decode p.
