(** How a server reads the commands on a connection (C119).  Independent of the model's functions. *)
From Coq Require Import ZArith List.
From Verif Require Import Spec_Wire Spec_Conn.
Import ListNotations.
Open Scope Z_scope.

(** A server has read the packets [ps] from the bytes [sent]; each command is numbered from 0, and
    [rest] is what it has not read yet. *)
Inductive server_reads : list (list Z) -> list Z -> list Z -> Prop :=
| reads_nothing : forall rest, server_reads [] rest rest
| reads_packet : forall p w q ps l rest, frames 0 p w q -> server_reads ps l rest ->
    server_reads (p :: ps) (w ++ l) rest.

(** [given] are some of the uses [us], in the same order. *)
Inductive some_of : list use -> list use -> Prop :=
| some_nil : some_of [] []
| some_take : forall u given us, some_of given us -> some_of (u :: given) (u :: us)
| some_skip : forall u given us, some_of given us -> some_of given (u :: us).
