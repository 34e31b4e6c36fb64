(** Specification for result sets of a server without DEPRECATE_EOF (C47). *)
From Coq Require Import ZArith List.
From Verif Require Import Base Types Spec_Wire Spec_Packets Spec_Conn.
Import ListNotations.
Open Scope Z_scope.

(** A row: 0xFE begins only a string with an eight-byte length. *)
Definition old_row (p : list Z) : Prop :=
  exists x r, p = x :: r /\ x <> 255 /\ (x = 254 -> 9 <= Z.of_nat (length p)).

(** The number of columns, their definitions, an EOF packet, the rows, an EOF packet. *)
Definition old_answer (cols : list column) (rows pkts : list (list Z)) : Prop :=
  exists defs mid last s1 w1 s2 w2,
    cols <> [] /\ Z.of_nat (length cols) < 65536 /\ Forall2 (column_layout_by short_name_text) cols defs /\ Forall old_row rows /\
    old_eof s1 w1 mid /\ old_eof s2 w2 last /\
    pkts = (wire_lenenc (Z.of_nat (length cols)) :: defs) ++ [mid] ++ rows ++ [last].

(** An EOF packet behind a list of definitions, if there are any. *)
Definition then_eof (defs pkts : list (list Z)) : Prop :=
  (defs = [] /\ pkts = []) \/ (defs <> [] /\ exists eof s w, old_eof s w eof /\ pkts = defs ++ [eof]).

(** The answer to a prepare: the statement, the parameters, the columns. *)
Definition old_prepared (id params columns : Z) (pkts : list (list Z)) : Prop :=
  exists warnings body pdefs cdefs ps cs,
    stmt_layout id columns params warnings (0 :: body) /\
    Z.of_nat (length pdefs) = params /\ Z.of_nat (length cdefs) = columns /\ then_eof pdefs ps /\ then_eof cdefs cs /\
    pkts = (0 :: body) :: ps ++ cs.

(** How many of its packets are EOF packets. *)
Definition eofs (params columns : Z) : nat :=
  ((if (params =? 0)%Z then 0 else 1) + (if (columns =? 0)%Z then 0 else 1))%nat.
