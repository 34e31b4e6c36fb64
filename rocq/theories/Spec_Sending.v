(** Specification of the size of what is sent. *)
From Coq Require Import ZArith List.
From Verif Require Import Base Types Spec_Conn.
Import ListNotations.
Open Scope Z_scope.

(** Uses whose statement text, if one is sent, is shorter than [limit] bytes, and without zero
    dates (whose length is announced wrongly, C08). *)
Definition moderate (limit : Z) (u : use) : Prop :=
  match u with
  | UQuery q _ | UExecute q | UPrepare q => Z.of_nat (length q) < limit
  | UStmtQuery _ _ values _ | UStmtExecute _ _ values => ~ In (VDate 0 0 0) values
  end.

(** No packet is longer than [limit]. *)
Definition within (limit : Z) (ps : list (list Z)) : Prop := Forall (fun p => Z.of_nat (length p) <= limit) ps.
