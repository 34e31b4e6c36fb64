(** Specification of reading typed models from any columns: each field has the value of the last column
    that goes to it; the first field without a column or with a value it refuses gives the error. *)
From Coq Require Import ZArith List.
From Verif Require Import Base Types Models TypedModel Spec_Model Spec_Typed Spec_Route.
Import ListNotations.
Open Scope Z_scope.

(** Field [x] has value [v] in the row. *)
Definition has_value (m : model) (cols : list column) (row : list value) (x : list str * str) (v : value) : Prop :=
  exists i, takes m cols x i /\ nth_error row i = Some v.

(** The row is the given instance. *)
Definition any_row (m : tmodel) (cols : list column) (row : list value) (x : tinstance) : Prop :=
  exists vs, Forall2 (has_value (untyped m) cols row) (Spec_Route.fields_of (untyped m)) vs /\ row_of m vs x.

(** The first field that cannot be read. *)
Definition any_refused (m : tmodel) (cols : list column) (row : list value) (e : parse_error) : Prop :=
  exists before x after ts t ts' vs xs,
    Spec_Route.fields_of (untyped m) = before ++ x :: after /\ types_of m = ts ++ t :: ts' /\
    Forall2 (has_value (untyped m) cols row) before vs /\ reads_all ts vs xs /\
    ((forall c, In c cols -> ~ column_of (untyped m) x c) /\ e = EMissingField (snd x) \/
     exists v, has_value (untyped m) cols row x v /\ refuses t v e).

(** The first such row. *)
Definition any_rows_refused (m : tmodel) (cols : list column) (rows : list (list value)) (e : parse_error) : Prop :=
  exists before row after xs, rows = before ++ row :: after /\ Forall2 (any_row m cols) before xs /\ any_refused m cols row e.
