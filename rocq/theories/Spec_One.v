(** Specification for reading one row of a result set, or only its end. *)
From Coq Require Import ZArith List.
From Verif Require Import Base Types Spec_Wire Spec_Packets Spec_Conn.
Import ListNotations.
Open Scope Z_scope.

(** The rest of a result set: rows and the packet that ends them, numbered from [q]. *)
Definition rest_of_set (q : Z) (rows : list (list Z)) (status warnings : Z) (w : list Z) : Prop :=
  Forall row_packet rows /\ exists last q', end_of_rows status warnings last /\ framed q (rows ++ [last]) w q'.

Definition readable {A} (decode : list column -> list Z -> res error A) (cols : list column) (p : list Z) : Prop :=
  exists a, decode cols p = Ok a.

(** What becomes of reading all these rows in order: nothing to report, or the first failure. *)
Inductive reading {A} (decode : list column -> list Z -> res error A) (cols : list column)
  : list (list Z) -> res error unit -> Prop :=
| reading_all : forall rows, Forall (readable decode cols) rows -> reading decode cols rows (Ok tt)
| reading_error : forall good bad rows e, Forall (readable decode cols) good -> decode cols bad = Err e ->
    reading decode cols (good ++ bad :: rows) (Err e)
| reading_panic : forall good bad rows, Forall (readable decode cols) good -> decode cols bad = Panic ->
    reading decode cols (good ++ bad :: rows) Panic.

(** What [one] is to answer: the first row, if all others can be read; else their first failure. *)
Inductive one_of {A} (decode : list column -> list Z -> res error A) (cols : list column)
  : list (list Z) -> res error (option A) -> Prop :=
| one_none : one_of decode cols [] (Ok None)
| one_broken : forall p rows, decode cols p = Panic -> one_of decode cols (p :: rows) Panic
| one_row : forall p rows a, decode cols p = Ok a -> reading decode cols rows (Ok tt) ->
    one_of decode cols (p :: rows) (Ok (Some a))
| one_error : forall p rows e, decode cols p = Err e -> reading decode cols rows (Ok tt) ->
    one_of decode cols (p :: rows) (Err e)
| one_later_error : forall p rows e, decode cols p <> Panic -> reading decode cols rows (Err e) ->
    one_of decode cols (p :: rows) (Err e)
| one_later_panic : forall p rows, decode cols p <> Panic -> reading decode cols rows Panic ->
    one_of decode cols (p :: rows) Panic.

(** The numbers the client takes from the end of a set: one byte late (C30). *)
Definition shifted_report (status warnings status' warnings' : Z) : Prop :=
  status' = 256 * (status mod 256) /\ warnings' = status / 256 + 256 * (warnings mod 256).
