(** Specification of C105: which error a row that cannot be read gives. *)
From Coq Require Import ZArith List Bool.
From Verif Require Import Base Types Spec_Packets Spec_Text Spec_RowForms.
Import ListNotations.
Open Scope Z_scope.

(** The packet ends too early. *)
Definition ends_early : protocol_error := PIo IoUnexpectedEof.

(** What is said about a text that has not the form of its column.  A text without a colon counts as
    a time that ends too early. *)
Inductive text_refused : column_type -> list Z -> protocol_error -> Prop :=
| tr_integer : forall t k i u l, int_column t k i u -> text_refused t l (PIo IoInvalidData)
| tr_float : forall t l, t = CFloat \/ t = CDouble -> text_refused t l (PIo IoInvalidData)
| tr_date : forall l, text_refused CDate l (PParse (EInvalidValue TDate l))
| tr_time_none : forall l, ~ In 58 l -> text_refused CTime l ends_early
| tr_time : forall (neg : bool) l, In 58 l -> (neg = false -> forall r, l <> 45 :: r) ->
    text_refused CTime ((if neg then [45] else []) ++ l) (PParse (EInvalidValue TTime l))
| tr_dt_short : forall t l, t = CDatetime \/ t = CTimestamp -> (length l < 19)%nat ->
    text_refused t l (PParse (EInvalidValue TDate l))
| tr_dt_date : forall t a b, t = CDatetime \/ t = CTimestamp -> length a = 10%nat -> (9 <= length b)%nat ->
    (forall y m d, ~ spec_date y m d a) -> text_refused t (a ++ b) (PParse (EInvalidValue TDate a))
| tr_dt_none : forall t y m d a x b, t = CDatetime \/ t = CTimestamp -> (8 <= length b)%nat ->
    spec_date y m d a -> ~ In 58 b -> text_refused t (a ++ x :: b) ends_early
| tr_dt_time : forall t y m d a x b, t = CDatetime \/ t = CTimestamp -> (8 <= length b)%nat ->
    spec_date y m d a -> In 58 b -> text_refused t (a ++ x :: b) (PParse (EInvalidValue TTime b)).

(** A cell at the start of [b]: NULL, or a length and a text. *)
Definition cell_text (b l : list Z) : Prop :=
  exists pre rest, b = pre ++ l ++ rest /\ loose_int (Z.of_nat (length l)) pre /\ pre <> [251].

(** What is at the start of [b] is no value of the column, for the given reason. *)
Definition cell_refused (f32 f64 : list Z -> option Z) (checks : bool) (t : column_type) (unsigned : bool) (b : list Z)
  (e : protocol_error) : Prop :=
  ((forall r, b <> 251 :: r) /\ (forall l, ~ cell_text b l) /\ e = ends_early) \/
  exists l, cell_text b l /\ (forall v, ~ text_form f32 f64 (negb checks) t unsigned v l) /\ ~ text_breaks checks t l /\ text_refused t l e.
