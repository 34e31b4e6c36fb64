(** Specification of reading rows as models: which values a field of a Rust type takes, and which it
    refuses with which error.  Uses the types of the model, none of its functions. *)
From Coq Require Import ZArith List.
From Verif Require Import Base Types Conversion Models TypedModel Spec_Conv Spec_Model Spec_Mapping.
Import ListNotations.
Open Scope Z_scope.

(** A value read as a Rust value. *)
Inductive reads : rust_type -> value -> rust_value -> Prop :=
| rd_prim : forall p ctor ty x, prim_spec p ctor ty -> reads (TyPrim p) (ctor x) (RNum x)
| rd_bool : forall v n, int_of v = Some n -> reads TyBool v (RBool (0 <? n))
| rd_string : forall s b, utf8_text s b -> reads TyString (VBytes b) (RString s)
| rd_bytes : forall b, reads TyBytes (VBytes b) (RBytes b)
| rd_date : forall y m d, calendar_date y m d -> reads TyDate (VDate y m d) (RDate (mkDate y m d))
| rd_date_part : forall y m d h mi s u, calendar_date y m d ->
    reads TyDate (VDatetime y m d h mi s u) (RDate (mkDate y m d))
| rd_datetime : forall y m d h mi s u, calendar_date y m d -> clock_time h mi s u \/ leap_second h mi s u ->
    reads TyDatetime (VDatetime y m d h mi s u) (RDatetime (mkDate y m d) (mkTime h mi s (u * 1000)))
| rd_duration : forall neg d h m s u x, u < 1000000 -> duration_valid x ->
    total_nanos x = time_micros neg d h m s u * 1000 ->
    reads TyDuration (VTime neg d h m s u) (RDuration x)
| rd_none : forall t, reads (TyOption t) VNull RNone
| rd_some : forall t v x, v <> VNull -> reads t v x -> reads (TyOption t) v (RSome x).

(** A value refused: of another kind, not UTF-8, no such date or time. *)
Inductive refuses : rust_type -> value -> parse_error -> Prop :=
| rf_prim : forall p ctor ty v, prim_spec p ctor ty -> (forall x, v <> ctor x) ->
    refuses (TyPrim p) v (EWrongValue ty v)
| rf_bool : forall v, int_of v = None -> refuses TyBool v (EWrongValue TNumber v)
| rf_string : forall v, (forall b, v <> VBytes b) -> refuses TyString v (EWrongValue TBytes v)
| rf_utf8 : forall b, (forall s, ~ utf8_text s b) -> refuses TyString (VBytes b) EFromUtf8
| rf_bytes : forall v, (forall b, v <> VBytes b) -> refuses TyBytes v (EWrongValue TBytes v)
| rf_date : forall v, (forall y m d, v <> VDate y m d) -> (forall y m d h mi s u, v <> VDatetime y m d h mi s u) ->
    refuses TyDate v (EWrongValue TDate v)
| rf_date_bounds : forall v y m d, v = VDate y m d \/ (exists h mi s u, v = VDatetime y m d h mi s u) ->
    ~ calendar_date y m d -> refuses TyDate v (EValueOutOfBounds v)
| rf_datetime : forall v, (forall y m d h mi s u, v <> VDatetime y m d h mi s u) ->
    refuses TyDatetime v (EWrongValue TDatetime v)
| rf_datetime_bounds : forall y m d h mi s u,
    ~ (calendar_date y m d /\ (clock_time h mi s u \/ leap_second h mi s u)) ->
    refuses TyDatetime (VDatetime y m d h mi s u) (EValueOutOfBounds (VDatetime y m d h mi s u))
| rf_duration : forall v, (forall neg d h m s u, v <> VTime neg d h m s u) -> refuses TyDuration v (EWrongValue TTime v)
| rf_duration_bounds : forall neg d h m s u, 1000000 <= u ->
    refuses TyDuration (VTime neg d h m s u) (EValueOutOfBounds (VTime neg d h m s u))
| rf_option : forall t v e, v <> VNull -> refuses t v e -> refuses (TyOption t) v e.

(** The same for lists. *)
Inductive reads_all : list rust_type -> list value -> list rust_value -> Prop :=
| ra_nil : reads_all [] [] []
| ra_cons : forall t v x ts vs xs, reads t v x -> reads_all ts vs xs -> reads_all (t :: ts) (v :: vs) (x :: xs).

(** The first value that is refused. *)
Definition first_refused (ts : list rust_type) (vs : list value) (e : parse_error) : Prop :=
  exists ts1 t ts2 vs1 v vs2 xs, ts = ts1 ++ t :: ts2 /\ vs = vs1 ++ v :: vs2 /\
    reads_all ts1 vs1 xs /\ refuses t v e.

(** The types of the columns of a model, in the order in which they are selected. *)
Fixpoint types_of (m : tmodel) : list rust_type :=
  match m with
  | TModel _ _ _ simples structs refs =>
    map snd simples ++ flat_map (fun s => map snd (snd s)) structs ++
    flat_map (fun r => match r with (_, sub) => types_of sub end) refs
  end.

(** The fields of an instance in the same order. *)
Fixpoint fields_of (x : tinstance) : list rust_value :=
  match x with TInstance xs ss children => xs ++ concat ss ++ flat_map fields_of children end.

(** As many fields as the model has. *)
Inductive shaped : tmodel -> tinstance -> Prop :=
| shaped_intro : forall t p a simples structs refs xs ss children,
    length simples = length xs -> Forall2 (fun s l => length (snd s) = length l) structs ss ->
    Forall2 (fun r c => shaped (snd r) c) refs children ->
    shaped (TModel t p a simples structs refs) (TInstance xs ss children).

(** The instance a row of values stands for. *)
Definition row_of (m : tmodel) (vs : list value) (x : tinstance) : Prop :=
  shaped m x /\ reads_all (types_of m) vs (fields_of x).

(** ** Rows of a query *)

(** The values of the fields among those of a row of the query [sel]: each field has the last column
    of its name. *)
Definition values_of (m : tmodel) (sel : list (str * str)) (row vs : list value) : Prop :=
  Forall2 (fun x v => exists i, is_last_at sel x i /\ nth_error row i = Some v)
    (selected (m_table (untyped m)) (untyped m)) vs.

Definition model_row (m : tmodel) (sel : list (str * str)) (row : list value) (x : tinstance) : Prop :=
  exists vs, values_of m sel row vs /\ row_of m vs x.
Definition row_refused (m : tmodel) (sel : list (str * str)) (row : list value) (e : parse_error) : Prop :=
  exists vs, values_of m sel row vs /\ first_refused (types_of m) vs e.
Definition rows_refused (m : tmodel) (sel : list (str * str)) (rows : list (list value)) (e : parse_error) : Prop :=
  exists before row after xs, rows = before ++ row :: after /\ Forall2 (model_row m sel) before xs /\ row_refused m sel row e.

(** A query with all columns of the model, and others that have nothing to do with it. *)
Definition asks_for (m : tmodel) (sel : list (str * str)) (cols : list column) : Prop :=
  everywhere names_distinct (untyped m) /\ everywhere table_apart (untyped m) /\
  Forall (fun x => In x (selected (m_table (untyped m)) (untyped m)) \/ unrelated (untyped m) x) sel /\
  incl (selected (m_table (untyped m)) (untyped m)) sel /\ describes sel cols.
