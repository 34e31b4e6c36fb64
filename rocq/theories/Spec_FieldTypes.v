(** Which types have a column of their own (README and macros/src/parse.rs:198-215, 224-231): integers, floats, bool, text,
    bytes, dates, times, hex ids, and optional ones. *)
From Coq Require Import String ZArith List Bool.
From Verif Require Import Base Types FieldTypes.
Import ListNotations.
Open Scope Z_scope.

(** The full names of the types. *)
Definition scalar_types : list (list str) :=
  map (fun s => [s2l s]) ["i8"; "i16"; "i32"; "i64"; "u8"; "u16"; "u32"; "u64"; "f32"; "f64"; "bool"]%string ++
  [[s2l "std"; s2l "string"; s2l "String"]; [s2l "mysql_connector"; s2l "types"; s2l "Hex"]] ++
  map (fun s => [s2l "chrono"; s2l s]) ["NaiveDate"; "NaiveDateTime"; "Duration"]%string.
Definition vec_type : list str := [s2l "std"; s2l "vec"; s2l "Vec"].
Definition option_type : list str := [s2l "std"; s2l "option"; s2l "Option"].

(** [p] is one of the ways to write the type [full]: its last names. *)
Definition written (full : list str) (p : path) : Prop :=
  exists outer, full = outer ++ idents p /\ idents p <> [].

(** [p] is the type [F<q>] for some [F]. *)
Definition applied_to (p q : path) : Prop :=
  exists front name, p = Path (front ++ [(name, AAngle [GType q])]).

(** The types of columns. *)
Definition plain_column (p : path) : Prop :=
  (exists full, In full scalar_types /\ written full p) \/
  (written vec_type p /\ exists q, applied_to p q /\ written [s2l "u8"] q).
Definition column (p : path) : Prop :=
  plain_column p \/ (written option_type p /\ exists q, applied_to p q /\ plain_column q).

(** No path that only ends like one of the known ones, such as [other::u8]. *)
Definition no_lookalike (p : path) : Prop :=
  idents p <> [] /\
  Forall (fun full => forall outer, outer <> [] -> idents p <> outer ++ full) (vec_type :: option_type :: scalar_types).

(** The path and the full name end alike: one is the end of the other. *)
Definition ends_alike (full : list str) (p : path) : Prop :=
  exists outer, full = outer ++ idents p \/ idents p = outer ++ full.

(** What is taken for a column: as [column], but with names that end alike. *)
Definition plain_column_like (p : path) : Prop :=
  (exists full, In full scalar_types /\ ends_alike full p) \/
  (ends_alike vec_type p /\ exists q, applied_to p q /\ ends_alike [s2l "u8"] q).
Definition column_like (p : path) : Prop :=
  plain_column_like p \/ (ends_alike option_type p /\ exists q, applied_to p q /\ plain_column_like q).
