(** Names of columns from names of fields, raw identifiers included: macros/src/lib.rs. *)
From Coq Require Import String ZArith List Bool.
From Verif Require Import Base Types Models.
Import ListNotations.
Open Scope Z_scope.

(** [syn::Ident], the name of a field ([field.ident], macros/src/parse.rs:12-17) or of a part
    (parse.rs:62-66): the name, and whether it is written with [r#] in front. *)
Record ident : Type := mkIdent { i_raw : bool; i_name : str }.

(** [Ident::to_string], its [Display] (macros/src/lib.rs:142, 375, 382, 389) and [stringify!] of it
    (lib.rs:159, 333, 335): with the mark. *)
Definition ident_text (i : ident) : str := (if i_raw i then s2l "r#" else []) ++ i_name i.

(** An identifier as an argument of [format_ident!], which leaves the mark out
    (crate quote, [IdentFragment]): macros/src/lib.rs:100, 246 *)
Definition ident_fragment (i : ident) : str := i_name i.

(** A struct with the derives: as [model] (Models.v), but with the identifiers as written.
    macros/src/parse.rs:12-59 *)
Inductive written : Type :=
| Written (table primary : str) (auto_increment : bool)
    (simples : list ident) (structs : list (ident * list ident)) (refs : list (ident * written)).

(** What [IntoQuery] is derived from: macros/src/lib.rs:372-395.  The names of the parts of a struct
    are made with [format!] (line 382). *)
Fixpoint query_model (w : written) : model :=
  match w with
  | Written table primary auto simples structs refs =>
    Model table primary auto (map ident_text simples)
      (map (fun '(f, parts) => (ident_text f, map ident_text parts)) structs)
      (map (fun r => match r with (f, sub) => (ident_text f, query_model sub) end) refs)
  end.

(** What [FromQueryResult] (macros/src/lib.rs:86-163) and [ActiveModel] (lib.rs:238-263, 333-335) are
    derived from.  The names of the parts of a struct are made with [format_ident!] (lines 100, 246). *)
Fixpoint mapping_model (w : written) : model :=
  match w with
  | Written table primary auto simples structs refs =>
    Model table primary auto (map ident_text simples)
      (map (fun '(f, parts) => (ident_fragment f, map ident_fragment parts)) structs)
      (map (fun r => match r with (f, sub) => (ident_text f, mapping_model sub) end) refs)
  end.
