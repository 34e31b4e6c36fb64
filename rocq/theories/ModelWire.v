(** Active models inserted and updated on a connection: the statements of Models.v are prepared and
    executed by Conn.v. *)
From Coq Require Import ZArith List Bool.
From Verif Require Import Base Types Utf8 Framing Packets Auth Conn Models TypedModel.
Import ListNotations.
Open Scope Z_scope.
Open Scope io_scope.

(** [prepare_statement] and [execute], then [last_insert_id]: src/model/active_model/mod.rs:28-29,
    src/model/active_model/update_model.rs:26-27 (which ignores the number) *)
Definition run_prepared (text : str) (params : list value) : IO conn Z :=
  st <- prepare_statement (utf8_encode text) ;;
  ok <- stmt_execute st params ;;
  ioret (ok_last_insert_id ok).

(** [insert] with the generated [into_values]: src/model/active_model/mod.rs:22-30,
    macros/src/lib.rs:331-337, src/model/active_model/active_reference.rs:14-30 *)
Fixpoint insert_on (a : active) : IO conn Z :=
  match a with
  | Active table _ simples structs refs =>
    vs <- iores (simple_values simples) ;;
    ws <- iores (struct_values structs) ;;
    us <- (fix go (refs : list (str * reference)) : IO conn (list named_value) :=
             match refs with
             | [] => ioret []
             | (n, RUnset) :: r => go r
             | (n, RSet k) :: r => us <- go r ;; ioret ((n, k) :: us)
             | (n, RInsert sub) :: r =>
               id <- insert_on sub ;;
               us <- go r ;;
               ioret ((n, match active_primary sub with Some k => k | None => VULong id end) :: us)
             end) refs ;;
    run_prepared (into_insert (vs ++ ws ++ us) table) (map snd (vs ++ ws ++ us))
  end.

(** The references of [into_values] alone, for an update: macros/src/lib.rs:335 *)
Fixpoint reference_values_on (refs : list (str * reference)) : IO conn (list named_value) :=
  match refs with
  | [] => ioret []
  | (n, RUnset) :: r => reference_values_on r
  | (n, RSet k) :: r => us <- reference_values_on r ;; ioret ((n, k) :: us)
  | (n, RInsert sub) :: r =>
    id <- insert_on sub ;;
    us <- reference_values_on r ;;
    ioret ((n, match active_primary sub with Some k => k | None => VULong id end) :: us)
  end.

(** [UpdateModel::update]: src/model/active_model/update_model.rs:21-31 *)
Definition update_on (key : value) (primary_name : str) (a : active) : IO conn unit :=
  match a with
  | Active table _ simples structs refs =>
    vs <- iores (simple_values simples) ;;
    ws <- iores (struct_values structs) ;;
    us <- reference_values_on refs ;;
    match vs ++ ws ++ us with
    | [] => ioret tt
    | values => run_prepared (into_update values table primary_name) (map snd values ++ [key]) ;;; ioret tt
    end
  end.

(** [UpdateModel::update] with the typed key: src/model/active_model/update_model.rs:21-31 *)
Definition update_typed_on (m : tmodel) (key : rust_value) (a : tactive) : IO conn unit :=
  update_on (key_value m key) (m_primary (untyped m)) (active_of m a).
