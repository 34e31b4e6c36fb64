(** Models with the Rust types of their fields: what the derived code does with the conversions of
    src/types/value/conversion.rs (macros/src/lib.rs), and result sets of models. *)
From Coq Require Import ZArith List Bool.
From Verif Require Import Base Types Framing Conversion Models Rows Packets Auth Conn.
Import ListNotations.
Open Scope Z_scope.

(** The types a simple field or a part of a struct field can have: macros/src/parse.rs:195-227.
    [Hex] converts like [Vec<u8>] (src/types/hex.rs:89-106).  An option is not an option of an option
    (macros/src/parse.rs:225); the definitions allow it. *)
Inductive rust_type : Type :=
| TyPrim (p : prim)
| TyBool
| TyString
| TyBytes
| TyDate
| TyDatetime
| TyDuration
| TyOption (t : rust_type).

(** Values of these types (macros/src/parse.rs:195-227) *)
Inductive rust_value : Type :=
| RNum (x : Z)
| RBool (b : bool)
| RString (s : str)
| RBytes (b : bytes)
| RDate (d : naive_date)
| RDatetime (d : naive_date) (t : naive_time)
| RDuration (d : duration)
| RNone
| RSome (v : rust_value).

(** [.take().try_into()?] by the type of the field: macros/src/lib.rs:105-107, 198-200 *)
Fixpoint field_try_into (t : rust_type) (v : value) : res parse_error rust_value :=
  match t with
  | TyPrim p => rmap RNum (prim_try_into p v)
  | TyBool => rmap RBool (bool_try_into v)
  | TyString => rmap RString (string_try_into v)
  | TyBytes => rmap RBytes (vec_try_into v)
  | TyDate => rmap RDate (date_try_into v)
  | TyDatetime => rmap (fun '(d, t) => RDatetime d t) (datetime_try_into v)
  | TyDuration => rmap RDuration (duration_try_into v)
  | TyOption t => rmap (fun o => match o with Some x => RSome x | None => RNone end) (option_try_into (field_try_into t) v)
  end.

(** [value.try_into()] by the type of the field: src/model/active_model/active_value.rs:23,
    macros/src/lib.rs:252.  A value of another type does not exist in Rust. *)
Fixpoint field_into (t : rust_type) (x : rust_value) : res serialize_error value :=
  match t, x with
  | TyPrim p, RNum n => Ok (prim_from p n)
  | TyBool, RBool b => Ok (bool_from b)
  | TyString, RString s => Ok (string_from s)
  | TyBytes, RBytes b => Ok (vec_from b)
  | TyDate, RDate d => date_try_from d
  | TyDatetime, RDatetime d t => datetime_try_from d t
  | TyDuration, RDuration d => Ok (duration_from d)
  | TyOption t, RSome y => option_try_from (field_into t) (Some y)
  | TyOption t, RNone => option_try_from (field_into t) None
  | _, _ => Panic
  end.

(** A model (macros/src/parse.rs:12-59) with the types of its fields; see [Models.model]. *)
Inductive tmodel : Type :=
| TModel (table primary : str) (auto_increment : bool)
    (simples : list (str * rust_type)) (structs : list (str * list (str * rust_type))) (refs : list (str * tmodel)).

(** The model without the types; the derives look at the types only to tell the three groups of
    fields apart (macros/src/parse.rs:262-272). *)
Fixpoint untyped (m : tmodel) : model :=
  match m with
  | TModel t p a simples structs refs =>
    Model t p a (map fst simples) (map (fun s => (fst s, map fst (snd s))) structs)
      (map (fun r => match r with (f, sub) => (f, untyped sub) end) refs)
  end.

(** A struct with the derives: the values of its fields, grouped as in the model
    (macros/src/lib.rs:196-202). *)
Inductive tinstance : Type :=
| TInstance (simples : list rust_value) (structs : list (list rust_value)) (children : list tinstance).

(** Fields taken and converted one after the other: macros/src/lib.rs:105-107, 198-200.  [own] are the
    entries of the mapping from the first field on; the rest of them is returned. *)
Fixpoint take_typed (types : list rust_type) (own : list (str * option nat)) (row : list value)
  : res parse_error (list rust_value * list (str * option nat) * list value) :=
  match types, own with
  | t :: types', f :: own' =>
    rbind (take_field f row) (fun '(v, row) =>
    rbind (field_try_into t v) (fun x =>
    rbind (take_typed types' own' row) (fun '(xs, rest, row) => Ok (x :: xs, rest, row))))
  | _, _ => Ok ([], own, row)
  end.

(** The struct fields: macros/src/lib.rs:92-111, 201 *)
Fixpoint take_structs (structs : list (str * list (str * rust_type))) (own : list (str * option nat)) (row : list value)
  : res parse_error (list (list rust_value) * list value) :=
  match structs with
  | [] => Ok ([], row)
  | s :: r =>
    rbind (take_typed (map snd (snd s)) own row) (fun '(xs, own, row) =>
    rbind (take_structs r own row) (fun '(l, row) => Ok (xs :: l, row)))
  end.

(** [from_mapping_and_row]: macros/src/lib.rs:195-204 *)
Fixpoint from_mapping_and_row (m : tmodel) (mp : mapping) (row : list value) : res parse_error (tinstance * list value) :=
  match m, mp with
  | TModel _ _ _ simples structs refs, Mapping own children =>
    rbind (take_typed (map snd simples) own row) (fun '(xs, own, row) =>
    rbind (take_structs structs own row) (fun '(ss, row) =>
    rbind ((fix go (refs : list (str * tmodel)) (cs : list mapping) (row : list value)
              : res parse_error (list tinstance * list value) :=
              match refs, cs with
              | (_, sub) :: refs', c :: cs' =>
                rbind (from_mapping_and_row sub c row) (fun '(x, row) =>
                rbind (go refs' cs' row) (fun '(l, row) => Ok (x :: l, row)))
              | _, _ => Ok ([], row)
              end) refs children row) (fun '(l, row) => Ok (TInstance xs ss l, row))))
  end.

(** [ParseError] into [Error]: src/error/protocol.rs:87-91 *)
Definition of_parse {A} (r : res parse_error A) : res error A := rmap_err (fun e => EProtocol (PParse e)) r.

(** A row of a [ResultSet<P, R>]: src/connection/result_set.rs:56, 86-87; [values] is
    [P::read_result_set_row]. *)
Definition model_rows (values : list column -> bytes -> res error (list value)) (m : tmodel)
  (cols : list column) (packet : bytes) : res error tinstance :=
  rbind (values cols packet) (fun row =>
  of_parse (rmap fst (from_mapping_and_row m (from_columns (untyped m) cols) row))).

(** The fields of an instance converted to [Value], as [into_active_model] hands them on
    (macros/src/lib.rs:264-281); see [Models.instance]. *)
Fixpoint instance_of (m : tmodel) (x : tinstance) : instance :=
  match m, x with
  | TModel _ _ _ simples structs refs, TInstance vs ss children =>
    Instance (map (fun '(f, v) => field_into (snd f) v) (combine simples vs))
      (map (fun '(s, l) => map (fun '(f, v) => field_into (snd f) v) (combine (snd s) l)) (combine structs ss))
      ((fix go (refs : list (str * tmodel)) (children : list tinstance) : list instance :=
          match refs, children with
          | (_, sub) :: refs', c :: children' => instance_of sub c :: go refs' children'
          | _, _ => []
          end) refs children)
  end.

(** A generated active model with the types of its fields: macros/src/lib.rs:324-328; see
    [Models.active].  The references are as in src/model/active_model/active_reference.rs:6-11. *)
Inductive tactive : Type :=
| TActive (simples : list (option rust_value)) (structs : list (option (list rust_value))) (refs : list tref)
(** src/model/active_model/active_reference.rs:6-11 *)
with tref : Type :=
| TSet (key : rust_value)
| TInsert (a : tactive)
| TUnset.

(** [id.into()] for a key: src/model/active_model/active_reference.rs:22, update_model.rs:25; the
    type of a key has [Into<Value>] (src/model/mod.rs:28), so the conversion does not fail. *)
Definition key_value (m : tmodel) (k : rust_value) : value :=
  match m with
  | TModel _ p _ simples _ _ =>
    match find (fun f => list_eqb (fst f) p) simples with
    | Some f => match field_into (snd f) k with Ok v => v | _ => VNull end
    | None => VNull
    end
  end.

(** The active model with its values converted to [Value] (macros/src/lib.rs:243-255, 331-337). *)
Fixpoint active_of (m : tmodel) (x : tactive) : active :=
  match m, x with
  | TModel t p _ simples structs refs, TActive xs ss rs =>
    Active t (Some p)
      (map (fun '(f, o) => (fst f, option_map (field_into (snd f)) o)) (combine simples xs))
      (map (fun '(s, o) => option_map (fun l => map (fun '(f, v) => (fst s ++ [95] ++ fst f, field_into (snd f) v)) (combine (snd s) l)) o)
        (combine structs ss))
      ((fix go (refs : list (str * tmodel)) (rs : list tref) : list (str * reference) :=
          match refs, rs with
          | (f, sub) :: refs', r :: rs' =>
            (f, match r with TSet k => RSet (key_value sub k) | TInsert a => RInsert (active_of sub a) | TUnset => RUnset end) :: go refs' rs'
          | _, _ => []
          end) refs rs)
  end.

(** [UpdateModel::update]: src/model/active_model/update_model.rs:21-31 *)
Definition update_typed (db : database) (m : tmodel) (key : rust_value) (a : tactive) : IO (list statement) unit :=
  update_model db (key_value m key) (m_primary (untyped m)) (active_of m a).

(** The generated [primary]: macros/src/lib.rs:460-462 *)
Definition primary_of (m : tmodel) (x : tinstance) : rust_value :=
  match m, x with
  | TModel _ p _ simples _ _, TInstance xs _ _ =>
    match find (fun z => list_eqb (fst (fst z)) p) (combine simples xs) with
    | Some z => snd z
    | None => RNone
    end
  end.
