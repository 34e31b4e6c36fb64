(** Generated queries and models: src/model/into_query.rs, from_query_result.rs,
    active_model/*.rs, and what the derive macros of /repo/macros/src/lib.rs expand to. *)
From Coq Require Import String ZArith List Bool Arith.
From Verif Require Import Base Types Framing.
Import ListNotations.
Open Scope Z_scope.
Open Scope io_scope.

(** ** Models *)

(** A struct with the derives (macros/src/parse.rs:12-59).  The macros look at the
    fields only through the filters simple_ref, struct_ref and complex_ref
    (macros/src/parse.rs:262-272), so a model is given by these three groups in field order.
    Structs carry the column suffixes of [ty = Name{..}], references the model they refer to.
    Names are [ident.to_string()]; for raw identifiers see DeriveNames.v. *)
Inductive model : Type :=
| Model (table primary : str) (auto_increment : bool)
    (simples : list str) (structs : list (str * list str)) (refs : list (str * model)).

(** [ModelData::TABLE]: macros/src/lib.rs:58-63 *)
Definition m_table (m : model) : str := match m with Model t _ _ _ _ _ => t end.
(** [Model::PRIMARY]: macros/src/lib.rs:448-455 *)
Definition m_primary (m : model) : str := match m with Model _ p _ _ _ _ => p end.

(** [format_ident!("{}_{}", field.ident, x.1)]: macros/src/lib.rs:97-100, 243-246, 379-382 *)
Definition struct_names (s : str * list str) : list str := map (fun x => fst s ++ [95] ++ x) (snd s).

(** The columns of the model itself, simple fields first: macros/src/lib.rs:372-385 *)
Definition own_names (simples : list str) (structs : list (str * list str)) : list str :=
  simples ++ flat_map struct_names structs.

(** ** Queries *)

(** src/model/into_query.rs:14-23, 41-44 *)
Inductive query_column : Type :=
| QColumn (name : str)
| QReference (column table key : str) (columns : list query_column).

(** [IntoQuery::COLUMNS]: macros/src/lib.rs:399-410 *)
Fixpoint model_columns (m : model) : list query_column :=
  match m with
  | Model _ _ _ simples structs refs =>
    map QColumn (own_names simples structs) ++
    map (fun r => match r with (f, sub) => QReference f (m_table sub) (m_primary sub) (model_columns sub) end) refs
  end.

(** A name between backquotes, as all the statements write it: src/model/into_query.rs:30, 50 *)
Definition tick (n : str) : str := [96] ++ n ++ [96].

(** [append_to_select] and [join]: src/model/into_query.rs:28-38, 47-56.  [s] is the pair of
    buffers select and join. *)
Fixpoint append_to_select (c : query_column) (ns : str) (s : str * str) : str * str :=
  match c with
  | QColumn n => (fst s ++ tick ns ++ [46] ++ tick n, snd s)
  | QReference column table key columns =>
    let new_ns := ns ++ [46] ++ column in
    let s := (fst s, snd s ++ s2l " join " ++ tick table ++ s2l " as " ++ tick new_ns ++ s2l " on (" ++
                tick ns ++ [46] ++ tick column ++ s2l " = " ++ tick new_ns ++ [46] ++ tick key ++ s2l ")") in
    (fix go (i : nat) (cols : list query_column) (s : str * str) : str * str :=
       match cols with
       | [] => s
       | c :: r =>
         let s := if (i =? 0)%nat then s else (fst s ++ s2l ", ", snd s) in
         go (S i) r (append_to_select c new_ns s)
       end) O columns s
  end.

(** The loop of [build_query]: src/model/into_query.rs:65-70 *)
Fixpoint append_columns (i : nat) (cols : list query_column) (ns : str) (s : str * str) : str * str :=
  match cols with
  | [] => s
  | c :: r =>
    let s := if (i =? 0)%nat then s else (fst s ++ s2l ", ", snd s) in
    append_columns (S i) r ns (append_to_select c ns s)
  end.

(** src/model/into_query.rs:62-74 *)
Definition build_query (table : str) (columns : list query_column) : str :=
  let s := append_columns O columns table (s2l "select ", []) in
  fst s ++ s2l " from " ++ tick table ++ snd s.

(** ** Mapping columns to fields *)

(** The generated mapping struct: macros/src/lib.rs:179-184; the index of each own column and
    the mappings of the referenced models. *)
Inductive mapping : Type :=
| Mapping (own : list (str * option nat)) (children : list mapping).

(** [Default]: macros/src/lib.rs:179 *)
Fixpoint default_mapping (m : model) : mapping :=
  match m with
  | Model _ _ _ simples structs refs =>
    Mapping (map (fun n => (n, None)) (own_names simples structs))
      (map (fun r => match r with (_, sub) => default_mapping sub end) refs)
  end.

(** [match column.org_name() { .. } = Some(index)]: macros/src/lib.rs:157-163 *)
Fixpoint set_own (own : list (str * option nat)) (org_name : str) (index : nat) : list (str * option nat) :=
  match own with
  | [] => []
  | (n, o) :: r => if list_eqb org_name n then (n, Some index) :: r else (n, o) :: set_own r org_name index
  end.

(** [str::strip_prefix] with [unwrap_or]: src/model/from_query_result.rs:9-11 *)
Definition strip_prefix_or (table prefix : str) : str :=
  if starts_with table prefix then skipn (length prefix) table else table.

(** [set_mapping] (src/model/from_query_result.rs:6-14) with the generated [set_mapping_inner]
    (macros/src/lib.rs:126-175, 187-189) *)
Fixpoint set_mapping (m : model) (mp : mapping) (org_name table : str) (index : nat) : mapping :=
  match m, mp with
  | Model t _ _ _ _ refs, Mapping own children =>
    let table := strip_prefix_or table (t ++ [46]) in
    let child :=
      (fix go (refs : list (str * model)) (children : list mapping) : option (list mapping) :=
         match refs, children with
         | (name, sub) :: refs', c :: children' =>
           if list_eqb table name then Some (set_mapping sub c org_name [] index :: children')
           else if starts_with table (name ++ [46])
           then Some (set_mapping sub c org_name (skipn (length (name ++ [46])) table) index :: children')
           else match go refs' children' with Some l => Some (c :: l) | None => None end
         | _, _ => None
         end) refs children in
    match child with
    | Some children' => Mapping own children'
    | None => Mapping (set_own own org_name index) children
    end
  end.

(** The loop of [from_columns]: src/model/from_query_result.rs:18-20 *)
Fixpoint set_columns (m : model) (mp : mapping) (i : nat) (cols : list column) : mapping :=
  match cols with
  | [] => mp
  | c :: r => set_columns m (set_mapping m mp (col_org_name c) (col_table c) i) (S i) r
  end.

(** src/model/from_query_result.rs:16-22 *)
Definition from_columns (m : model) (cols : list column) : mapping := set_columns m (default_mapping m) O cols.

(** [row[mapping.field.ok_or(..)?].take()]: macros/src/lib.rs:197-199; the message names the
    struct and the field, only the field is kept here. *)
Definition take_field (field : str * option nat) (row : list value) : res parse_error (value * list value) :=
  match snd field with
  | None => Err (EMissingField (fst field))
  | Some i =>
    match nth_error row i with
    | None => Panic
    | Some v => Ok (v, firstn i row ++ VNull :: skipn (S i) row)
    end
  end.

(** The own fields one after the other: macros/src/lib.rs:197-200 *)
Fixpoint take_fields (own : list (str * option nat)) (row : list value) : res parse_error (list value * list value) :=
  match own with
  | [] => Ok ([], row)
  | f :: r =>
    rbind (take_field f row) (fun '(v, row) =>
    rbind (take_fields r row) (fun '(vs, row) => Ok (v :: vs, row)))
  end.

(** [from_mapping_and_row]: macros/src/lib.rs:195-203.  The result lists the values of the
    fields in order (own columns, then the referenced models); their conversion to the field
    types (src/types/value/conversion.rs) is left out. *)
Fixpoint from_row (mp : mapping) (row : list value) : res parse_error (list value * list value) :=
  match mp with
  | Mapping own children =>
    rbind (take_fields own row) (fun '(vs, row) =>
    rbind ((fix go (cs : list mapping) (row : list value) : res parse_error (list value * list value) :=
              match cs with
              | [] => Ok ([], row)
              | c :: r =>
                rbind (from_row c row) (fun '(vs, row) =>
                rbind (go r row) (fun '(ws, row) => Ok (vs ++ ws, row)))
              end) children row) (fun '(ws, row) => Ok (vs ++ ws, row)))
  end.

(** ** Rows without a model *)

(** [Vec<Value>] as a model: src/model/plain.rs:14-22, 43-45; the mapping is the number of columns. *)
Definition plain_row (columns : list column) (row : list value) : res parse_error (list value) :=
  if (length row =? length columns)%nat then Ok row else Err ERowLengthMismatch.

(** ** Active models *)

(** src/model/active_model/named_value.rs:7 *)
Definition named_value : Type := (str * value)%type.

(** The enumerated loops writing names: src/model/active_model/named_value.rs:25-32 *)
Fixpoint write_names (i : nat) (values : list named_value) (after : str) : str :=
  match values with
  | [] => []
  | v :: r => (if (i =? 0)%nat then [] else s2l ", ") ++ tick (fst v) ++ after ++ write_names (S i) r after
  end.

(** src/model/active_model/named_value.rs:34-39 *)
Fixpoint write_marks (i : nat) (values : list named_value) : str :=
  match values with
  | [] => []
  | _ :: r => (if (i =? 0)%nat then [] else s2l ", ") ++ s2l "?" ++ write_marks (S i) r
  end.

(** src/model/active_model/named_value.rs:18-42 *)
Definition into_insert (values : list named_value) (table : str) : str :=
  s2l "insert into " ++ tick table ++ s2l " (" ++ write_names O values [] ++ s2l ") values (" ++
  write_marks O values ++ s2l ")".

(** src/model/active_model/named_value.rs:44-64 *)
Definition into_update (values : list named_value) (table primary : str) : str :=
  s2l "update " ++ tick table ++ s2l " set " ++ write_names O values (s2l " = ?") ++
  s2l " where " ++ tick primary ++ s2l " = ?".

(** The generated active model (macros/src/lib.rs:324-328): simple fields and struct fields
    unset or set (src/model/active_model/active_value.rs:7-10), references set to a key,
    holding a model to insert, or unset (src/model/active_model/active_reference.rs:7-11).
    [primary] is the primary key's field among the simple ones (macros/src/lib.rs:217-232),
    which is [None] without the attribute.  Set values are given by the result of their
    conversion to [Value]. *)
Inductive active : Type :=
| Active (table : str) (primary : option str)
    (simples : list (str * option (res serialize_error value)))
    (structs : list (option (list (str * res serialize_error value))))
    (refs : list (str * reference))
(** src/model/active_model/active_reference.rs:6-11 *)
with reference : Type :=
| RSet (key : value)
| RInsert (a : active)
| RUnset.

(** One statement executed with its parameters, and the outcome: the last insert id
    (src/model/active_model/mod.rs:22-30). *)
Definition statement : Type := (str * list value * res error Z)%type.
(** The database as seen by src/model/active_model/mod.rs:22-30: any function of the history. *)
Definition database : Type := list statement -> str -> list value -> res error Z.

(** [prepare_statement] and [execute]: src/model/active_model/mod.rs:28-29; a panic is left out
    of the outcomes. *)
Definition run_statement (db : database) (text : str) (params : list value) : IO (list statement) Z :=
  fun h => let r := db h text params in (r, h ++ [(text, params, r)]).

(** [SerializeError] into [Error]: src/error/protocol.rs:99-103 *)
Definition serialize_failed (e : serialize_error) : error := EProtocol (PSerialize e).

(** [ActiveValue::insert_named_value] for each simple field: macros/src/lib.rs:333,
    src/model/active_model/active_value.rs:17-27 *)
Fixpoint simple_values (fields : list (str * option (res serialize_error value))) : res error (list named_value) :=
  match fields with
  | [] => Ok []
  | (_, None) :: r => simple_values r
  | (n, Some v) :: r =>
    rbind (rmap_err serialize_failed v) (fun v => rmap (cons (n, v)) (simple_values r))
  end.

(** The struct fields: macros/src/lib.rs:247-255 *)
Fixpoint struct_values (fields : list (option (list (str * res serialize_error value)))) : res error (list named_value) :=
  match fields with
  | [] => Ok []
  | None :: r => struct_values r
  | Some l :: r =>
    rbind (simple_values (map (fun '(n, v) => (n, Some v)) l)) (fun vs => rmap (app vs) (struct_values r))
  end.

(** The generated [primary]: macros/src/lib.rs:282-290, 339-341 *)
Definition active_primary (a : active) : option value :=
  match a with
  | Active _ None _ _ _ => None
  | Active _ (Some p) simples _ _ =>
    match find (fun f => list_eqb (fst f) p) simples with
    | Some (_, Some (Ok v)) => Some v
    | _ => None
    end
  end.

(** [insert] with the generated [into_values]: src/model/active_model/mod.rs:22-30,
    macros/src/lib.rs:331-337, src/model/active_model/active_reference.rs:14-30 *)
Fixpoint insert (db : database) (a : active) : IO (list statement) Z :=
  match a with
  | Active table _ simples structs refs =>
    vs <- (fun h => (simple_values simples, h)) ;;
    ws <- (fun h => (struct_values structs, h)) ;;
    us <- (fix go (refs : list (str * reference)) : IO (list statement) (list named_value) :=
             match refs with
             | [] => fun h => (Ok [], h)
             | (n, RUnset) :: r => go r
             | (n, RSet k) :: r => us <- go r ;; (fun h => (Ok ((n, k) :: us), h))
             | (n, RInsert sub) :: r =>
               id <- insert db sub ;;
               us <- go r ;;
               (fun h => (Ok ((n, match active_primary sub with Some k => k | None => VULong id end) :: us), h))
             end) refs ;;
    run_statement db (into_insert (vs ++ ws ++ us) table) (map snd (vs ++ ws ++ us))
  end.

(** The references of [into_values] alone, for an update: macros/src/lib.rs:335 *)
Fixpoint reference_values (db : database) (refs : list (str * reference)) : IO (list statement) (list named_value) :=
  match refs with
  | [] => fun h => (Ok [], h)
  | (n, RUnset) :: r => reference_values db r
  | (n, RSet k) :: r => us <- reference_values db r ;; (fun h => (Ok ((n, k) :: us), h))
  | (n, RInsert sub) :: r =>
    id <- insert db sub ;;
    us <- reference_values db r ;;
    (fun h => (Ok ((n, match active_primary sub with Some k => k | None => VULong id end) :: us), h))
  end.

(** [UpdateModel::update]: src/model/active_model/update_model.rs:21-31 *)
Definition update_model (db : database) (key : value) (primary_name : str) (a : active) : IO (list statement) unit :=
  match a with
  | Active table _ simples structs refs =>
    vs <- (fun h => (simple_values simples, h)) ;;
    ws <- (fun h => (struct_values structs, h)) ;;
    us <- reference_values db refs ;;
    match vs ++ ws ++ us with
    | [] => fun h => (Ok tt, h)
    | values =>
      run_statement db (into_update values table primary_name) (map snd values ++ [key]) ;;;
      (fun h => (Ok tt, h))
    end
  end.

(** The values of a model's fields, grouped as in [model]: macros/src/lib.rs:347.  Each is given
    by its conversion to [Value]. *)
Inductive instance : Type :=
| Instance (simples : list (res serialize_error value)) (structs : list (list (res serialize_error value)))
    (children : list instance).

(** The generated [into_active_model]: macros/src/lib.rs:264-281, 347-354 *)
Fixpoint into_active_model (m : model) (x : instance) : active :=
  match m, x with
  | Model table primary auto_increment simples structs refs, Instance vs ss children =>
    Active table (Some primary)
      (map (fun '(n, v) => (n, if auto_increment && list_eqb n primary then None else Some v)) (combine simples vs))
      (map (fun '(s, l) => Some (combine (struct_names s) l)) (combine structs ss))
      ((fix go (refs : list (str * model)) (children : list instance) : list (str * reference) :=
          match refs, children with
          | (f, sub) :: refs', c :: children' => (f, RInsert (into_active_model sub c)) :: go refs' children'
          | _, _ => []
          end) refs children)
  end.
