(** The attribute of the derive macros: macros/src/parse.rs:67-142 and its use in macros/src/lib.rs.

    Attributes are given as [syn] parses them; what the macros never look at is left out. *)
From Coq Require Import String ZArith List Bool.
From Verif Require Import Base Types FieldTypes.
Import ListNotations.
Open Scope Z_scope.

(** The expression after the colon of a field: macros/src/parse.rs:103-120.  A path with its
    identifiers, or anything else. *)
Inductive field_expr : Type := FPath (idents : list str) | FOther.

(** A field of a struct expression: macros/src/parse.rs:96-122.  [None] as member: a tuple index
    such as [0]; [None] as expression: the short form without colon. *)
Definition struct_field : Type := (option str * option field_expr)%type.

(** The value of an entry: macros/src/parse.rs:87-94 *)
Inductive entry_value : Type :=
| VStr (s : str)
| VStruct (p : path) (fields : list struct_field)
| VElse.

(** An entry [name = value]; [None] as name: a path that is no identifier.  macros/src/parse.rs:79-86 *)
Definition entry : Type := (option str * entry_value)%type.

(** An attribute: macros/src/parse.rs:74-77.  [at_entries] is [None] if the arguments are not a
    list of entries. *)
Record attribute : Type := mkAttribute { at_ours : bool; at_entries : option (list entry) }.

(** What is added to the error: macros/src/parse.rs:83, 107-110, 115, 128, 131, 135, 140 and
    macros/src/lib.rs:49, 222-225, 428-440 *)
Inductive derive_error : Type :=
| ExpectedIdent | ExpectedSingleIdent | ExpectedIdentifier | ExpectedStruct | ExpectedString | NotEntries | NoAttribute
| NeedTable | NeedAutoIncrement | NeedPrimary | PrimaryNotFound.

(** [HashMap<String, String>] (macros/src/parse.rs:72), the latest insertion first *)
Definition attr_map : Type := list (str * str).

(** [HashMap::get]: macros/src/lib.rs:48, 58, 218, 219, 425, 435 *)
Fixpoint attr_get (m : attr_map) (k : str) : option str :=
  match m with
  | [] => None
  | (k', v) :: r => if list_eqb k' k then Some v else attr_get r k
  end.

(** The loop over the fields of a type: macros/src/parse.rs:95-122.  [None]: the [unreachable!]
    of line 100. *)
Fixpoint struct_fields (l : list struct_field) : option (list derive_error * list (str * str)) :=
  match l with
  | [] => Some ([], [])
  | (None, _) :: _ => None
  | (Some member, e) :: r =>
    match struct_fields r with
    | None => None
    | Some (errs, fs) =>
      match e with
      | None => Some (errs, (member, member) :: fs)
      | Some (FPath [x]) => Some (errs, (member, x) :: fs)
      | Some (FPath _) => Some (ExpectedSingleIdent :: errs, fs)
      | Some FOther => Some (ExpectedIdentifier :: errs, fs)
      end
    end
  end.

(** The loop over the entries: macros/src/parse.rs:79-133 *)
Fixpoint attr_entries (l : list entry) (m : attr_map) : option (list derive_error * attr_map * list simple_struct) :=
  match l with
  | [] => Some ([], m, [])
  | (None, _) :: r =>
    match attr_entries r m with
    | Some (errs, m', ts) => Some (ExpectedIdent :: errs, m', ts)
    | None => None
    end
  | (Some k, VStr s) :: r => attr_entries r ((k, s) :: m)
  | (Some k, v) :: r =>
    if list_eqb k (s2l "ty") then
      match v with
      | VStruct p fs =>
        match struct_fields fs with
        | None => None
        | Some (errs1, fields) =>
          match attr_entries r m with
          | Some (errs, m', ts) => Some (errs1 ++ errs, m', (p, fields) :: ts)
          | None => None
          end
        end
      | _ =>
        match attr_entries r m with
        | Some (errs, m', ts) => Some (ExpectedStruct :: errs, m', ts)
        | None => None
        end
      end
    else
      match attr_entries r m with
      | Some (errs, m', ts) => Some (ExpectedString :: errs, m', ts)
      | None => None
      end
  end.

(** macros/src/parse.rs:67-142: errors, whether there is an attribute, its entries and types;
    [None]: a panic. *)
Fixpoint parse_attr (attrs : list attribute) : option (list derive_error * bool * attr_map * list simple_struct) :=
  match attrs with
  | [] => Some ([NoAttribute], false, [], [])
  | a :: r =>
    if at_ours a then
      match at_entries a with
      | Some l =>
        match attr_entries l [] with
        | Some (errs, m, ts) => Some (errs, true, m, ts)
        | None => None
        end
      | None => Some ([NotEntries], true, [], [])
      end
    else parse_attr r
  end.

(** How a derive ends: code is generated from [a], the errors are reported, or a panic
    (macros/src/lib.rs:53-55, 234-236, 444-446). *)
Inductive derived (A : Type) : Type := Generated (a : A) | Reported (errs : list derive_error) | Panicked.
Arguments Generated {A}. Arguments Reported {A}. Arguments Panicked {A}.

(** [derive_model_data]: macros/src/lib.rs:42-68; the table *)
Definition derive_model_data (attrs : list attribute) : derived str :=
  match parse_attr attrs with
  | None => Panicked
  | Some (errs, found, m, _) =>
    match errs ++ (if found then match attr_get m (s2l "table") with Some _ => [] | None => [NeedTable] end else []) with
    | [] => match attr_get m (s2l "table") with Some t => Generated t | None => Panicked end
    | all => Reported all
    end
  end.

(** The primary key of [derive_active_model]: macros/src/lib.rs:214-236; name and whether it is
    generated by the server.  [is_ident]: what [format_ident!] takes for an identifier, it panics
    on anything else; [ferrs]: the errors of [parse_fields] (C84). *)
Definition derive_active_primary (is_ident : str -> bool) (attrs : list attribute) (ferrs : list derive_error)
  : derived (option (str * bool)) :=
  match parse_attr attrs with
  | None => Panicked
  | Some (errs, found, m, _) =>
    match (if found then attr_get m (s2l "primary") else None) with
    | Some p =>
      match attr_get m (s2l "auto_increment") with
      | Some ai =>
        if is_ident p then
          match errs ++ ferrs with
          | [] => Generated (Some (p, list_eqb ai (s2l "true")))
          | all => Reported all
          end
        else Panicked
      | None => Reported (errs ++ ferrs ++ [NeedAutoIncrement])
      end
    | None =>
      match errs ++ ferrs with
      | [] => Generated None
      | all => Reported all
      end
    end
  end.

(** [derive_model]: macros/src/lib.rs:415-466; the primary key and whether it is generated by the
    server.  [is_ident]: what [Ident::new] takes, it panics on anything else; [ferrs]: the errors
    of [parse_fields] (C84); [fields]: the names of the fields it returns. *)
Definition derive_model (is_ident : str -> bool) (attrs : list attribute) (ferrs : list derive_error) (fields : list str)
  : derived (str * bool) :=
  match parse_attr attrs with
  | None => Panicked
  | Some (errs, found, m, _) =>
    let e1 := if found then
        match attr_get m (s2l "primary") with
        | Some p => if existsb (fun f => list_eqb f p) fields then [] else [PrimaryNotFound]
        | None => [NeedPrimary]
        end
      else [] in
    let e2 := if found then
        match attr_get m (s2l "auto_increment") with Some _ => [] | None => [NeedAutoIncrement] end
      else [] in
    let auto := if found then
        match attr_get m (s2l "auto_increment") with Some ai => list_eqb ai (s2l "true") | None => false end
      else false in
    match errs ++ ferrs ++ e1 ++ e2 with
    | [] =>
      match attr_get m (s2l "primary") with
      | Some p => if is_ident p then Generated (p, auto) else Panicked
      | None => Panicked
      end
    | all => Reported all
    end
  end.
