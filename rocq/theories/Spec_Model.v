(** What generated statements say, read off their text, and which columns and joins a model
    stands for.  Independent of the functions of Models.v; the types of models and active
    models are shared. *)
From Coq Require Import String ZArith List Bool.
From Verif Require Import Base Types Models Spec_Text.
Import ListNotations.
Open Scope Z_scope.

(** ** Reading statements *)

(** Read a fixed text. *)
Fixpoint expect (p l : list Z) : option (list Z) :=
  match p, l with
  | [], _ => Some l
  | a :: p', b :: l' => if a =? b then expect p' l' else None
  | _ :: _, [] => None
  end.

Definition obind {A B} (o : option A) (f : A -> option B) : option B :=
  match o with Some x => f x | None => None end.

(** One or more items separated by a comma and a space. *)
Fixpoint comma_list {A} (fuel : nat) (item : list Z -> option (A * list Z)) (l : list Z) : option (list A * list Z) :=
  match fuel with
  | O => None
  | S fuel' =>
    obind (item l) (fun '(x, r) =>
    match expect (s2l ", ") r with
    | Some r' => obind (comma_list fuel' item r') (fun '(xs, r'') => Some (x :: xs, r''))
    | None => Some ([x], r)
    end)
  end.

(** A possibly empty list in parentheses. *)
Definition paren_list {A} (item : list Z -> option (A * list Z)) (l : list Z) : option (list A * list Z) :=
  obind (expect (s2l "(") l) (fun l =>
  match expect (s2l ")") l with
  | Some r => Some ([], r)
  | None =>
    obind (comma_list (length l) item l) (fun '(xs, r) =>
    obind (expect (s2l ")") r) (fun r => Some (xs, r)))
  end).

(** A placeholder. *)
Definition placeholder (l : list Z) : option (unit * list Z) := option_map (pair tt) (expect (s2l "?") l).

(** [`column` = ?] *)
Definition assignment (l : list Z) : option (list Z * list Z) :=
  obind (lex_identifier l) (fun '(n, r) => option_map (pair n) (expect (s2l " = ?") r)).

(** An INSERT: the table, the columns, and the number of placeholders. *)
Definition parse_insert (l : list Z) : option (list Z * list (list Z) * nat) :=
  obind (expect (s2l "insert into ") l) (fun l =>
  obind (lex_identifier l) (fun '(t, l) =>
  obind (expect (s2l " ") l) (fun l =>
  obind (paren_list lex_identifier l) (fun '(names, l) =>
  obind (expect (s2l " values ") l) (fun l =>
  obind (paren_list placeholder l) (fun '(marks, l) =>
  match l with [] => Some (t, names, length marks) | _ => None end)))))).

(** An UPDATE: the table, the assigned columns in the order of their placeholders, and the
    column compared with the last placeholder. *)
Definition parse_update (l : list Z) : option (list Z * list (list Z) * list Z) :=
  obind (expect (s2l "update ") l) (fun l =>
  obind (lex_identifier l) (fun '(t, l) =>
  obind (expect (s2l " set ") l) (fun l =>
  obind (comma_list (length l) assignment l) (fun '(names, l) =>
  obind (expect (s2l " where ") l) (fun l =>
  obind (lex_identifier l) (fun '(key, l) =>
  obind (expect (s2l " = ?") l) (fun l =>
  match l with [] => Some (t, names, key) | _ => None end))))))).

(** [`table`.`column`] *)
Definition column_ref (l : list Z) : option ((list Z * list Z) * list Z) :=
  obind (lex_identifier l) (fun '(t, l) =>
  obind (expect (s2l ".") l) (fun l =>
  obind (lex_identifier l) (fun '(c, l) => Some ((t, c), l)))).

(** A joined table, its alias, and the two columns that must be equal. *)
Record joined : Type := mkJoined {
  j_table : str; j_alias : str; j_left : str * str; j_right : str * str }.

Fixpoint parse_joins (fuel : nat) (l : list Z) : option (list joined) :=
  match l with
  | [] => Some []
  | _ =>
    match fuel with
    | O => None
    | S fuel' =>
      obind (expect (s2l " join ") l) (fun l =>
      obind (lex_identifier l) (fun '(t, l) =>
      obind (expect (s2l " as ") l) (fun l =>
      obind (lex_identifier l) (fun '(a, l) =>
      obind (expect (s2l " on (") l) (fun l =>
      obind (column_ref l) (fun '(x, l) =>
      obind (expect (s2l " = ") l) (fun l =>
      obind (column_ref l) (fun '(y, l) =>
      obind (expect (s2l ")") l) (fun l =>
      obind (parse_joins fuel' l) (fun js => Some (mkJoined t a x y :: js)))))))))))
    end
  end.

(** A SELECT: the selected columns, the table, the joins. *)
Definition parse_select (l : list Z) : option (list (list Z * list Z) * list Z * list joined) :=
  obind (expect (s2l "select ") l) (fun l =>
  obind (comma_list (length l) column_ref l) (fun '(cols, l) =>
  obind (expect (s2l " from ") l) (fun l =>
  obind (lex_identifier l) (fun '(t, l) =>
  obind (parse_joins (length l) l) (fun js => Some (cols, t, js)))))).

(** ** What a model stands for *)

(** The columns a model has itself: one for each simple field, and for each struct field one
    per part, named after both. *)
Definition columns_of (simples : list str) (structs : list (str * list str)) : list str :=
  simples ++ flat_map (fun '(f, parts) => map (fun p => f ++ s2l "_" ++ p) parts) structs.

(** The columns of a model known as [alias] and, recursively, of its references, which are
    known by the path to them. *)
Fixpoint selected (alias : str) (m : model) : list (str * str) :=
  match m with
  | Model _ _ _ simples structs refs =>
    map (pair alias) (columns_of simples structs) ++
    flat_map (fun r => match r with (f, sub) => selected (alias ++ s2l "." ++ f) sub end) refs
  end.

(** The joins: the referenced table under its path, its primary key being equal to the
    reference's column. *)
Fixpoint joins (alias : str) (m : model) : list joined :=
  match m with
  | Model _ _ _ _ _ refs =>
    flat_map (fun r => match r with (f, (Model t p _ _ _ _ as sub)) =>
      mkJoined t (alias ++ s2l "." ++ f) (alias, f) (alias ++ s2l "." ++ f, p) :: joins (alias ++ s2l "." ++ f) sub
    end) refs
  end.

(** A property of a model and everything it refers to. *)
Inductive everywhere (P : model -> Prop) : model -> Prop :=
| everywhere_intro : forall t p a simples structs refs,
    P (Model t p a simples structs refs) ->
    Forall (fun r => everywhere P (snd r)) refs ->
    everywhere P (Model t p a simples structs refs).

(** No backquote in any name. *)
Definition names_plain (m : model) : Prop :=
  match m with
  | Model t p _ simples structs refs =>
    ~ In 96 t /\ ~ In 96 p /\ Forall (fun n => ~ In 96 n) (columns_of simples structs) /\
    Forall (fun r => ~ In 96 (fst r)) refs
  end.

(** At least one column, its own or in a reference. *)
Definition has_column (m : model) : Prop :=
  match m with Model _ _ _ simples structs refs => columns_of simples structs <> [] \/ refs <> [] end.

(** Distinct column names; distinct field names, nonempty and without dots, as identifiers are. *)
Definition names_distinct (m : model) : Prop :=
  match m with
  | Model _ _ _ simples structs refs =>
    NoDup (columns_of simples structs) /\ NoDup (map fst refs) /\
    Forall (fun r => fst r <> [] /\ ~ In 46 (fst r)) refs
  end.

(** The table has no dot in its name and no reference of the model has the same name. *)
Definition table_apart (m : model) : Prop :=
  match m with
  | Model t _ _ _ _ refs => t <> [] /\ ~ In 46 t /\ ~ In t (map fst refs)
  end.

(** The column definitions a server sends for selected columns. *)
Definition describes (sel : list (str * str)) (cols : list column) : Prop :=
  Forall2 (fun s c => col_table c = fst s /\ col_org_name c = snd s) sel cols.

(** ** Inserting *)

(** The fields of an active model that are set: name and converted value. *)
Inductive sets : list (str * option (res serialize_error value)) -> list (str * value) -> Prop :=
| sets_nil : sets [] []
| sets_unset : forall n r l, sets r l -> sets ((n, None) :: r) l
| sets_set : forall n v r l, sets r l -> sets ((n, Some (Ok v)) :: r) ((n, v) :: l).

(** The same for struct fields. *)
Inductive struct_sets : list (option (list (str * res serialize_error value))) -> list (str * value) -> Prop :=
| ss_nil : struct_sets [] []
| ss_unset : forall r l, struct_sets r l -> struct_sets (None :: r) l
| ss_set : forall parts vs r l, Forall2 (fun p v => fst p = fst v /\ snd p = Ok (snd v)) parts vs ->
    struct_sets r l -> struct_sets (Some parts :: r) (vs ++ l).

(** The key of an inserted model: its own if it is set, otherwise the assigned id. *)
Inductive key_of : active -> Z -> value -> Prop :=
| key_set : forall t p simples structs refs v id,
    In (p, Some (Ok v)) simples ->
    key_of (Active t (Some p) simples structs refs) id v
| key_assigned : forall t p simples structs refs id,
    (forall q, p = Some q -> forall v, ~ In (q, Some (Ok v)) simples) ->
    key_of (Active t p simples structs refs) id (VULong id).

(** An INSERT that names exactly these columns of the table and passes these values. *)
Definition inserts_row (s : statement) (table : str) (vs : list (str * value)) : Prop :=
  let '(text, params, _) := s in
  parse_insert text = Some (table, map fst vs, length params) /\ params = map snd vs.

(** Distinct field names and no backquotes in the names. *)
Inductive active_ok : active -> Prop :=
| active_ok_intro : forall t p simples structs refs,
    ~ In 96 t -> NoDup (map fst simples) ->
    Forall (fun f => ~ In 96 (fst f)) simples ->
    Forall (fun o => forall l, o = Some l -> Forall (fun f => ~ In 96 (fst f)) l) structs ->
    Forall (fun r => ~ In 96 (fst r) /\ forall a, snd r = RInsert a -> active_ok a) refs ->
    active_ok (Active t p simples structs refs).

(** The conversions of the set fields, in order. *)
Definition conversions (simples : list (str * option (res serialize_error value)))
  (structs : list (option (list (str * res serialize_error value)))) : list (res serialize_error value) :=
  flat_map (fun f => match snd f with Some c => [c] | None => [] end) simples ++
  flat_map (fun o => match o with Some l => map snd l | None => [] end) structs.

(** The outcome if some conversion fails: the error of the first that does. *)
Definition unconverted {A} (cs : list (res serialize_error value)) (r : res error A) : Prop :=
  exists vs c rest, cs = map Ok vs ++ c :: rest /\
    ((exists e, c = Err e /\ r = Err (EProtocol (PSerialize e))) \/ c = Panic /\ r = Panic).

(** The statements executed for an active model and the outcome. *)
Inductive inserted : active -> list statement -> res error Z -> Prop :=
| ins_done : forall t p simples structs refs vs ws us trace s r,
    sets simples vs -> struct_sets structs ws ->
    references refs trace (Ok us) ->
    inserts_row s t (vs ++ ws ++ us) -> snd s = r ->
    inserted (Active t p simples structs refs) (trace ++ [s]) r
| ins_unconverted : forall t p simples structs refs e,
    unconverted (conversions simples structs) e ->
    inserted (Active t p simples structs refs) [] e
| ins_failed : forall t p simples structs refs trace e,
    references refs trace e ->
    (forall us, e <> Ok us) ->
    inserted (Active t p simples structs refs) trace (match e with Ok _ => Panic | Err x => Err x | Panic => Panic end)
(** The statements executed for references, and their columns. *)
with references : list (str * reference) -> list statement -> res error (list (str * value)) -> Prop :=
| refs_nil : references [] [] (Ok [])
| refs_unset : forall n r trace e, references r trace e -> references ((n, RUnset) :: r) trace e
| refs_set : forall n k r trace us, references r trace (Ok us) ->
    references ((n, RSet k) :: r) trace (Ok ((n, k) :: us))
| refs_insert : forall n a id k r trace trace' us,
    inserted a trace (Ok id) -> key_of a id k ->
    references r trace' (Ok us) ->
    references ((n, RInsert a) :: r) (trace ++ trace') (Ok ((n, k) :: us))
| refs_insert_failed : forall n a e r trace,
    inserted a trace e -> (forall id, e <> Ok id) ->
    references ((n, RInsert a) :: r) trace (match e with Ok _ => Panic | Err x => Err x | Panic => Panic end)
| refs_later_failed : forall n x r trace trace' e,
    (x = RUnset -> trace = []) -> (forall k, x = RSet k -> trace = []) ->
    (forall a, x = RInsert a -> exists id, inserted a trace (Ok id)) ->
    references r trace' e -> (forall us, e <> Ok us) ->
    references ((n, x) :: r) (trace ++ trace') e.

(** An UPDATE that assigns exactly these columns of the row with this key. *)
Definition updates_row (s : statement) (table primary : str) (vs : list (str * value)) (key : value) : Prop :=
  let '(text, params, _) := s in
  parse_update text = Some (table, map fst vs, primary) /\ params = map snd vs ++ [key].

(** The statements executed for an update and the outcome. *)
Inductive updated (key : value) (primary : str) : active -> list statement -> res error unit -> Prop :=
| upd_done : forall t p simples structs refs vs ws us trace s,
    sets simples vs -> struct_sets structs ws -> references refs trace (Ok us) ->
    vs ++ ws ++ us <> [] ->
    updates_row s t primary (vs ++ ws ++ us) key ->
    updated key primary (Active t p simples structs refs) (trace ++ [s])
      (match snd s with Ok _ => Ok tt | Err x => Err x | Panic => Panic end)
| upd_nothing : forall t p simples structs refs vs ws us trace,
    sets simples vs -> struct_sets structs ws -> references refs trace (Ok us) ->
    vs ++ ws ++ us = [] ->
    updated key primary (Active t p simples structs refs) trace (Ok tt)
| upd_unconverted : forall t p simples structs refs e,
    unconverted (conversions simples structs) e ->
    updated key primary (Active t p simples structs refs) [] e
| upd_failed : forall t p simples structs refs trace e,
    references refs trace e -> (forall us, e <> Ok us) ->
    updated key primary (Active t p simples structs refs) trace
      (match e with Ok _ => Panic | Err x => Err x | Panic => Panic end).

(** ** Whole models *)

(** The values have the shape of the model, whose primary key is a simple field. *)
Inductive fits : model -> instance -> Prop :=
| fits_intro : forall t p auto simples structs refs vs ss children,
    In p simples -> length simples = length vs ->
    Forall2 (fun s l => length (snd s) = length l) structs ss ->
    Forall2 (fun r c => fits (snd r) c) refs children ->
    fits (Model t p auto simples structs refs) (Instance vs ss children).

(** Storing a model and everything in it: the referenced models first, each once; then one
    row with the model's own values, without the primary key if the database assigns it, and
    the keys of the referenced models. *)
Inductive stored : model -> instance -> list statement -> Z -> Prop :=
| stored_intro : forall t p auto simples structs refs vs ss children own parts us trace s id,
    Forall2 (fun c v => fst c = fst v /\ snd c = Ok (snd v))
      (filter (fun c => negb (auto && list_eqb (fst c) p)) (combine simples vs)) own ->
    Forall2 (fun c v => fst c = fst v /\ snd c = Ok (snd v)) (combine (columns_of [] structs) (concat ss)) parts ->
    stored_refs refs children trace us ->
    inserts_row s t (own ++ parts ++ us) -> snd s = Ok id ->
    stored (Model t p auto simples structs refs) (Instance vs ss children) (trace ++ [s]) id
(** The references of a model: the statements for each and its column. *)
with stored_refs : list (str * model) -> list instance -> list statement -> list (str * value) -> Prop :=
| stored_nil : stored_refs [] [] [] []
| stored_cons : forall f m x k id refs children trace trace' us,
    stored m x trace id -> model_key m x id k ->
    stored_refs refs children trace' us ->
    stored_refs ((f, m) :: refs) (x :: children) (trace ++ trace') ((f, k) :: us)
(** The key of a stored model. *)
with model_key : model -> instance -> Z -> value -> Prop :=
| model_key_auto : forall t p simples structs refs x id,
    model_key (Model t p true simples structs refs) x id (VULong id)
| model_key_own : forall t p simples structs refs vs ss children id k,
    In (p, Ok k) (combine simples vs) ->
    model_key (Model t p false simples structs refs) (Instance vs ss children) id k.
