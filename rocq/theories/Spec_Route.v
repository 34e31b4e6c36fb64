(** Specification of reading models from any query, for all models and columns: which field a column
    goes to, given the table it is of and its name. *)
From Coq Require Import String ZArith List.
From Verif Require Import Base Types Models Spec_Model.
Import ListNotations.
Open Scope Z_scope.

(** The fields of a model in the order they are read: the references that lead to it, and its column. *)
Fixpoint fields_of (m : model) : list (list str * str) :=
  match m with
  | Model _ _ _ simples structs refs =>
    map (pair []) (columns_of simples structs) ++
    flat_map (fun r => match r with (f, sub) => map (fun x => (f :: fst x, snd x)) (fields_of sub) end) refs
  end.

(** A table's name with the model's own table and a dot left out, if it begins so. *)
Definition without_table (t table rest : str) : Prop :=
  table = t ++ s2l "." ++ rest \/ (forall r, table <> t ++ s2l "." ++ r) /\ rest = table.

(** What is left names reference [f]: it is [f] itself (then nothing remains), or [f], a dot and what remains. *)
Definition leads_into (f rest remains : str) : Prop := rest = f /\ remains = [] \/ rest = f ++ s2l "." ++ remains.

(** A column of [table] named [name] goes to the field of that name at the end of a path of references:
    the references are found in the table's name; the own columns take all that is of no reference. *)
Inductive goes : model -> str -> str -> list str -> Prop :=
| goes_ref : forall t p a simples structs refs table rest remains f sub name path,
    without_table t table rest -> In (f, sub) refs -> leads_into f rest remains -> goes sub remains name path ->
    goes (Model t p a simples structs refs) table name (f :: path)
| goes_own : forall t p a simples structs refs table rest name,
    without_table t table rest -> (forall f sub remains, In (f, sub) refs -> ~ leads_into f rest remains) ->
    In name (columns_of simples structs) ->
    goes (Model t p a simples structs refs) table name [].

(** Column [c] goes to field [x]. *)
Definition column_of (m : model) (x : list str * str) (c : column) : Prop :=
  col_org_name c = snd x /\ goes m (col_table c) (snd x) (fst x).

(** [i] is the last column that goes to field [x]. *)
Definition takes (m : model) (cols : list column) (x : list str * str) (i : nat) : Prop :=
  (exists c, nth_error cols i = Some c /\ column_of m x c) /\
  forall j c, (i < j)%nat -> nth_error cols j = Some c -> ~ column_of m x c.
