(** Specification for C87: what the attribute of a struct says. *)
From Coq Require Import String ZArith List Bool.
From Verif Require Import Base Types FieldTypes DeriveAttr.
Import ListNotations.

(** [k = "v"] is written in one of the struct's own attributes. *)
Definition says (attrs : list attribute) (k v : str) : Prop :=
  exists a l, In a attrs /\ at_ours a = true /\ at_entries a = Some l /\ In (Some k, VStr v) l.

(** A type is declared with its fields: each is named, and keeps its name or is given one. *)
Inductive declares_field : struct_field -> str * str -> Prop :=
| df_short : forall m, declares_field (Some m, None) (m, m)
| df_named : forall m x, declares_field (Some m, Some (FPath [x])) (m, x).

(** An entry of the documented form. *)
Inductive entry_form : entry -> Prop :=
| ef_str : forall k s, entry_form (Some k, VStr s)
| ef_ty : forall p fs gs, Forall2 declares_field fs gs -> entry_form (Some (s2l "ty"), VStruct p fs).

(** The names given to strings. *)
Definition string_keys (l : list entry) : list str :=
  flat_map (fun e => match e with (Some k, VStr _) => [k] | _ => [] end) l.

(** One own attribute, with entries that name nothing twice and no tuple index. *)
Definition plain (attrs : list attribute) : Prop :=
  exists before a after, attrs = before ++ a :: after /\ at_ours a = true /\
    Forall (fun x => at_ours x = false) (before ++ after) /\
    match at_entries a with
    | Some l => NoDup (string_keys l) /\ forall p fs e, In (Some (s2l "ty"), VStruct p fs) l -> ~ In (None, e) fs
    | None => True
    end.

(** All entries have the documented form. *)
Definition well_formed (attrs : list attribute) : Prop :=
  forall a, In a attrs -> at_ours a = true -> exists l, at_entries a = Some l /\ Forall entry_form l.

(** The types declared by the entries, in order. *)
Inductive declares_type : entry -> simple_struct -> Prop :=
| dt : forall p fs gs, Forall2 declares_field fs gs -> declares_type (Some (s2l "ty"), VStruct p fs) (p, gs).

(** The entries that are no strings. *)
Definition type_entries (l : list entry) : list entry :=
  filter (fun e => match snd e with VStr _ => false | _ => true end) l.

(** The types declared by the struct's own attributes. *)
Definition says_types (attrs : list attribute) (ts : list simple_struct) : Prop :=
  Forall2 declares_type
    (flat_map (fun a => if at_ours a then match at_entries a with Some l => type_entries l | None => [] end else []) attrs) ts.

(** The key is generated by the server exactly if the attribute says so. *)
Definition says_auto (attrs : list attribute) (b : bool) : Prop :=
  exists ai, says attrs (s2l "auto_increment") ai /\ (b = true <-> ai = s2l "true").

(** What is wrong with a field of a type, and with an entry. *)
Inductive wrong_field : struct_field -> derive_error -> Prop :=
| wf_single : forall m l, length l <> 1%nat -> wrong_field (m, Some (FPath l)) ExpectedSingleIdent
| wf_ident : forall m, wrong_field (m, Some FOther) ExpectedIdentifier.
Inductive wrong_entry : entry -> derive_error -> Prop :=
| we_name : forall v, wrong_entry (None, v) ExpectedIdent
| we_struct : wrong_entry (Some (s2l "ty"), VElse) ExpectedStruct
| we_string : forall k v, k <> s2l "ty" -> (forall s, v <> VStr s) -> wrong_entry (Some k, v) ExpectedString
| we_field : forall p fs f x, In f fs -> wrong_field f x -> wrong_entry (Some (s2l "ty"), VStruct p fs) x.

(** What is wrong with the struct's own attributes. *)
Definition wrong (attrs : list attribute) (x : derive_error) : Prop :=
  exists a, In a attrs /\ at_ours a = true /\
    ((at_entries a = None /\ x = NotEntries) \/
     exists l e, at_entries a = Some l /\ In e l /\ wrong_entry e x).

(** Nothing is written for [k]. *)
Definition silent (attrs : list attribute) (k : str) : Prop := forall v, ~ says attrs k v.
