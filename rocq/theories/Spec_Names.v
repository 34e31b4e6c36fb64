(** Which column a field stands for. *)
From Coq Require Import String ZArith List Bool.
From Verif Require Import Base Types Models DeriveNames.
Import ListNotations.
Open Scope Z_scope.

(** The columns meant: those with the names of the fields; [r#] is not part of a name. *)
Fixpoint meant (w : written) : model :=
  match w with
  | Written table primary auto simples structs refs =>
    Model table primary auto (map i_name simples)
      (map (fun '(f, parts) => (i_name f, map i_name parts)) structs)
      (map (fun r => match r with (f, sub) => (i_name f, meant sub) end) refs)
  end.

(** A property of a struct and everything it refers to. *)
Inductive throughout (P : written -> Prop) : written -> Prop :=
| throughout_intro : forall t p a simples structs refs,
    P (Written t p a simples structs refs) ->
    Forall (fun r => throughout P (snd r)) refs ->
    throughout P (Written t p a simples structs refs).

(** No raw identifier. *)
Definition not_raw (i : ident) : Prop := i_raw i = false.

(** Neither the field nor any part is raw. *)
Definition parts_not_raw (s : ident * list ident) : Prop := not_raw (fst s) /\ Forall not_raw (snd s).

(** No field and no part is raw. *)
Definition no_raw (w : written) : Prop :=
  match w with
  | Written _ _ _ simples structs refs =>
    Forall not_raw simples /\ Forall parts_not_raw structs /\ Forall (fun r => not_raw (fst r)) refs
  end.

(** No field of a struct type and no part is raw; others may be. *)
Definition no_raw_structs (w : written) : Prop :=
  match w with Written _ _ _ _ structs _ => Forall parts_not_raw structs end.

(** Names have no [#] in them. *)
Definition hashless (i : ident) : Prop := ~ In 35 (i_name i).
