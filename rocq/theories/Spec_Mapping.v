(** Specification of reading models from any query: which column a field takes. *)
From Coq Require Import String ZArith List.
From Verif Require Import Base Types Models Spec_Model.
Import ListNotations.
Open Scope Z_scope.

(** [i] is the last position at which [x] stands in [sel]. *)
Definition is_last_at (sel : list (str * str)) (x : str * str) (i : nat) : Prop :=
  nth_error sel i = Some x /\ forall j, (i < j)%nat -> nth_error sel j <> Some x.

(** A column no field of the model can be meant by: its name is none of the model's own columns,
    and its table is none of the model's references, nor the path of one or of something in one. *)
Definition unrelated (m : model) (x : str * str) : Prop :=
  match m with
  | Model t _ _ simples structs refs =>
    ~ In (snd x) (columns_of simples structs) /\
    forall f r, In f (map fst refs) -> Forall (fun p => fst x <> p ++ f /\ fst x <> p ++ f ++ s2l "." ++ r) [[]; t ++ s2l "."]
  end.
