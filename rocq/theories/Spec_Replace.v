(** Specification of C95: what is left of a model that is updated with a whole other one. *)
From Coq Require Import ZArith List Bool.
From Verif Require Import Base Types Conversion Models TypedModel Spec_Conv Spec_Model Spec_Engine.
Import ListNotations.

(** The model [x] with the contents of [y]: a key that the server assigns stays, all other fields are those
    of [y], and the references are to new rows for the models of [y]. *)
Inductive replaced : tmodel -> tinstance -> tinstance -> tinstance -> Prop :=
| replaced_intro : forall t p (a : bool) simples structs refs xs xss xc ys ss children zs children',
    length xs = length simples -> length ys = length simples -> length zs = length simples ->
    (forall i n ty x y z, nth_error simples i = Some (n, ty) -> nth_error xs i = Some x -> nth_error ys i = Some y ->
       nth_error zs i = Some z -> (a = true -> n = p -> z = x) /\ (a = false \/ n <> p -> z = y)) ->
    saved_children refs children children' ->
    replaced (TModel t p a simples structs refs) (TInstance xs xss xc) (TInstance ys ss children) (TInstance zs ss children').
