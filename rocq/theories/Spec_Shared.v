(** Specification for C85: what happened on one connection of a pool. *)
From Coq Require Import List Arith.
From Verif Require Import Base Types Spec_Conn Shared.
Import ListNotations.

(** The uses of connection [k], by whichever task, in the order in which they happened. *)
Inductive uses_on {A} (k : nat) : list (event A) -> list (use * seen A) -> Prop :=
| uo_nil : uses_on k [] []
| uo_here : forall t u y l r, uses_on k l r -> uses_on k (EvUse t k u y :: l) ((u, y) :: r)
| uo_other : forall t k' u y l r, k' <> k -> uses_on k l r -> uses_on k (EvUse t k' u y :: l) r
| uo_arrive : forall k' b l r, uses_on k l r -> uses_on k (EvArrive k' b :: l) r.

(** Nothing arrives late: what a connection will receive is there from the start. *)
Definition no_arrival {A} (l : list (event A)) : Prop := forall k b, ~ In (EvArrive k b) l.
