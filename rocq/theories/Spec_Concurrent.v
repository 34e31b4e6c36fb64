(** Several migrators at work on one table.  Independent of the model's functions. *)
From Coq Require Import ZArith List.
From Verif Require Import Migrator.
Import ListNotations.

(** [h] is what the runs with the histories [hs] do together, each in its own order. *)
Inductive interleaved : list (list event) -> list event -> Prop :=
| il_end : forall hs, Forall (fun h => h = []) hs -> interleaved hs []
| il_step : forall before ev h after all, interleaved (before ++ h :: after) all ->
    interleaved (before ++ (ev :: h) :: after) (ev :: all).

(** The migrations in place after [h] when those of [t] were in place before: its code `up`
    was executed, or it was there, and its code `down` has not been executed since. *)
Definition in_place (t : list migration_record) (h : list event) (m : migration_record) : Prop :=
  (In m t /\ ~ In (Down (fst m) (snd m), Done) h) \/
  exists p q, h = p ++ (Up (fst m) (snd m), Done) :: q /\ ~ In (Down (fst m) (snd m), Done) q.
