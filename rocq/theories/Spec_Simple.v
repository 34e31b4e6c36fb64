(** Specification for C86: the statements of a migration run and the answers to them. *)
From Coq Require Import ZArith List.
From Verif Require Import Base Types Spec_Wire Spec_Packets Spec_Conn Spec_Conv Migrator.
Import ListNotations.

(** For each migration its own statement, then the one that records it. *)
Inductive statements (own : migration_record -> list Z) (records : list Z -> migration_record -> Prop)
  : list migration_record -> list (list Z) -> Prop :=
| ss_nil : statements own records [] []
| ss_cons : forall m plan q qs, records q m -> statements own records plan qs ->
    statements own records (m :: plan) (own m :: q :: qs).

(** The statements are sent one after the other until one fails. *)
Inductive answered {A} : list (list Z) -> list (use * seen A) -> res error unit -> Prop :=
| an_all : answered [] [] (Ok tt)
| an_fail : forall q b qs e, utf8_text q b -> answered (q :: qs) [(UExecute b, SFailed e)] (Err e)
| an_next : forall q b qs rows id status warnings msg st hs r, utf8_text q b -> answered qs hs r ->
    answered (q :: qs) ((UExecute b, SDone rows id status warnings msg st) :: hs) r.
