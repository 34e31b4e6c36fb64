(** Specification of C100: which structs cannot read the rows of their own query. *)
From Coq Require Import ZArith List Bool.
From Verif Require Import Base Types Models DeriveNames Spec_Names.
Import ListNotations.

(** Somewhere in the struct or in what it refers to, a field of a struct type or one of its parts is raw. *)
Inductive raw_part : written -> Prop :=
| rp_here : forall t p a simples structs refs f parts q, In (f, parts) structs -> In q parts ->
    i_raw f = true \/ i_raw q = true -> raw_part (Written t p a simples structs refs)
| rp_referred : forall t p a simples structs refs f sub, In (f, sub) refs -> raw_part sub ->
    raw_part (Written t p a simples structs refs).

(** Fields of a struct type have parts; names have no [#] in them. *)
Definition ordinary_structs (w : written) : Prop :=
  match w with
  | Written _ _ _ _ structs _ => Forall (fun s => snd s <> [] /\ hashless (fst s) /\ Forall hashless (snd s)) structs
  end.
