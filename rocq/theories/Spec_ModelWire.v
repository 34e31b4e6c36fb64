(** Specification for C96: the exchanges with the server that belong to the statements of active
    models. *)
From Coq Require Import ZArith List.
From Verif Require Import Base Types Spec_Wire Spec_Packets Spec_Conn Spec_Conv Models.
Import ListNotations.

(** Each statement is prepared and, if that succeeds, executed once with its parameters. *)
Inductive exchanged {A} : list statement -> list (use * seen A) -> Prop :=
| xc_nil : exchanged [] []
| xc_done : forall text b params id sid rows status warnings msg st tr h, utf8_text text b -> exchanged tr h ->
    exchanged ((text, params, Ok id) :: tr)
      ((UPrepare b, SPrepared sid (Z.of_nat (length params))) ::
       (UStmtExecute sid (Z.of_nat (length params)) params, SDone rows id status warnings msg st) :: h)
| xc_refused : forall text b params e tr h, utf8_text text b -> exchanged tr h ->
    exchanged ((text, params, Err e) :: tr) ((UPrepare b, SFailed e) :: h)
| xc_failed : forall text b params e sid tr h, utf8_text text b -> exchanged tr h ->
    exchanged ((text, params, Err e) :: tr)
      ((UPrepare b, SPrepared sid (Z.of_nat (length params))) ::
       (UStmtExecute sid (Z.of_nat (length params)) params, SFailed e) :: h).
