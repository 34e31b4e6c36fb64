(** Specification for the packet limit a connection asks for (C124). *)
From Coq Require Import String ZArith List.
From Verif Require Import Base Types Spec_Conn.
Import ListNotations.
Open Scope Z_scope.

Definition limit_name : list Z := s2l "@@max_allowed_packet".

(** What becomes of the limit for an answer to the question: it is set, kept, or there is an error.
    [rows]: how a row is read as values. *)
Inductive limit_after (rows : list column -> list Z -> res error (list value)) : answer -> res error (option Z) -> Prop :=
| limit_no_set : forall n id status warnings msg st, limit_after rows (AOk n id status warnings msg st) (Ok None)
| limit_refused : forall code state msg, limit_after rows (AErr code state msg) (Err (EServer (ErrError code state msg)))
| limit_no_row : forall cols, limit_after rows (ARows cols []) (Ok None)
| limit_bad_row : forall cols p ps e, rows cols p = Err e -> limit_after rows (ARows cols (p :: ps)) (Err e)
| limit_not_named : forall cols p ps vs, rows cols p = Ok vs -> ~ In limit_name (map col_name cols) ->
    limit_after rows (ARows cols (p :: ps)) (Ok None)
| limit_number : forall before col after p ps vs n, rows (before ++ col :: after) p = Ok vs ->
    ~ In limit_name (map col_name before) -> col_name col = limit_name -> nth_error vs (length before) = Some (VULong n) ->
    limit_after rows (ARows (before ++ col :: after) (p :: ps)) (Ok (Some n))
| limit_no_number : forall before col after p ps vs v, rows (before ++ col :: after) p = Ok vs ->
    ~ In limit_name (map col_name before) -> col_name col = limit_name -> nth_error vs (length before) = Some v ->
    (forall n, v <> VULong n) ->
    limit_after rows (ARows (before ++ col :: after) (p :: ps)) (Err (EProtocol (PParse (EWrongValue TULong v)))).
