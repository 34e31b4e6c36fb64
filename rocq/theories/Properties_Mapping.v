(** Models read from any query: C80. *)
From Coq Require Import String ZArith List Bool Lia.
From Verif Require Import Base BaseFacts Types Models Spec_Model Spec_Mapping Model_proofs Mapping_proofs Properties_Model.
Import ListNotations.
Open Scope Z_scope.

(** ** C80: columns are taken by name *)

(** Whatever the order of the columns, even if some stand there several times and others belong
    to no field: every field takes the value of its own column, the last one of that name. *)
Theorem C80_any_order_partial : forall m sel cols row, everywhere names_distinct m -> everywhere table_apart m ->
  Forall (fun x => In x (selected (m_table m) m) \/ unrelated m x) sel -> describes sel cols -> length row = length cols ->
  incl (selected (m_table m) m) sel ->
  exists vs left, from_row (from_columns m cols) row = Ok (vs, left) /\
    Forall2 (fun x v => exists i, is_last_at sel x i /\ nth_error row i = Some v) (selected (m_table m) m) vs.
Proof. exact rows_any. Qed.
Print Assumptions C80_any_order_partial.

(** If a column is missing, reading any row fails and names the first field without a column. *)
Theorem C80_missing_partial : forall m sel cols row before x after, everywhere names_distinct m -> everywhere table_apart m ->
  Forall (fun x => In x (selected (m_table m) m) \/ unrelated m x) sel -> describes sel cols -> length row = length cols ->
  selected (m_table m) m = before ++ x :: after -> incl before sel -> ~ In x sel ->
  from_row (from_columns m cols) row = Err (EMissingField (snd x)).
Proof. exact rows_missing. Qed.
Print Assumptions C80_missing_partial.

(** Not so if the further column has the name of one of the model's own columns: the tables of
    columns are only looked at to find references, so the id of a joined account becomes the id
    of the user. *)
Definition user_model : model := Model (s2l "user") (s2l "id") true [s2l "id"; s2l "name"] [] [].

Theorem C80_other_table_refuted : exists cols,
  everywhere names_distinct user_model /\ everywhere table_apart user_model /\
  describes [(s2l "user", s2l "id"); (s2l "user", s2l "name"); (s2l "account", s2l "id")] cols /\
  selected (m_table user_model) user_model = [(s2l "user", s2l "id"); (s2l "user", s2l "name")] /\
  from_row (from_columns user_model cols) [VULong 1; VBytes (s2l "ann"); VULong 77] =
    Ok ([VULong 77; VBytes (s2l "ann")], [VULong 1; VNull; VNull]).
Proof.
  exists (map some_column [(s2l "user", s2l "id"); (s2l "user", s2l "name"); (s2l "account", s2l "id")]).
  splits.
  - unfold user_model. concrete.
  - unfold user_model. concrete.
  - apply some_columns_describe.
  - vm_compute. reflexivity.
  - vm_compute. reflexivity.
Qed.
Print Assumptions C80_other_table_refuted.

(** The test models, columns reversed, one of them twice, and a count nobody asked for. *)
Definition shuffled : list (str * str) :=
  (s2l "entity.map", s2l "name") :: (s2l "", s2l "count(*)") :: rev (selected (m_table entity_model) entity_model).

Example C80_case :
  everywhere names_distinct entity_model /\ everywhere table_apart entity_model /\
  Forall (fun x => In x (selected (m_table entity_model) entity_model) \/ unrelated entity_model x) shuffled /\
  describes shuffled (map some_column shuffled) /\
  incl (selected (m_table entity_model) entity_model) shuffled /\
  from_row (from_columns entity_model (map some_column shuffled)) (map (fun n => VULong (Z.of_nat n)) (seq 0 14)) =
    Ok (map (fun n => VULong (Z.of_nat n)) (rev (seq 2 12)), VULong 0 :: VULong 1 :: repeat VNull 12).
Proof.
  splits.
  - unfold entity_model, map_model. concrete.
  - unfold entity_model, map_model. concrete.
  - unfold shuffled. constructor; [left; vm_compute; tauto|]. constructor.
    + right. cbn [unrelated entity_model fst snd map]. split; [no_in|].
      intros f r [<-|[]]. repeat constructor; cbn [fst]; discriminate.
    + apply Forall_forall. intros x Hx. left. now apply in_rev.
  - apply some_columns_describe.
  - intros x Hx. do 2 right. now apply -> in_rev.
  - vm_compute. reflexivity.
Qed.

Example C80_missing_case :
  let sel := [(s2l "user", s2l "name")] in
  selected (m_table user_model) user_model = [] ++ (s2l "user", s2l "id") :: sel /\ ~ In (s2l "user", s2l "id") sel /\
  from_row (from_columns user_model (map some_column sel)) [VULong 5] = Err (EMissingField (s2l "id")).
Proof. intros sel. splits; [reflexivity|no_in|reflexivity]. Qed.
