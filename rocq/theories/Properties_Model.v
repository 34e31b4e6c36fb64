(** Generated statements and models: C63, C64, C65, C66, C70. *)
From Coq Require Import String ZArith List Bool Lia.
From Verif Require Import Base BaseFacts Types Framing Models Spec_Text Spec_Model Model_proofs.
Import ListNotations.
Open Scope Z_scope.

(** ** C63: INSERT and UPDATE *)

(** The text of an INSERT names the table and exactly the given columns in order, and has one
    placeholder for each. *)
Theorem C63_insert_text : forall vs table, ~ In 96 table -> Forall (fun v => ~ In 96 (fst v)) vs ->
  parse_insert (into_insert vs table) = Some (table, map fst vs, length vs).
Proof. exact insert_text. Qed.
Print Assumptions C63_insert_text.

(** The same for an UPDATE, whose last placeholder is compared with the primary key. *)
Theorem C63_update_text : forall vs table primary, ~ In 96 table -> ~ In 96 primary -> vs <> [] ->
  Forall (fun v => ~ In 96 (fst v)) vs ->
  parse_update (into_update vs table primary) = Some (table, map fst vs, primary).
Proof. exact update_text. Qed.
Print Assumptions C63_update_text.

(** Running an update, whatever the database answers: the statement assigns exactly the set
    fields, its parameters are their values followed by the key, and nothing is executed if
    nothing is set. *)
Theorem C63_update : forall db key primary a h, active_ok a -> ~ In 96 primary -> exists trace,
  snd (update_model db key primary a h) = h ++ trace /\
  updated key primary a trace (fst (update_model db key primary a h)).
Proof. exact update_runs. Qed.
Print Assumptions C63_update.

Example C63_case :
  let vs := [(s2l "name", VBytes (s2l "foo")); (s2l "email", VNull)] in
  into_insert vs (s2l "user") = s2l "insert into `user` (`name`, `email`) values (?, ?)" /\
  parse_insert (into_insert vs (s2l "user")) = Some (s2l "user", [s2l "name"; s2l "email"], 2%nat) /\
  into_update vs (s2l "user") (s2l "id") = s2l "update `user` set `name` = ?, `email` = ? where `id` = ?" /\
  parse_update (into_update vs (s2l "user") (s2l "id")) = Some (s2l "user", [s2l "name"; s2l "email"], s2l "id") /\
  parse_insert (s2l "insert into `user` (`name`, `email`) values (?)") = Some (s2l "user", [s2l "name"; s2l "email"], 1%nat) /\
  parse_update (s2l "update `user` set `name` = ?,`email` = ? where `id` = ?") = None.
Proof. vm_compute. auto 10. Qed.

Definition ok_db : database := fun h _ _ => Ok (Z.of_nat (length h) + 7).

Example C63_update_case :
  let a := Active (s2l "user") (Some (s2l "id"))
    [(s2l "id", None); (s2l "name", Some (Ok (VBytes (s2l "bar")))); (s2l "email", Some (Ok VNull))] [] [] in
  active_ok a /\
  update_model ok_db (VUInt 5) (s2l "id") a [] =
    (Ok tt, [(s2l "update `user` set `name` = ?, `email` = ? where `id` = ?", [VBytes (s2l "bar"); VNull; VUInt 5], Ok 7)]) /\
  update_model ok_db (VUInt 5) (s2l "id") (Active (s2l "user") (Some (s2l "id")) [(s2l "id", None); (s2l "name", None)] [] []) [] =
    (Ok tt, []).
Proof.
  split.
  - constructor; try (intros H; vm_compute in H; intuition discriminate).
    + repeat constructor; cbn; intuition discriminate.
    + repeat constructor; cbn; intuition discriminate.
    + constructor.
    + constructor.
  - vm_compute. auto.
Qed.

(** ** C64: SELECT *)

(** For every model in which each model has a column: the generated text is a SELECT of
    exactly the columns of the model and, under their paths, of everything it refers to, from
    the model's table, joining each referenced table on its primary key. *)
Theorem C64_select : forall m, everywhere has_column m -> everywhere names_plain m ->
  parse_select (build_query (m_table m) (model_columns m)) =
  Some (selected (m_table m) m, m_table m, joins (m_table m) m).
Proof. exact select_text. Qed.
Print Assumptions C64_select.

(** No column is selected twice. *)
Theorem C64_once : forall m alias, everywhere names_distinct m -> NoDup (selected alias m).
Proof. exact selected_nodup. Qed.
Print Assumptions C64_once.

(** Without any column the text is not a SELECT. *)
Theorem C64_needs_a_column : exists m, everywhere names_plain m /\
  parse_select (build_query (m_table m) (model_columns m)) = None.
Proof.
  exists (Model (s2l "t") (s2l "id") false [] [] []). split; [|vm_compute; reflexivity].
  constructor; [|constructor]. cbn. splits; try constructor; intuition discriminate.
Qed.
Print Assumptions C64_needs_a_column.

(** The models of src/model/test.rs. *)
Definition map_model : model :=
  Model (s2l "map") (s2l "id") true [s2l "id"; s2l "name"; s2l "difficulty"; s2l "last_played"] [] [].
Definition entity_model : model :=
  Model (s2l "entity") (s2l "id") true [s2l "id"; s2l "name"; s2l "heading"; s2l "model"; s2l "spawn_after"]
    [(s2l "position", [s2l "x"; s2l "y"; s2l "z"])] [(s2l "map", map_model)].

Ltac no_in := let H := fresh in intros H; vm_compute in H; intuition discriminate.
Ltac nodup := repeat constructor; no_in.
(** Decide the conditions on a concrete model. *)
Ltac concrete :=
  match goal with
  | |- everywhere _ _ => constructor; concrete
  | |- has_column _ => left; discriminate
  | |- names_plain _ => cbn; concrete
  | |- names_distinct _ => cbn; concrete
  | |- table_apart _ => cbn; concrete
  | |- _ /\ _ => split; concrete
  | |- NoDup _ => nodup
  | |- Forall _ [] => constructor
  | |- Forall _ (_ :: _) => constructor; cbn [fst snd]; concrete
  | |- _ <> [] => discriminate
  | |- ~ _ => no_in
  | |- _ -> False => no_in
  | |- True => exact I
  end.

Example C64_case :
  everywhere has_column entity_model /\ everywhere names_plain entity_model /\
  everywhere names_distinct entity_model /\
  build_query (m_table entity_model) (model_columns entity_model) =
    s2l "select `entity`.`id`, `entity`.`name`, `entity`.`heading`, `entity`.`model`, `entity`.`spawn_after`, " ++
    s2l "`entity`.`position_x`, `entity`.`position_y`, `entity`.`position_z`, " ++
    s2l "`entity.map`.`id`, `entity.map`.`name`, `entity.map`.`difficulty`, `entity.map`.`last_played` " ++
    s2l "from `entity` join `map` as `entity.map` on (`entity`.`map` = `entity.map`.`id`)".
Proof.
  splits.
  - unfold entity_model, map_model. concrete.
  - unfold entity_model, map_model. concrete.
  - unfold entity_model, map_model. concrete.
  - vm_compute. reflexivity.
Qed.

(** ** C65: rows back to models *)

(** If no reference has the name of its model's table and no table name contains a dot: from
    the columns the server describes for the generated query, every field takes exactly the
    value of its own column, whatever the row; each value is used exactly once. *)
Theorem C65_mapping_partial : forall m cols row, everywhere names_distinct m -> everywhere table_apart m ->
  describes (selected (m_table m) m) cols -> length row = length cols ->
  from_row (from_columns m cols) row = Ok (row, repeat VNull (length row)).
Proof. exact rows_back. Qed.
Print Assumptions C65_mapping_partial.

Definition some_column (s : str * str) : column := mkColumn (snd s) (snd s) [] (fst s) CLong 0.

Lemma some_columns_describe : forall l, describes l (map some_column l).
Proof. induction l; constructor; auto. Qed.

(** A reference named like the table takes the model's own columns. *)
Theorem C65_same_name_refuted : exists m cols, everywhere names_distinct m /\
  describes (selected (m_table m) m) cols /\
  from_row (from_columns m cols) [VUInt 1; VUInt 2] = Err (EMissingField (s2l "id")).
Proof.
  exists (Model (s2l "user") (s2l "id") true [s2l "id"] []
    [(s2l "user", Model (s2l "account") (s2l "id") true [s2l "id"] [] [])]).
  exists (map some_column [(s2l "user", s2l "id"); (s2l "user.user", s2l "id")]). splits.
  - concrete.
  - exact (some_columns_describe [(s2l "user", s2l "id"); (s2l "user.user", s2l "id")]).
  - vm_compute. reflexivity.
Qed.
Print Assumptions C65_same_name_refuted.

(** Inside a referenced model the clash does not even fail: with a model A referring to B, B's
    table named like B's reference [c], C's reference [d] also a name of one of B's references,
    the values of C's [d] end in B's. *)
Definition leaf (t : string) : model := Model (s2l t) (s2l "id") true [s2l "id"] [] [].
Definition clash_model : model :=
  Model (s2l "a") (s2l "id") true [s2l "id"] []
    [(s2l "b", Model (s2l "c") (s2l "id") true [s2l "id"] []
       [(s2l "d", leaf "x"); (s2l "c", Model (s2l "y") (s2l "id") true [s2l "id"] [] [(s2l "d", leaf "z")])])].

Theorem C65_nested_name_refuted :
  everywhere names_distinct clash_model /\
  let sel := selected (m_table clash_model) clash_model in
  sel = [(s2l "a", s2l "id"); (s2l "a.b", s2l "id"); (s2l "a.b.d", s2l "id"); (s2l "a.b.c", s2l "id"); (s2l "a.b.c.d", s2l "id")] /\
  match from_columns clash_model (map some_column sel) with
  | Mapping _ [Mapping _ [Mapping own _; _]] => own = [(s2l "id", Some 4%nat)]
  | _ => False
  end.
Proof.
  split.
  - unfold clash_model, leaf. concrete.
  - vm_compute. auto.
Qed.
Print Assumptions C65_nested_name_refuted.

Example C65_case :
  everywhere table_apart entity_model /\
  let cols := map some_column (selected (m_table entity_model) entity_model) in
  length cols = 12%nat /\
  let row := map (fun n => VULong (Z.of_nat n)) (seq 0 12) in
  from_row (from_columns entity_model cols) row = Ok (row, repeat VNull 12) /\
  from_row (from_columns entity_model (rev cols)) (rev row) = Ok (row, repeat VNull 12).
Proof.
  split.
  - unfold entity_model, map_model. concrete.
  - vm_compute. auto.
Qed.

(** Without a model the values are returned as they are, if their number is that of the columns;
    otherwise that is the error. *)
Theorem C65_plain_rows : forall cols row,
  (length row = length cols -> plain_row cols row = Ok row) /\
  (length row <> length cols -> plain_row cols row = Err ERowLengthMismatch).
Proof.
  intros cols row. unfold plain_row. destruct (Nat.eqb_spec (length row) (length cols)); split; intros H; congruence.
Qed.
Print Assumptions C65_plain_rows.

(** ** C66: nested inserts *)

(** Whatever the database answers, the statements executed for an active model are exactly
    those of [inserted]: for each reference to insert those of the referenced model, in order;
    then, if all went well, one INSERT with the set fields, each inserted reference's column
    holding the referenced model's own key if it is set and the assigned id otherwise. *)
Theorem C66_insert : forall db a h, active_ok a -> exists trace,
  snd (insert db a h) = h ++ trace /\ inserted a trace (fst (insert db a h)).
Proof. intros. apply insert_runs. assumption. Qed.
Print Assumptions C66_insert.

(** A model of which two fields cannot be converted: nothing is executed and the first error is returned,
    though there is a model to be inserted before. *)
Example C66_unconverted_case :
  let bad := Active (s2l "entity") (Some (s2l "id"))
    [(s2l "id", None); (s2l "at", Some (Ok (VUInt 1))); (s2l "name", Some (Err (SInvalidValue TBytes))); (s2l "n", Some (Err SInfallible))] []
    [(s2l "map", RInsert (Active (s2l "map") (Some (s2l "id")) [(s2l "id", Some (Ok (VUInt 1)))] [] []))] in
  inserted bad [] (Err (EProtocol (PSerialize (SInvalidValue TBytes)))) /\
  (forall db h, insert db bad h = (Err (EProtocol (PSerialize (SInvalidValue TBytes))), h)).
Proof.
  cbv zeta. split; [|reflexivity]. apply ins_unconverted. exists [VUInt 1], (Err (SInvalidValue TBytes)), [Err SInfallible]. split; [reflexivity|].
  left. eauto.
Qed.

Definition nested : active :=
  Active (s2l "entity") (Some (s2l "id")) [(s2l "id", None); (s2l "name", Some (Ok (VBytes (s2l "e"))))]
    [Some [(s2l "position_x", Ok (VFloat 0)); (s2l "position_y", Ok (VFloat 0))]]
    [(s2l "map", RInsert (Active (s2l "map") (Some (s2l "id")) [(s2l "id", None); (s2l "name", Some (Ok (VBytes (s2l "m"))))] []
        [(s2l "world", RUnset)]));
     (s2l "owner", RInsert (Active (s2l "user") (Some (s2l "id")) [(s2l "id", Some (Ok (VUInt 3)))] [] []));
     (s2l "group", RSet (VUInt 9))].

Example C66_case :
  active_ok nested /\
  insert ok_db nested [] =
  (Ok 9, [(s2l "insert into `map` (`name`) values (?)", [VBytes (s2l "m")], Ok 7);
          (s2l "insert into `user` (`id`) values (?)", [VUInt 3], Ok 8);
          (s2l "insert into `entity` (`name`, `position_x`, `position_y`, `map`, `owner`, `group`) values (?, ?, ?, ?, ?, ?)",
           [VBytes (s2l "e"); VFloat 0; VFloat 0; VULong 7; VUInt 3; VUInt 9], Ok 9)]).
Proof.
  split.
  - repeat match goal with
    | |- active_ok _ => constructor
    | |- Forall _ [] => constructor
    | |- Forall _ (_ :: _) => constructor
    | |- NoDup [] => constructor
    | |- NoDup _ => cbn [map fst]; constructor
    | |- _ /\ _ => split
    | |- forall a, snd _ = RInsert a -> _ => intros ? E; try discriminate E; injection E as <-
    | |- forall l, Some _ = Some l -> _ => intros ? E; injection E as <-
    | |- ~ In _ _ => no_in
    end.
  - vm_compute. reflexivity.
Qed.

(** ** C70: inserting a whole model *)

(** Turning a model into an active model and inserting it, when that succeeds, stores the
    referenced models and then all the model's own values, leaving out exactly the primary key
    if the database assigns it. *)
Theorem C70_whole_model : forall db m x h id h',
  everywhere names_distinct m -> everywhere names_plain m -> fits m x ->
  insert db (into_active_model m x) h = (Ok id, h') ->
  exists trace, h' = h ++ trace /\ stored m x trace id.
Proof.
  intros db m x h id h' Hd Hp Hf E.
  destruct (insert_runs db _ (into_active_ok m x Hd Hp) h) as (trace & T1 & T2). rewrite E in T1, T2. cbn [fst snd] in *.
  exists trace. split; [exact T1|]. apply whole_model; assumption.
Qed.
Print Assumptions C70_whole_model.

(** If the database rejects nothing and every value converts, it succeeds. *)
Example C70_case :
  let x := Instance [Ok (VUInt 0); Ok (VBytes (s2l "e")); Ok (VFloat 0); Ok (VUInt 4); Ok VNull]
    [[Ok (VFloat 1); Ok (VFloat 2); Ok (VFloat 3)]]
    [Instance [Ok (VUInt 0); Ok (VBytes (s2l "m")); Ok (VUInt 2); Ok VNull] [] []] in
  fits entity_model x /\
  insert ok_db (into_active_model entity_model x) [] =
  (Ok 8, [(s2l "insert into `map` (`name`, `difficulty`, `last_played`) values (?, ?, ?)",
           [VBytes (s2l "m"); VUInt 2; VNull], Ok 7);
          (s2l "insert into `entity` (`name`, `heading`, `model`, `spawn_after`, `position_x`, `position_y`, `position_z`, `map`) values (?, ?, ?, ?, ?, ?, ?, ?)",
           [VBytes (s2l "e"); VFloat 0; VUInt 4; VNull; VFloat 1; VFloat 2; VFloat 3; VULong 7], Ok 8)]).
Proof.
  split.
  - constructor; [left; reflexivity|reflexivity|repeat constructor|].
    repeat constructor.
  - vm_compute. reflexivity.
Qed.
