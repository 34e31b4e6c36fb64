(** Properties C65 and C80 for all models and all columns: which column each field takes. *)
From Coq Require Import String ZArith List Bool.
From Verif Require Import Base BaseFacts Types Models Spec_Text Spec_Model Spec_Mapping Spec_Route Model_proofs Mapping_proofs Route_proofs Properties_Model Properties_Mapping.
Import ListNotations.
Open Scope Z_scope.

(** ** C80 *)

(** Whatever the tables and references are named and whatever columns the server describes: if each field
    has a column that goes to it, the row is read and each field has the value of the last such column. *)
Theorem C80_exactly : forall m cols row, everywhere names_distinct m -> length row = length cols ->
  (forall x, In x (fields_of m) -> exists c, In c cols /\ column_of m x c) ->
  exists vs left, from_row (from_columns m cols) row = Ok (vs, left) /\
    Forall2 (fun x v => exists i, takes m cols x i /\ nth_error row i = Some v) (fields_of m) vs.
Proof. exact read_exactly. Qed.
Print Assumptions C80_exactly.

(** If not, the error names the first field without one. *)
Theorem C80_missing_exactly : forall m cols row before x after, everywhere names_distinct m -> length row = length cols ->
  fields_of m = before ++ x :: after ->
  (forall y, In y before -> exists c, In c cols /\ column_of m y c) ->
  (forall c, In c cols -> ~ column_of m x c) ->
  from_row (from_columns m cols) row = Err (EMissingField (snd x)).
Proof. exact missing_exactly. Qed.
Print Assumptions C80_missing_exactly.

(** So a row is read exactly if each field has a column, and whether it is read is in the columns alone. *)
Theorem C80_readable : forall m cols row, everywhere names_distinct m -> length row = length cols ->
  ((exists r, from_row (from_columns m cols) row = Ok r) <-> forall x, In x (fields_of m) -> exists c, In c cols /\ column_of m x c).
Proof. exact readable_exactly. Qed.
Print Assumptions C80_readable.

(** A column goes to one field at most, so no value is read twice. *)
Theorem C80_one_field : forall m c x y, everywhere names_distinct m -> column_of m x c -> column_of m y c -> x = y.
Proof.
  intros m c [p n] [q k] D (A & G) (B & H). cbn [fst snd] in *. subst n. subst k. f_equal. exact (goes_unique _ _ _ _ _ D G H).
Qed.
Print Assumptions C80_one_field.

(** ** C65 *)

(** From the columns of the generated query every field takes its own value, whatever the row, exactly if
    each selected column goes to its own field. *)
Theorem C65_exactly : forall m cols, everywhere names_distinct m -> describes (selected (m_table m) m) cols ->
  ((forall row, length row = length cols -> from_row (from_columns m cols) row = Ok (row, repeat VNull (length row))) <->
   Forall2 (fun s x => goes m (fst s) (snd s) (fst x)) (selected (m_table m) m) (fields_of m)).
Proof. exact selection_exactly. Qed.
Print Assumptions C65_exactly.

(** A model whose reference has the name of its table, with the reference's column only: the field before
    has no column, since a column of the table goes to the reference. *)
Definition twin : model := Model (s2l "user") (s2l "id") true [s2l "id"] [] [(s2l "user", leaf "account")].

Example C65_exactly_case :
  everywhere names_distinct twin /\ ~ everywhere table_apart twin /\
  fields_of twin = [([], s2l "id"); ([s2l "user"], s2l "id")] /\
  goes twin (s2l "user") (s2l "id") [s2l "user"] /\ goes twin (s2l "user.user") (s2l "id") [s2l "user"] /\
  goes twin (s2l "x") (s2l "id") [] /\ goes twin (s2l "user.x") (s2l "id") [] /\
  goes twin (s2l "user.user.account.x") (s2l "id") [s2l "user"] /\
  ~ Forall2 (fun s x => goes twin (fst s) (snd s) (fst x)) (selected (m_table twin) twin) (fields_of twin) /\
  (** the table of another name, the same reference *)
  Forall2 (fun s x => goes (Model (s2l "users") (s2l "id") true [s2l "id"] [] [(s2l "user", leaf "account")]) (fst s) (snd s) (fst x))
    [(s2l "users", s2l "id"); (s2l "users.user", s2l "id")] (fields_of twin) /\
  (** a query with other names for the tables is read even for the twin *)
  from_row (from_columns twin [some_column (s2l "user.user", s2l "id"); some_column (s2l "u", s2l "id"); some_column (s2l "u", s2l "name")])
    [VULong 5; VULong 7; VULong 9] = Ok ([VULong 7; VULong 5], [VNull; VNull; VULong 9]).
Proof.
  assert (D : everywhere names_distinct twin) by (unfold twin, leaf; concrete).
  assert (G : forall table name path, route twin table name = Some path -> goes twin table name path) by (intros table name path; apply goes_route; exact D).
  split; [exact D|]. splits.
  - intros H. apply everywhere_inv in H. destruct H as [(_ & _ & H) _]. apply H. now left.
  - reflexivity.
  - apply G. reflexivity.
  - apply G. reflexivity.
  - apply G. reflexivity.
  - apply G. reflexivity.
  - apply G. reflexivity.
  - intros F. inversion F as [|? ? ? ? H _]; subst. cbn [fst snd] in H. apply goes_route in H; [|exact D]. vm_compute in H. discriminate.
  - assert (D' : everywhere names_distinct (Model (s2l "users") (s2l "id") true [s2l "id"] [] [(s2l "user", leaf "account")])) by (unfold leaf; concrete).
    repeat constructor; apply goes_route; try exact D'; reflexivity.
  - vm_compute. reflexivity.
Qed.

Example C80_exactly_case :
  let cols := [some_column (s2l "u", s2l "id"); some_column (s2l "user.user.more", s2l "id"); some_column (s2l "v", s2l "id")] in
  (forall x, In x (fields_of twin) -> exists c, In c cols /\ column_of twin x c) /\
  takes twin cols ([], s2l "id") 2 /\ takes twin cols ([s2l "user"], s2l "id") 1 /\
  from_row (from_columns twin cols) [VULong 1; VULong 2; VULong 3] = Ok ([VULong 3; VULong 2], [VULong 1; VNull; VNull]) /\
  (forall row, length row = 1%nat -> from_row (from_columns twin (firstn 1 cols)) row = Err (EMissingField (s2l "id"))).
Proof.
  cbv zeta. assert (D : everywhere names_distinct twin) by (unfold twin, leaf; concrete). splits.
  - intros x [<- | [<- | []]].
    + exists (some_column (s2l "v", s2l "id")). split; [right; right; now left|]. apply hit_column; [exact D | reflexivity].
    + exists (some_column (s2l "user.user.more", s2l "id")). split; [right; now left|]. apply hit_column; [exact D | reflexivity].
  - apply takes_last; [exact D | reflexivity].
  - apply takes_last; [exact D | reflexivity].
  - vm_compute. reflexivity.
  - intros row L. apply (C80_missing_exactly twin _ row [([], s2l "id")] ([s2l "user"], s2l "id") []); [exact D | exact L | reflexivity | |].
    + intros y [<- | []]. exists (some_column (s2l "u", s2l "id")). split; [now left|]. apply hit_column; [exact D | reflexivity].
    + intros c [<- | []] H. apply hit_column in H; [|exact D]. vm_compute in H. discriminate.
Qed.
