(** Property C100: which structs cannot read the rows of their own query. *)
From Coq Require Import String ZArith List Bool Lia.
From Verif Require Import Base BaseFacts Types Models Spec_Text Spec_Model Spec_Route Model_proofs Route_proofs DeriveNames Spec_Names Spec_RawNames
  RawNames_proofs Properties_Model Properties_Mapping Properties_Names.
Import ListNotations.
Open Scope Z_scope.

(** With a raw field of a struct type, or a raw part, anywhere in the struct or in what it refers to, no row of
    the struct's own query can be read: a field has no column. *)
Theorem C100_unreadable_anywhere : forall w cols row, throughout ordinary_structs w -> raw_part w -> everywhere names_distinct (mapping_model w) ->
  describes (selected (m_table (query_model w)) (query_model w)) cols -> length row = length cols ->
  exists missing, In missing (map snd (fields_of (mapping_model w))) /\
    from_row (from_columns (mapping_model w) cols) row = Err (EMissingField missing).
Proof.
  intros w cols row O R D Ds L. pose proof (raw_unreadable w cols _ O R D Ds) as N.
  destruct (first_missing (mapping_model w) cols (fields_of (mapping_model w)) D) as [H|(b & x & a & E & B & X)]; [contradiction|].
  exists (snd x). split; [rewrite E, map_app; apply in_or_app; right; now left|]. exact (missing_exactly _ cols row b x a D L E B X).
Qed.
Print Assumptions C100_unreadable_anywhere.

(** So the rows are read exactly if there is none. *)
Theorem C100_readable_exactly : forall w cols row, throughout ordinary_structs w ->
  everywhere names_distinct (mapping_model w) -> everywhere names_distinct (query_model w) -> everywhere table_apart (query_model w) ->
  describes (selected (m_table (query_model w)) (query_model w)) cols -> length row = length cols ->
  (from_row (from_columns (mapping_model w) cols) row = Ok (row, repeat VNull (length row)) <-> throughout no_raw_structs w) /\
  ((exists missing, from_row (from_columns (mapping_model w) cols) row = Err (EMissingField missing)) <-> raw_part w).
Proof.
  intros w cols row O D1 D2 A Ds L.
  pose proof (fun R => C100_unreadable_anywhere w cols row O R D1 Ds L) as U.
  pose proof (fun R => C100_read_partial w cols row R D2 A Ds L) as K.
  destruct (raw_or_not w O) as [N|R].
  - specialize (K N). split; split; auto; [intros (x & E); congruence|]. intros R. destruct (U R) as (x & _ & E). congruence.
  - destruct (U R) as (x & _ & E). split; split; auto; [intros E'; congruence|]. intros _. eauto.
Qed.
Print Assumptions C100_readable_exactly.

(** A struct that refers to one with a raw part: its own fields have columns, those of the reference have not. *)
Definition trail_struct : written :=
  Written (s2l "trail") (s2l "id") true [plain "id"] [(plain "at", [plain "x"])] [(raw "mark", mark_struct)].

Example C100_exactly_case :
  throughout ordinary_structs trail_struct /\ raw_part trail_struct /\ ~ throughout no_raw_structs trail_struct /\
  everywhere names_distinct (mapping_model trail_struct) /\ everywhere names_distinct (query_model trail_struct) /\
  everywhere table_apart (query_model trail_struct) /\
  selected (s2l "trail") (query_model trail_struct) =
    [(s2l "trail", s2l "id"); (s2l "trail", s2l "at_x"); (s2l "trail.r#mark", s2l "id"); (s2l "trail.r#mark", s2l "r#in_x"); (s2l "trail.r#mark", s2l "r#in_y")] /\
  from_row (from_columns (mapping_model trail_struct) (map some_column (selected (s2l "trail") (query_model trail_struct))))
    [VUInt 1; VFloat 2; VUInt 3; VFloat 4; VFloat 5] = Err (EMissingField (s2l "in_x")) /\
  throughout ordinary_structs entity_struct /\ throughout no_raw_structs entity_struct.
Proof.
  assert (R : raw_part trail_struct).
  { eapply rp_referred; [now left|]. eapply (rp_here _ _ _ _ _ _ (raw "in") _ (plain "x")); [now left|now left|now left]. }
  splits.
  - repeat (constructor; cbn [fst snd]); try discriminate; try no_in.
  - exact R.
  - intros H. inversion H as [? ? ? ? ? ? _ H1]; subst. inversion H1 as [|? ? H2 _]; subst. inversion H2 as [? ? ? ? ? ? H3 _]; subst.
    inversion H3 as [|? ? (H4 & _) _]; subst. discriminate H4.
  - vm_compute. concrete.
  - vm_compute. concrete.
  - vm_compute. concrete.
  - reflexivity.
  - vm_compute. reflexivity.
  - repeat (constructor; cbn [fst snd]); try discriminate; try no_in.
  - repeat constructor.
Qed.
