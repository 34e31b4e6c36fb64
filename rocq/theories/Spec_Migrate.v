(** What the migrator is for: plans over the listed migrations, and the `migrations` table as
    MySQL keeps it under the statements it is sent.  Independent of the model's functions. *)
From Coq Require Import String ZArith List Bool.
From Verif Require Import Base Types Spec_Wire Spec_Stmt Spec_Text Spec_Conv Migrator.
Import ListNotations.
Open Scope Z_scope.

(** Lexicographic order of the components. *)
Definition vlt (a b : version) : Prop :=
  v_0 a < v_0 b \/ (v_0 a = v_0 b /\ (v_1 a < v_1 b \/ (v_1 a = v_1 b /\ v_2 a < v_2 b))).

(** Each list's version is below all later ones. *)
Fixpoint increasing (vs : list version) : Prop :=
  match vs with [] => True | v :: r => Forall (vlt v) r /\ increasing r end.

(** All listed migrations in order. *)
Definition listed (lists : list migration_list) : list migration_record :=
  flat_map (fun m => map (fun n => (ml_version m, n)) (ml_names m)) lists.

(** [sublist_of P l out]: [out] is the elements of [l] satisfying [P], in order. *)
Inductive sublist_of {A} (P : A -> Prop) : list A -> list A -> Prop :=
| so_nil : sublist_of P [] []
| so_take : forall x l out, P x -> sublist_of P l out -> sublist_of P (x :: l) (x :: out)
| so_skip : forall x l out, ~ P x -> sublist_of P l out -> sublist_of P (x :: l) out.

(** A migration within the target version. *)
Definition within (target : option version) (m : migration_record) : Prop :=
  match target with None => True | Some t => ~ vlt t (fst m) end.

(** What an upward run has to execute. *)
Definition up_plan (lists : list migration_list) (target : option version) (t plan : list migration_record) : Prop :=
  sublist_of (fun m => within target m /\ ~ In m t) (listed lists) plan.

(** What a downward run has to revert. *)
Definition down_plan (lists : list migration_list) (target : version) (t plan : list migration_record) : Prop :=
  sublist_of (fun m => vlt target (fst m) /\ In m t) (rev (listed lists)) plan.

(** The migrations whose code a run started, and those it reverted. *)
Fixpoint started (h : list event) : list migration_record :=
  match h with
  | [] => []
  | (Up v n, _) :: r => (v, n) :: started r
  | _ :: r => started r
  end.
Fixpoint reverted (h : list event) : list migration_record :=
  match h with
  | [] => []
  | (Down v n, _) :: r => (v, n) :: reverted r
  | _ :: r => reverted r
  end.

(** ** The table *)
Section Table.
  (** Whether the server has backslash escapes in literals; the collation's equality. *)
  Variable backslash : bool.
  Variable coll : list Z -> list Z -> bool.

  (** Statement [q] inserts the record. *)
  Definition says_insert (q : list Z) (r : migration_record) : Prop :=
    exists a b c lit,
      q = s2l "insert into `migrations` (`version_0`, `version_1`, `version_2`, `name`) values (" ++
          a ++ s2l ", " ++ b ++ s2l ", " ++ c ++ s2l ", " ++ lit ++ s2l ")" /\
      nat_text (v_0 (fst r)) a /\ nat_text (v_1 (fst r)) b /\ nat_text (v_2 (fst r)) c /\
      lex_string backslash lit = Some (snd r, []).

  (** Statement [q] deletes the records of that version and name. *)
  Definition says_delete (q : list Z) (r : migration_record) : Prop :=
    exists a b c lit,
      q = s2l "delete from `migrations` where `version_0` = " ++ a ++ s2l " and `version_1` = " ++ b ++
          s2l " and `version_2` = " ++ c ++ s2l " and `name` = " ++ lit /\
      nat_text (v_0 (fst r)) a /\ nat_text (v_1 (fst r)) b /\ nat_text (v_2 (fst r)) c /\
      lex_string backslash lit = Some (snd r, []).

  (** Two records the unique key does not allow together. *)
  Definition clash (r s : migration_record) : Prop := fst r = fst s /\ coll (snd r) (snd s) = true.

  (** The effect of a statement that succeeds: name is varchar(255), components are smallint
      unsigned, the unique key is respected. *)
  Inductive effect : list Z -> list migration_record -> list migration_record -> Prop :=
  | ef_insert : forall q t r, says_insert q r ->
      u16 (v_0 (fst r)) -> u16 (v_1 (fst r)) -> u16 (v_2 (fst r)) -> (length (snd r) <= 255)%nat ->
      Forall (fun s => ~ clash s r) t -> effect q t (t ++ [r])
  | ef_delete : forall q t t' r, says_delete q r ->
      sublist_of (fun s => ~ clash s r) t t' -> effect q t t'.

  (** The table after a history.  Migrations themselves leave this table alone. *)
  Inductive table_after : list migration_record -> list event -> list migration_record -> Prop :=
  | ta_nil : forall t, table_after t [] t
  | ta_done : forall t q t' h t'', effect q t t' -> table_after t' h t'' ->
      table_after t ((Exec q, Done) :: h) t''
  | ta_lost : forall t q e t' h t'', effect q t t' -> table_after t' h t'' ->
      table_after t ((Exec q, Failed e true) :: h) t''
  | ta_failed : forall t q e h t'', table_after t h t'' ->
      table_after t ((Exec q, Failed e false) :: h) t''
  | ta_other : forall t a o h t'', (forall q, a <> Exec q) -> table_after t h t'' ->
      table_after t ((a, o) :: h) t''.

  (** Lists of migrations a table can hold: names fit, contain no double quote, and a backslash only
      before % or _ (where it stands for itself); no two names of a version are equal for the server. *)
  Definition plain_name (n : list Z) : Prop :=
    (length n <= 255)%nat /\ ~ In 34 n /\ forall a b, n = a ++ 92 :: b -> exists c, b = 37 :: c \/ b = 95 :: c.
  Definition version_small (v : version) : Prop := u16 (v_0 v) /\ u16 (v_1 v) /\ u16 (v_2 v).
  Definition storable (ms : list migration_record) : Prop :=
    Forall (fun m => plain_name (snd m) /\ version_small (fst m)) ms /\ ForallOrdPairs (fun r s => ~ clash r s /\ ~ clash s r) ms.
End Table.

(** ** Reading the table *)

(** The row of a record in a text result set of the select. *)
Definition record_row (r : migration_record) (row : list value) : Prop :=
  exists name, row = [VUShort (v_0 (fst r)); VUShort (v_1 (fst r)); VUShort (v_2 (fst r)); VBytes name] /\
    utf8_text (snd r) name.

(** The answer to the select when the table holds [t] (in any order of its rows). *)
Definition select_answer (t : list migration_record) (cols : list column) (rows : list (list value)) : Prop :=
  map col_org_name cols = [s2l "version_0"; s2l "version_1"; s2l "version_2"; s2l "name"] /\ Forall2 record_row t rows.

(** Column [i] is the last one of that name. *)
Definition last_named (name : list Z) (cols : list column) (i : nat) : Prop :=
  nth_error (map col_org_name cols) i = Some name /\
  forall j, (i < j)%nat -> nth_error (map col_org_name cols) j <> Some name.
