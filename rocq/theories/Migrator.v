(** The migrator: src/migrator/migration.rs, migrator_inner.rs, model.rs.

    What the migrator awaits (migrations, the pool, statements) is an oracle that sees the
    whole history; the run records every awaited action with its outcome.  A dropped future
    or a panic inside a migration leaves a prefix of that record. *)
From Coq Require Import String ZArith List Bool.
From Verif Require Import Base Types Utf8 Framing ValueText Conversion.
Import ListNotations.
Open Scope Z_scope.
Open Scope io_scope.

(** ** Versions *)

(** src/migrator/migration.rs:37-38 (the components are u16; nothing depends on their range) *)
Record version : Type := mkVersion { v_0 : Z; v_1 : Z; v_2 : Z }.

(** [Ord::cmp]: src/migrator/migration.rs:40-52 *)
Definition version_cmp (a b : version) : comparison :=
  match v_0 a ?= v_0 b with
  | Eq => match v_1 a ?= v_1 b with
          | Eq => v_2 a ?= v_2 b
          | ord => ord
          end
  | ord => ord
  end.

(** [PartialOrd] through [cmp], operator >: src/migrator/migration.rs:54-58 *)
Definition version_gtb (a b : version) : bool :=
  match version_cmp a b with Gt => true | _ => false end.

(** operator >=: src/migrator/migration.rs:54-58 *)
Definition version_geb (a b : version) : bool :=
  match version_cmp a b with Lt => false | _ => true end.

(** derived [PartialEq]: src/migrator/migration.rs:37 *)
Definition version_eqb (a b : version) : bool :=
  (v_0 a =? v_0 b) && (v_1 a =? v_1 b) && (v_2 a =? v_2 b).

(** src/migrator/migration.rs:18-21.  A migration is represented by its name; its [up] and
    [down] are part of the oracle. *)
Record migration_list : Type := mkMigrations { ml_version : version; ml_names : list str }.

(** The loop of [ordered]: src/migrator/migration.rs:28-33 *)
Fixpoint ordered_from (prev : migration_list) (l : list migration_list) : bool :=
  match l with
  | [] => true
  | m :: r => if version_geb (ml_version prev) (ml_version m) then false else ordered_from m r
  end.

(** src/migrator/migration.rs:24-34 *)
Definition ordered (l : list migration_list) : bool :=
  match l with [] => true | m :: r => ordered_from m r end.

(** [Display]: src/migrator/migration.rs:60-64 *)
Definition version_display (v : version) : str :=
  s2l "(" ++ dec (v_0 v) ++ s2l "." ++ dec (v_1 v) ++ s2l "." ++ dec (v_2 v) ++ s2l ")".

(** ** The applied migrations *)

(** [HashMap<Version, Vec<String>>]: src/migrator/migrator_inner.rs:13; as a list of entries *)
Definition applied_map : Type := list (version * list str).

(** [HashMap::get]: used at src/migrator/migrator_inner.rs:75, 88 *)
Fixpoint map_get (a : applied_map) (v : version) : option (list str) :=
  match a with
  | [] => None
  | (w, names) :: r => if version_eqb w v then Some names else map_get r v
  end.

(** Writing through [HashMap::get_mut]: src/migrator/migrator_inner.rs:76, 135 *)
Fixpoint map_set (a : applied_map) (v : version) (names : list str) : applied_map :=
  match a with
  | [] => []
  | (w, old) :: r => if version_eqb w v then (w, names) :: r else (w, old) :: map_set r v names
  end.

(** src/migrator/migrator_inner.rs:74-81 *)
Definition insert_applied (a : applied_map) (v : version) (name : str) : applied_map :=
  match map_get a v with
  | Some l => map_set a v (l ++ [name])
  | None => (v, [name]) :: a
  end.

(** [iter().position(|x| x == name)]: src/migrator/migrator_inner.rs:89-91 *)
Fixpoint position (l : list str) (name : str) : option nat :=
  match l with
  | [] => None
  | x :: r => if list_eqb x name then Some O else option_map S (position r name)
  end.

(** src/migrator/migrator_inner.rs:83-95 *)
Definition get_applied (a : applied_map) (v : version) (name : str) : option (list str * nat) :=
  match map_get a v with
  | Some l => match position l name with Some i => Some (l, i) | None => None end
  | None => None
  end.

(** [Vec::swap_remove] (standard library): the last element takes the place of the removed
    one; used at src/migrator/migrator_inner.rs:135, 157 *)
Definition swap_remove (l : list str) (i : nat) : list str :=
  let last_ := last l [] in
  let rest := removelast l in
  if (i =? length rest)%nat then rest else firstn i rest ++ last_ :: skipn (S i) rest.

(** ** Reading the table *)

(** src/migrator/model.rs:11-15 *)
Definition migration_record : Type := (version * str)%type.

(** src/migrator/model.rs:54-60 *)
Record migration_mapping : Type := mkMigrationMapping {
  mm_0 : option nat; mm_1 : option nat; mm_2 : option nat; mm_name : option nat
}.

(** [set_mapping_inner]: src/migrator/model.rs:62-72 *)
Definition mm_set (m : migration_mapping) (c : column) (index : nat) : migration_mapping :=
  if list_eqb (col_org_name c) (s2l "version_0") then mkMigrationMapping (Some index) (mm_1 m) (mm_2 m) (mm_name m)
  else if list_eqb (col_org_name c) (s2l "version_1") then mkMigrationMapping (mm_0 m) (Some index) (mm_2 m) (mm_name m)
  else if list_eqb (col_org_name c) (s2l "version_2") then mkMigrationMapping (mm_0 m) (mm_1 m) (Some index) (mm_name m)
  else if list_eqb (col_org_name c) (s2l "name") then mkMigrationMapping (mm_0 m) (mm_1 m) (mm_2 m) (Some index)
  else m.

(** [from_columns] (src/model/from_query_result.rs:16-22) for this mapping, which ignores the
    table name *)
Fixpoint mm_from_columns (m : migration_mapping) (index : nat) (cols : list column) : migration_mapping :=
  match cols with
  | [] => m
  | c :: r => mm_from_columns (mm_set m c index) (S index) r
  end.

(** [row[mapping.field.ok_or(..)?].take()]: src/migrator/model.rs:31-34; the row keeps a null
    in that place *)
Definition take_cell (field : option nat) (name : str) (row : list value) : res parse_error (value * list value) :=
  match field with
  | None => Err (EMissingField name)
  | Some i =>
    match nth_error row i with
    | None => Panic
    | Some v => Ok (v, firstn i row ++ VNull :: skipn (S i) row)
    end
  end.

(** src/migrator/model.rs:25-51 *)
Definition mm_row (m : migration_mapping) (row : list value) : res parse_error migration_record :=
  rbind (take_cell (mm_0 m) (s2l "version_0") row) (fun '(c0, row) =>
  rbind (prim_try_into U16 c0) (fun v0 =>
  rbind (take_cell (mm_1 m) (s2l "version_1") row) (fun '(c1, row) =>
  rbind (prim_try_into U16 c1) (fun v1 =>
  rbind (take_cell (mm_2 m) (s2l "version_2") row) (fun '(c2, row) =>
  rbind (prim_try_into U16 c2) (fun v2 =>
  rbind (take_cell (mm_name m) (s2l "name") row) (fun '(c3, row) =>
  rbind (string_try_into c3) (fun name => Ok (mkVersion v0 v1 v2, name))))))))).

(** The search among the given migrations: src/migrator/migrator_inner.rs:46-57.  Only the
    first list of that version is searched. *)
Fixpoint known (lists : list migration_list) (v : version) (name : str) : bool :=
  match lists with
  | [] => false
  | m :: r =>
    if version_eqb (ml_version m) v then existsb (fun n => list_eqb n name) (ml_names m)
    else known r v name
  end.

(** [conn.query(..)] as the migrator sees it: an error, or columns, rows and possibly an error
    after them (src/connection/query.rs:15-22, src/connection/result_set.rs:74-120). *)
Definition answer_to_select : Type := res error (list column * list (list value) * option error).

(** The loop over the recorded migrations: src/migrator/migrator_inner.rs:44-62 *)
Fixpoint read_applied (lists : list migration_list) (m : migration_mapping) (rows : list (list value))
    (fin : option error) (a : applied_map) : res error applied_map :=
  match rows with
  | [] => match fin with None => Ok a | Some e => Err e end
  | row :: r =>
    rbind (rmap_err (fun e => EProtocol (PParse e)) (mm_row m row)) (fun '(v, name) =>
    if known lists v name then read_applied lists m r fin (insert_applied a v name) else Panic)
  end.

(** src/migrator/migrator_inner.rs:17-68.  [get], [exists_], [create] and [select] are what the
    pool and the server answer. *)
Definition migrator_new (debug : bool) (lists : list migration_list) (get : res error unit)
    (exists_ : answer_to_select) (create : res error unit) (select : answer_to_select) : res error applied_map :=
  if debug && negb (ordered lists) then Panic
  else
    rbind get (fun _ =>
    rbind exists_ (fun '(_, rows, fin) =>
    rbind (match fin with None => Ok tt | Some e => Err e end) (fun _ =>
    rbind (match rows with [] => create | _ => Ok tt end) (fun _ =>
    rbind select (fun '(cols, rows, fin) =>
    read_applied lists (mm_from_columns (mkMigrationMapping None None None None) 0 cols) rows fin []))))).

(** ** Running *)

(** What a run awaits: src/migrator/migrator_inner.rs:110, 116, 134, 136 *)
Inductive action : Type :=
| Up (v : version) (name : str)
| Down (v : version) (name : str)
| Get
| Exec (query : str).

(** How it ends (the results awaited in src/migrator/migrator_inner.rs:97-142); a failed statement
    may have taken effect on the server (lost answer). *)
Inductive outcome : Type :=
| Done
| Failed (e : error) (took_effect : bool).

(** One awaited action and its outcome: src/migrator/migrator_inner.rs:97-142 *)
Definition event : Type := (action * outcome)%type.
(** The environment of a run of src/migrator/migrator_inner.rs:97-142: any function of the history. *)
Definition oracle : Type := list event -> action -> outcome.
(** [Migrator] while it runs (src/migrator/migrator_inner.rs:10-14), with the history. *)
Definition mig_state : Type := (applied_map * list event)%type.

(** One [.await?]: src/migrator/migrator_inner.rs:110 *)
Definition await (w : oracle) (a : action) : IO mig_state unit :=
  fun '(m, h) =>
    let o := w h a in
    (match o with Done => Ok tt | Failed e _ => Err e end, (m, h ++ [(a, o)])).

(** src/migrator/migrator_inner.rs:116 *)
Definition insert_statement (v : version) (name : str) : str :=
  s2l "insert into `migrations` (`version_0`, `version_1`, `version_2`, `name`) values (" ++
  dec (v_0 v) ++ s2l ", " ++ dec (v_1 v) ++ s2l ", " ++ dec (v_2 v) ++ s2l ", " ++ [34] ++ name ++ [34] ++ s2l ")".

(** src/migrator/migrator_inner.rs:136 *)
Definition delete_statement (v : version) (name : str) : str :=
  s2l "delete from `migrations` where `version_0` = " ++ dec (v_0 v) ++
  s2l " and `version_1` = " ++ dec (v_1 v) ++ s2l " and `version_2` = " ++ dec (v_2 v) ++
  s2l " and `name` = " ++ [34] ++ name ++ [34].

(** The inner loop: src/migrator/migrator_inner.rs:102-118 *)
Fixpoint up_names (w : oracle) (v : version) (names : list str) : IO mig_state unit :=
  match names with
  | [] => fun s => (Ok tt, s)
  | n :: r =>
    (fun s =>
       match get_applied (fst s) v n with
       | Some _ => (Ok tt, s)
       | None =>
         (await w (Up v n) ;;;
          (fun '(m, h) => (Ok tt, (insert_applied m v n, h))) ;;;
          await w Get ;;;
          await w (Exec (insert_statement v n))) s
       end) ;;;
    up_names w v r
  end.

(** src/migrator/migrator_inner.rs:97-123 *)
Fixpoint up_to_version (w : oracle) (target : option version) (lists : list migration_list) : IO mig_state unit :=
  match lists with
  | [] => fun s => (Ok tt, s)
  | m :: r =>
    (if match target with Some t => version_gtb (ml_version m) t | None => false end
     then fun s => (Ok tt, s)
     else up_names w (ml_version m) (ml_names m)) ;;;
    up_to_version w target r
  end.

(** src/migrator/migrator_inner.rs:70-72 *)
Definition up (w : oracle) (lists : list migration_list) : IO mig_state unit := up_to_version w None lists.

(** src/migrator/migrator_inner.rs:134-136; [l] and [i] are what [get_applied] returned *)
Definition revert (w : oracle) (v : version) (n : str) (l : list str) (i : nat) : IO mig_state unit :=
  await w (Down v n) ;;;
  (fun '(m, h) => (Ok tt, (map_set m v (swap_remove l i), h))) ;;;
  await w Get ;;;
  await w (Exec (delete_statement v n)).

(** The inner loop: src/migrator/migrator_inner.rs:128-138; the names come reversed *)
Fixpoint down_names (w : oracle) (v : version) (names : list str) : IO mig_state unit :=
  match names with
  | [] => fun s => (Ok tt, s)
  | n :: r =>
    (fun s =>
       match get_applied (fst s) v n with
       | None => (Ok tt, s)
       | Some (l, i) => revert w v n l i s
       end) ;;;
    down_names w v r
  end.

(** The outer loop, lists reversed: src/migrator/migrator_inner.rs:126-140 *)
Fixpoint down_lists (w : oracle) (target : version) (lists : list migration_list) : IO mig_state unit :=
  match lists with
  | [] => fun s => (Ok tt, s)
  | m :: r =>
    (if version_gtb (ml_version m) target then down_names w (ml_version m) (rev (ml_names m))
     else fun s => (Ok tt, s)) ;;;
    down_lists w target r
  end.

(** src/migrator/migrator_inner.rs:125-142 *)
Definition down_to_version (w : oracle) (target : version) (lists : list migration_list) : IO mig_state unit :=
  down_lists w target (rev lists).

(** src/migrator/migrator_inner.rs:144-147 *)
Definition to_version (w : oracle) (target : version) (lists : list migration_list) : IO mig_state unit :=
  up_to_version w (Some target) lists ;;;
  down_to_version w target lists.

(** The inner loop: src/migrator/migrator_inner.rs:152-161; names reversed *)
Fixpoint one_down_names (w : oracle) (v : version) (names : list str) : IO mig_state bool :=
  match names with
  | [] => fun s => (Ok false, s)
  | n :: r =>
    fun s =>
      match get_applied (fst s) v n with
      | None => one_down_names w v r s
      | Some (l, i) => (revert w v n l i ;;; (fun s => (Ok true, s))) s
      end
  end.

(** The outer loop: src/migrator/migrator_inner.rs:151-163; lists reversed *)
Fixpoint one_down_lists (w : oracle) (lists : list migration_list) : IO mig_state bool :=
  match lists with
  | [] => fun s => (Ok false, s)
  | m :: r =>
    done <- one_down_names w (ml_version m) (rev (ml_names m)) ;;
    (if done : bool then (fun s => (Ok true, s)) else one_down_lists w r)
  end.

(** src/migrator/migrator_inner.rs:149-164 *)
Definition one_down (w : oracle) (lists : list migration_list) : IO mig_state bool :=
  one_down_lists w (rev lists).
