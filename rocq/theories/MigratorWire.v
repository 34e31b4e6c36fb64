(** The migrator opened and used on a connection: src/migrator/migrator_inner.rs, as in
    examples/migrations/main.rs.  Nobody else uses the pool, so one connection serves all
    (SimpleMigration.v). *)
From Coq Require Import String ZArith List Bool.
From Verif Require Import Base Types Utf8 Framing Packets Auth Rows Conn Migrator SimpleMigration.
Import ListNotations.
Open Scope Z_scope.
Open Scope io_scope.

(** src/migrator/migrator_inner.rs:24 *)
Definition exists_query : str :=
  s2l "select 1 from `information_schema`.`PARTITIONS` where `TABLE_NAME` = ""migrations"" and `TABLE_SCHEMA` = DATABASE()".

(** src/migrator/migrator_inner.rs:27-34 *)
Definition create_query : str :=
  s2l "create table `migrations` (
                    `version_0` smallint unsigned not null,
                    `version_1` smallint unsigned not null,
                    `version_2` smallint unsigned not null,
                    `name` varchar(255) not null,
                    `applied_at` datetime not null default current_timestamp,
                    unique (`version_0`, `version_1`, `version_2`, `name`)
                )".

(** src/migrator/migrator_inner.rs:41 *)
Definition select_query : str := s2l "select `version_0`, `version_1`, `version_2`, `name` from `migrations`".

(** The rows of [query::<MigrationModel>]: src/connection/result_set.rs:82-86, src/migrator/model.rs:25-51 *)
Definition migration_rows (debug : bool) (f32 f64 : str -> option Z) (cols : list column) (packet : bytes)
  : res error migration_record :=
  rbind (text_rows debug f32 f64 cols packet) (fun row =>
  rmap_err (fun e => EProtocol (PParse e)) (mm_row (mm_from_columns (mkMigrationMapping None None None None) 0 cols) row)).

(** The loop over the recorded migrations: src/migrator/migrator_inner.rs:44-62 *)
Fixpoint applied_loop (debug : bool) (f32 f64 : str -> option Z) (lists : list migration_list) (fuel : nat) (a : applied_map)
  : IO (conn * result_set) applied_map :=
  match fuel with
  | O => fun s => (Panic, s)
  | S fuel' =>
    row <- rs_next (migration_rows debug f32 f64) ;;
    match row with
    | None => ioret a
    | Some (v, name) =>
      if known lists v name then applied_loop debug f32 f64 lists fuel' (insert_applied a v name)
      else fun s => (Panic, s)
    end
  end.

(** [Migrator::new] with a connection from the pool: src/migrator/migrator_inner.rs:17-68; the
    result sets are dropped. *)
Definition migrator_open (debug : bool) (f32 f64 : str -> option Z) (lists : list migration_list) : IO conn applied_map :=
  if debug && negb (ordered lists) then fun c => (Panic, c)
  else
    rs <- query (utf8_encode exists_query) ;;
    rows <- (fun c => let '(r, (c', _)) := collect (text_rows debug f32 f64) (c, rs) in (r, c')) ;;
    (match rows with
     | [] => execute_query (utf8_encode create_query) ;;; ioret tt
     | _ => ioret tt
     end) ;;;
    rs <- query (utf8_encode select_query) ;;
    (fun c => let '(r, (c', _)) := applied_loop debug f32 f64 lists (rounds c) [] (c, rs) in (r, c')).

(** A call on an open migrator: src/migrator/migrator_inner.rs:70-72, 97-164 *)
Inductive call : Type :=
| CallUp
| CallUpTo (v : version)
| CallDownTo (v : version)
| CallTo (v : version)
| CallOneDown.

(** src/migrator/migrator_inner.rs:70-72, 97-164; whether [one_down] found a migration is ignored *)
Definition run_call (w : oracle) (lists : list migration_list) (k : call) : IO mig_state unit :=
  match k with
  | CallUp => up w lists
  | CallUpTo v => up_to_version w (Some v) lists
  | CallDownTo v => down_to_version w v lists
  | CallTo v => to_version w v lists
  | CallOneDown => one_down w lists ;;; (fun s => (Ok tt, s))
  end.

(** One call after the other, until one fails: examples/migrations/main.rs:27-28 *)
Fixpoint run_calls (w : oracle) (lists : list migration_list) (ks : list call) : IO mig_state unit :=
  match ks with
  | [] => fun s => (Ok tt, s)
  | k :: ks => run_call w lists k ;;; run_calls w lists ks
  end.

(** examples/migrations/main.rs:24-28, for any calls.  [unwrap] ends it at the first error; the
    error is kept. *)
Definition migrate (debug : bool) (f32 f64 : str -> option Z) (texts : simple_texts) (effect : list event -> bool)
    (lists : list migration_list) (ks : list call) : IO conn unit :=
  a <- migrator_open debug f32 f64 lists ;;
  (fun c => let '(r, (_, h)) := run_calls (wire_oracle texts effect c) lists ks (a, []) in (r, conn_after texts h c)).
