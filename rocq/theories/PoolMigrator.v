(** The migrator with the pool it takes its connections from, for any migrations, and the program of
    examples/migrations.  One task uses the pool. *)
From Coq Require Import String ZArith List Bool.
From Verif Require Import Base Types Utf8 Framing Packets Scramble Crypt Handshake Auth Options Rows Conn Migrator SimpleMigration MigratorWire PrimaryAddress.
Import ListNotations.
Open Scope Z_scope.
Open Scope io_scope.

(** [AsyncPool]: src/pool/async_pool.rs:13-18.  [pl_idle]: the queue [pool], oldest first; [pl_made]:
    [items]. *)
Record pool : Type := mkPool { pl_idle : list conn; pl_made : nat }.

(** [AsyncPool::new]: src/pool/async_pool.rs:28-35 *)
Definition pool_new : pool := mkPool [] 0.

(** [get]: src/pool/async_pool.rs:72-112.  [dial k]: what the [k]th [Connection::connect] gives.  A
    [get] that would wait for another task to return a connection does not come back; there is no other
    task, this is given as a panic. *)
Definition pool_get (N : nat) (dial : nat -> res error conn) : IO pool conn :=
  fun p =>
    match pl_idle p with
    | c :: r => (Ok c, mkPool r (pl_made p))
    | [] => if Nat.ltb (pl_made p) N then (dial (pl_made p), mkPool [] (S (pl_made p))) else (Panic, p)
    end.

(** [put]: src/pool/async_pool.rs:21-24 *)
Definition pool_put (c : conn) (p : pool) : pool := mkPool (pl_idle p ++ [c]) (pl_made p).

(** A use of a connection that is returned afterwards: src/pool/pool_item.rs:43-48, for example
    src/migrator/mod.rs:29 *)
Definition with_conn {A} (N : nat) (dial : nat -> res error conn) (f : IO conn A) : IO pool A :=
  c <- pool_get N dial ;;
  (fun p => let '(r, c') := f c in (r, pool_put c' p)).

(** The trait [Migration], for all migrations of the lists: src/migrator/migration.rs:10-20 *)
Record migrations : Type := mkMigs { mg_up : migration_record -> IO pool unit; mg_down : migration_record -> IO pool unit }.

(** The pool and the connection taken for the migrator's own statement: src/migrator/migrator_inner.rs:116, 136 *)
Definition world : Type := (pool * option conn)%type.

(** What the migrator awaits: src/migrator/migrator_inner.rs:110, 116, 134, 136 *)
Definition act (N : nat) (dial : nat -> res error conn) (ms : migrations) (a : action) : IO world unit :=
  fun '(p, held) =>
    match a with
    | Up v n => let '(r, p') := mg_up ms (v, n) p in (r, (p', held))
    | Down v n => let '(r, p') := mg_down ms (v, n) p in (r, (p', held))
    | Get =>
      match pool_get N dial p with
      | (Ok c, p') => (Ok tt, (p', Some c))
      | (Err e, p') => (Err e, (p', held))
      | (Panic, p') => (Panic, (p', held))
      end
    | Exec q =>
      match held with
      | None => (Panic, (p, None))
      | Some c => let '(r, c') := execute_text q c in (rmap (fun _ => tt) r, (pool_put c' p, None))
      end
    end.

(** The world after the actions of a history: src/migrator/migrator_inner.rs:97-142 *)
Fixpoint world_after (N : nat) (dial : nat -> res error conn) (ms : migrations) (h : list event) (w : world) : world :=
  match h with
  | [] => w
  | (a, _) :: r => world_after N dial ms r (snd (act N dial ms a w))
  end.

(** The environment of src/migrator/migrator_inner.rs:97-142 made of that world; [effect] as for
    [wire_oracle].  A panic is given as a failure; [ended] makes it a panic again. *)
Definition world_oracle (N : nat) (dial : nat -> res error conn) (ms : migrations) (effect : list event -> bool) (w : world) : oracle :=
  fun h a =>
    match fst (act N dial ms a (world_after N dial ms h w)) with
    | Ok _ => Done
    | Err e => Failed e (effect h)
    | Panic => Failed (EProtocol POutOfSync) (effect h)
    end.

(** How a run ended (src/migrator/migrator_inner.rs:97-142): a panic unwinds through the migrator. *)
Fixpoint ended (N : nat) (dial : nat -> res error conn) (ms : migrations) (h : list event) (w : world) : res error unit :=
  match h with
  | [] => Ok tt
  | (a, _) :: r => match act N dial ms a w with (Ok _, w') => ended N dial ms r w' | (x, _) => x end
  end.

(** A migrator opened on the pool and called: examples/migrations/main.rs:24-28, src/migrator/migrator_inner.rs:17-68
    and 97-164 *)
Definition migrate_on (N : nat) (dial : nat -> res error conn) (debug : bool) (f32 f64 : str -> option Z) (ms : migrations)
    (effect : list event -> bool) (lists : list migration_list) (ks : list call) : IO pool unit :=
  if debug && negb (ordered lists) then fun p => (Panic, p)
  else
    a <- with_conn N dial (migrator_open debug f32 f64 lists) ;;
    (fun p =>
       let '(_, (_, h)) := run_calls (world_oracle N dial ms effect (p, None)) lists ks (a, []) in
       (ended N dial ms h (p, None), fst (world_after N dial ms h (p, None)))).

(** ** examples/migrations *)

(** examples/migrations/migrations/v0_1_0.rs:9-13 *)
Definition create_user : str :=
  s2l "CREATE TABLE `user` (
        `id` INT UNSIGNED NOT NULL AUTO_INCREMENT PRIMARY KEY,
        `name` VARCHAR(255) NOT NULL,
        `email` VARCHAR(255)
    )".
(** examples/migrations/migrations/v0_1_0.rs:14 *)
Definition drop_user : str := s2l "DROP TABLE `user`".
(** examples/migrations/migrations/v0_1_0.rs:19-27 *)
Definition create_address : str :=
  s2l "CREATE TABLE `address` (
        `id` INT UNSIGNED NOT NULL AUTO_INCREMENT PRIMARY KEY,
        `user` INT UNSIGNED NOT NULL,
        `street` VARCHAR(255) NOT NULL,
        `number` VARCHAR(10) NOT NULL,
        `postal_code` VARCHAR(10) NOT NULL,
        `country` CHAR(2) NOT NULL,
        CONSTRAINT `address-user` FOREIGN KEY (`user`) REFERENCES `user`(`id`)
    )".
(** examples/migrations/migrations/v0_1_0.rs:28 *)
Definition drop_address : str := s2l "DROP TABLE `address`".

(** examples/migrations/migrations/mod.rs:6, v0_1_0.rs:3-6, v0_1_1.rs:5-8 and 14 *)
Definition example_lists : list migration_list :=
  [mkMigrations (mkVersion 0 1 0) [s2l "CreateUser"; s2l "CreateAddress"];
   mkMigrations (mkVersion 0 1 1) [s2l "UserAddPrimaryAddress"]].

(** [up] of a migration made by [simple_migration!]: src/migrator/mod.rs:29, 41 *)
Definition simple_action (N : nat) (dial : nat -> res error conn) (q : str) : IO pool unit :=
  with_conn N dial (execute_text q) ;;; ioret tt.

(** [up] of UserAddPrimaryAddress with the pool: examples/migrations/migrations/v0_1_1.rs:16-52.  The
    connections are returned in the opposite order. *)
Definition primary_address_on (N : nat) (dial : nat -> res error conn) (debug : bool) (f32 f64 : str -> option Z) : IO pool unit :=
  fun p =>
    match pool_get N dial p with
    | (Err e, p) => (Err e, p)
    | (Panic, p) => (Panic, p)
    | (Ok c1, p) =>
    match execute_query (utf8_encode add_query) c1 with
    | (Err e, c1) => (Err e, pool_put c1 p)
    | (Panic, c1) => (Panic, pool_put c1 p)
    | (Ok _, c1) =>
    match pool_get N dial p with
    | (Err e, p) => (Err e, pool_put c1 p)
    | (Panic, p) => (Panic, pool_put c1 p)
    | (Ok c2, p) =>
    match pool_get N dial p with
    | (Err e, p) => (Err e, pool_put c1 (pool_put c2 p))
    | (Panic, p) => (Panic, pool_put c1 (pool_put c2 p))
    | (Ok c3, p) =>
      let '(r, (c1, c2, c3)) := primary_address_rest debug f32 f64 (c1, c2, c3) in
      (r, pool_put c1 (pool_put c2 (pool_put c3 p)))
    end end end end.

(** examples/migrations/migrations/v0_1_0.rs:8-29, v0_1_1.rs:12-72 *)
Definition example_migrations (N : nat) (dial : nat -> res error conn) (debug : bool) (f32 f64 : str -> option Z) : migrations :=
  mkMigs
    (fun '(_, n) =>
       if list_eqb n (s2l "CreateUser") then simple_action N dial create_user
       else if list_eqb n (s2l "CreateAddress") then simple_action N dial create_address
       else primary_address_on N dial debug f32 f64)
    (fun '(_, n) =>
       if list_eqb n (s2l "CreateUser") then simple_action N dial drop_user
       else if list_eqb n (s2l "CreateAddress") then simple_action N dial drop_address
       else with_conn N dial primary_address_down).

(** examples/migrations/main.rs:22-29; [N] is 10 there (line 10) *)
Definition example_main (N : nat) (dial : nat -> res error conn) (debug : bool) (f32 f64 : str -> option Z)
    (effect : list event -> bool) : res error unit * pool :=
  migrate_on N dial debug f32 f64 (example_migrations N dial debug f32 f64) effect example_lists
    [CallTo (mkVersion 0 0 0); CallUp] pool_new.

(** [AsyncPoolContent::new] for [Connection]: src/connection/mod.rs:100-110.  [streams k]: the [k]th
    connected transport. *)
Definition dial_with (pr : primitives) (debug : bool) (other : Z -> bool) (f32 f64 : str -> option Z) (secure : bool) (o : conn_options)
    (streams : nat -> stream) (k : nat) : res error conn :=
  fst (connect pr debug other f32 f64 secure o (streams k)).
