(** The migration of examples/migrations/migrations/v0_1_1.rs: a result set is read on one connection
    while statements are executed on two others. *)
From Coq Require Import String ZArith List Bool.
From Verif Require Import Base Types Utf8 Framing Packets Auth Rows Conn.
Import ListNotations.
Open Scope Z_scope.
Open Scope io_scope.

(** examples/migrations/migrations/v0_1_1.rs:25-27 *)
Definition add_query : str :=
  s2l "ALTER TABLE `user`
                    ADD COLUMN `primary_address` INT UNSIGNED NULL,
                    ADD CONSTRAINT `user-primary_address` FOREIGN KEY (`primary_address`) REFERENCES `address`(`id`)".

(** examples/migrations/migrations/v0_1_1.rs:34 *)
Definition users_query : str := s2l "SELECT `id` FROM `user`".
(** examples/migrations/migrations/v0_1_1.rs:36 *)
Definition addresses_query : str := s2l "SELECT `id` FROM `address` WHERE `user` = ? LIMIT 2".
(** examples/migrations/migrations/v0_1_1.rs:39 *)
Definition set_query : str := s2l "UPDATE `user` SET `primary_address` = ? WHERE `id` = ?".

(** [conn1] with [users], [conn2], [conn3]: examples/migrations/migrations/v0_1_1.rs:23-40.  The
    pool gives each to one holder (C54). *)
Definition trio : Type := ((conn * result_set) * conn) * conn.

(** A step on one of the connections; the others stay as they are: examples/migrations/migrations/v0_1_1.rs:42 *)
Definition on_users {A} (f : IO (conn * result_set) A) : IO trio A :=
  fun '(u, a, s) => let '(r, u') := f u in (r, (u', a, s)).
(** examples/migrations/migrations/v0_1_1.rs:43-45 *)
Definition on_addresses {A} (f : IO conn A) : IO trio A :=
  fun '(u, a, s) => let '(r, a') := f a in (r, (u, a', s)).
(** examples/migrations/migrations/v0_1_1.rs:46 *)
Definition on_set {A} (f : IO conn A) : IO trio A :=
  fun '(u, a, s) => let '(r, s') := f s in (r, (u, a, s')).

(** A use of a result set that is dropped afterwards: examples/migrations/migrations/v0_1_1.rs:43-48 *)
Definition dropping {A} (rs : result_set) (f : IO (conn * result_set) A) : IO conn A :=
  fun c => let '(r, (c', _)) := f (c, rs) in (r, c').

(** The first row, if there is no other: examples/migrations/migrations/v0_1_1.rs:44-45 *)
Definition only_row : IO (conn * result_set) (option (list value)) :=
  address <- rs_next bin_rows ;;
  match address with
  | None => ioret None
  | Some address =>
    other <- one bin_rows ;;
    ioret (match other with None => Some address | Some _ => None end)
  end.

(** The body of the loop: examples/migrations/migrations/v0_1_1.rs:43-48 *)
Definition set_primary (addresses_stmt set_stmt : prepared) (user : list value) : IO trio unit :=
  addresses <- on_addresses (stmt_query addresses_stmt user) ;;
  address <- on_addresses (dropping addresses only_row) ;;
  match address, user with
  | Some [address0], [user0] => on_set (stmt_execute set_stmt [address0; user0]) ;;; ioret tt
  | _, _ => ioret tt
  end.

(** examples/migrations/migrations/v0_1_1.rs:42-49; [fuel] as for [collect_loop] *)
Fixpoint users_loop (debug : bool) (f32 f64 : str -> option Z) (addresses_stmt set_stmt : prepared) (fuel : nat) : IO trio unit :=
  match fuel with
  | O => fun s => (Panic, s)
  | S fuel' =>
    user <- on_users (rs_next (text_rows debug f32 f64)) ;;
    match user with
    | None => ioret tt
    | Some user => set_primary addresses_stmt set_stmt user ;;; users_loop debug f32 f64 addresses_stmt set_stmt fuel'
    end
  end.

(** With the three connections: examples/migrations/migrations/v0_1_1.rs:33-50 *)
Definition primary_address_rest (debug : bool) (f32 f64 : str -> option Z) : conn * conn * conn -> res error unit * (conn * conn * conn) :=
  fun '(c1, c2, c3) =>
    match query (utf8_encode users_query) c1 with
    | (Err e, c1) => (Err e, (c1, c2, c3))
    | (Panic, c1) => (Panic, (c1, c2, c3))
    | (Ok users, c1) =>
      let '(r, ((c1, _), c2, c3)) :=
        (addresses_stmt <- on_addresses (prepare_statement (utf8_encode addresses_query)) ;;
         set_stmt <- on_set (prepare_statement (utf8_encode set_query)) ;;
         users_loop debug f32 f64 addresses_stmt set_stmt (rounds c1)) ((c1, users), c2, c3) in
      (r, (c1, c2, c3))
    end.

(** [up]: examples/migrations/migrations/v0_1_1.rs:16-52.  [got]: what becomes of the second and the
    third [pool.get()] (lines 30-31); the first has given the first connection. *)
Definition primary_address_up (debug : bool) (f32 f64 : str -> option Z) (got : res error unit)
  : conn * conn * conn -> res error unit * (conn * conn * conn) :=
  fun '(c1, c2, c3) =>
    match execute_query (utf8_encode add_query) c1 with
    | (Err e, c1) => (Err e, (c1, c2, c3))
    | (Panic, c1) => (Panic, (c1, c2, c3))
    | (Ok _, c1) =>
    match got with
    | Err e => (Err e, (c1, c2, c3))
    | Panic => (Panic, (c1, c2, c3))
    | Ok _ => primary_address_rest debug f32 f64 (c1, c2, c3)
    end end.

(** [down]: examples/migrations/migrations/v0_1_1.rs:63-65 *)
Definition remove_query : str :=
  s2l "ALTER TABLE `user`
                    DROP CONSTRAINT `user-primary_address`,
                    DROP COLUMN `primary_address`".

(** [down] with a connection from the pool: examples/migrations/migrations/v0_1_1.rs:54-70 *)
Definition primary_address_down : IO conn unit :=
  execute_query (utf8_encode remove_query) ;;; ioret tt.
