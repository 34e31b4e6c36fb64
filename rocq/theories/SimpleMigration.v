(** Migrations made by [simple_migration!] (src/migrator/mod.rs:10-46), and the migrator using
    them on a connection. *)
From Coq Require Import ZArith List Bool.
From Verif Require Import Base Types Utf8 Framing Packets Conn Migrator.
Import ListNotations.

(** The literals of the macro, for each migration: src/migrator/mod.rs:12 *)
Record simple_texts : Type := mkTexts { st_up : migration_record -> str; st_down : migration_record -> str }.

(** The statement an awaited action executes: [up] (src/migrator/mod.rs:20-30), [down]
    (mod.rs:32-42), the migrator's own (src/migrator/migrator_inner.rs:116, 136).  Taking a
    connection from the pool executes none. *)
Definition action_text (s : simple_texts) (a : action) : option str :=
  match a with
  | Up v n => Some (st_up s (v, n))
  | Down v n => Some (st_down s (v, n))
  | Exec q => Some q
  | Get => None
  end.

(** One statement, given as text: src/migrator/mod.rs:29, 41, src/connection/query.rs:23-26 *)
Definition execute_text (q : str) (c : conn) : res error ok_packet * conn := execute_query (utf8_encode q) c.

(** The connection after the actions of a history.  Nobody else uses the pool and every action
    returns its connection (src/pool/pool_item.rs:43-47), so all use one connection. *)
Fixpoint conn_after (s : simple_texts) (h : list event) (c : conn) : conn :=
  match h with
  | [] => c
  | (a, _) :: r => conn_after s r (match action_text s a with Some q => snd (execute_text q c) | None => c end)
  end.

(** The environment of src/migrator/migrator_inner.rs:97-142 made of that connection.  [effect]
    says whether a failed statement took effect on the server.  A panic of the connection would
    unwind through the migrator; it is given here as a failure. *)
Definition wire_oracle (s : simple_texts) (effect : list event -> bool) (c : conn) : oracle :=
  fun h a =>
    match action_text s a with
    | None => Done
    | Some q =>
      match fst (execute_text q (conn_after s h c)) with
      | Ok _ => Done
      | Err e => Failed e (effect h)
      | Panic => Failed (EProtocol POutOfSync) (effect h)
      end
    end.
