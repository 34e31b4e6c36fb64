(** A whole program as in examples/hello_world.rs: connect, a first statement, models inserted and
    listed, disconnect. *)
From Coq Require Import ZArith List Bool.
From Verif Require Import Base Types Framing Packets Utf8 Handshake Auth Conn Models TypedModel ModelWire.
Import ListNotations.
Open Scope Z_scope.
Open Scope io_scope.

(** The models are inserted one after the other: examples/hello_world.rs:39-57 *)
Fixpoint insert_all (m : tmodel) (xs : list tinstance) : IO conn (list Z) :=
  match xs with
  | [] => ioret []
  | x :: xs =>
    id <- insert_on (into_active_model (untyped m) (instance_of m x)) ;;
    ids <- insert_all m xs ;;
    ioret (id :: ids)
  end.

(** All models (the query as UTF-8) of the table: examples/hello_world.rs:59-65; the result set is dropped. *)
Definition list_all (debug : bool) (f32 f64 : str -> option Z) (m : tmodel) : IO conn (list tinstance) :=
  rs <- query (utf8_encode (build_query (m_table (untyped m)) (model_columns (untyped m)))) ;;
  (fun c => let '(r, (c', _)) := collect (model_rows (text_rows debug f32 f64) m) (c, rs) in (r, c')).

(** The program after it has connected: examples/hello_world.rs:29-68.  [unwrap] ends it at the first
    error; the error is kept. *)
Definition work (debug : bool) (f32 f64 : str -> option Z) (create : bytes) (m : tmodel) (xs : list tinstance)
  : IO conn (list tinstance) :=
  execute_query create ;;;
  insert_all m xs ;;;
  users <- list_all debug f32 f64 m ;;
  disconnect ;;;
  ioret users.

(** examples/hello_world.rs:14-69, for any options, first statement, model and instances *)
Definition hello_world (pr : primitives) (debug : bool) (other : Z -> bool) (f32 f64 : str -> option Z) (secure : bool)
    (o : conn_options) (create : bytes) (m : tmodel) (xs : list tinstance) : IO stream (list tinstance) :=
  fun s =>
    match connect pr debug other f32 f64 secure o s with
    | (Err e, s') => (Err e, s')
    | (Panic, s') => (Panic, s')
    | (Ok c, _) => let '(r, c') := work debug f32 f64 create m xs c in (r, c_stream c')
    end.
