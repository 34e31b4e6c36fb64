(** A connection and a server that answers what it has received.

    In Conn.v the input of a connection is fixed beforehand.  Here it is what the peer sends because
    of what has been written: awaiting a read (src/connection/io.rs:53, 63) suspends the client until
    the peer has sent enough or nothing more will come. *)
From Coq Require Import ZArith List.
From Verif Require Import Base Types Framing Conn.
Import ListNotations.
Open Scope Z_scope.

(** The connection when [i] is all there is to read: src/connection/mod.rs:50-56 *)
Definition with_input (i : bytes) (c : conn) : conn :=
  mkConn (mkStream i (s_end (c_stream c)) (s_out (c_stream c)) (s_budget (c_stream c))) (c_seq c) (c_data c) (c_pending c).

(** What can be read while [run] is executed (the suspended reads of src/connection/io.rs:53, 63).
    [net out] is everything the peer sends if it is given [out]; [got] has been read before.  First
    there is what is left; then what the peer sends after what was written with the input so far. *)
Inductive readable {X} (net : bytes -> bytes) (run : conn -> X * conn) (got : bytes) (c : conn) : bytes -> Prop :=
| readable_first : readable net run got c (s_in (c_stream c))
| readable_next : forall i x c' more, readable net run got c i -> run (with_input i c) = (x, c') ->
    net (s_out (c_stream c')) = got ++ i ++ more -> readable net run got c (i ++ more).

(** [run] comes to its end [x]: nothing more is sent because of what it has written, so a read that
    is still waiting has failed (src/connection/timeout.rs:36-38).  [got'] has now been read. *)
Definition ends {X} (net : bytes -> bytes) (run : conn -> X * conn) (got : bytes) (c : conn) (x : X) (got' : bytes) (c' : conn) : Prop :=
  exists i, readable net run got c i /\ run (with_input i c) = (x, c') /\ net (s_out (c_stream c')) = got ++ i /\
    got ++ i = got' ++ s_in (c_stream c').

(** Several runs one after the other: an [async] function that awaits them in turn (e.g.
    src/migrator/migrator_inner.rs:20-60). *)
Inductive session {X} (net : bytes -> bytes) : list (conn -> X * conn) -> bytes -> conn -> list X -> conn -> Prop :=
| session_done : forall got c, session net [] got c [] c
| session_run : forall run runs got c x got' c' xs c'', ends net run got c x got' c' ->
    session net runs got' c' xs c'' -> session net (run :: runs) got c (x :: xs) c''.

(** A transport that passes bytes on in blocks of [n] until it is flushed, which AsyncWrite
    (src/connection/mod.rs:78-81) allows and no code of the crate does. *)
Definition in_blocks (n : Z) (out : bytes) : bytes := takeZ (lenZ out / n * n) out.
