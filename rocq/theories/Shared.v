(** Connections used through a pool: src/pool/async_pool.rs and pool_item.rs together with the
    commands of src/connection/mod.rs. *)
From Coq Require Import ZArith List Bool Arith.
From Verif Require Import Base Types Framing Conn Spec_Conn Conn_proofs Fault_proofs Pool.
Import ListNotations.

(** The pool with its tasks, and the state of every connection by name; a connection that is yet
    to be made has the state it will have once made.  src/pool/async_pool.rs:13-18,
    src/connection/mod.rs:27-32. *)
Record shared : Type := mkShared { sh_sys : sys; sh_conns : nat -> conn }.

(** What can be observed of a step: a task has used a connection and seen a result
    (src/pool/pool_item.rs:18-22), or bytes have arrived from the server
    (src/connection/mod.rs:78-94). *)
Inductive event (A : Type) : Type :=
| EvUse (task connection : nat) (u : use) (y : seen A)
| EvArrive (connection : nat) (b : bytes).
Arguments EvUse {A}. Arguments EvArrive {A}.

(** A connection is changed in place through [deref_mut]: src/pool/pool_item.rs:18-22. *)
Definition set_conn (k : nat) (c : conn) (cs : nat -> conn) : nat -> conn :=
  fun n => if (n =? k)%nat then c else cs n.

(** One step: of the pool (src/pool/async_pool.rs:20-25, 72-112; nothing is done to a connection
    that is put back), of a task that holds a connection (pool_item.rs:18-22), or of the network. *)
Inductive shared_step {A} (decode : list column -> bytes -> res error A) (N : nat) :
  shared -> list (event A) -> shared -> Prop :=
| sh_pool : forall s s' cs, step true N s s' -> shared_step decode N (mkShared s cs) [] (mkShared s' cs)
| sh_use : forall s cs t k u y c', nth_error (s_tasks s) t = Some (Holding k) -> run_use decode u (cs k) = (y, c') ->
    shared_step decode N (mkShared s cs) [EvUse t k u y] (mkShared s (set_conn k c' cs))
| sh_arrive : forall s cs k b,
    shared_step decode N (mkShared s cs) [EvArrive k b] (mkShared s (set_conn k (arrive b (cs k)) cs)).

(** Any number of steps and what was observed: every interleaving of the users of a pool,
    src/pool/async_pool.rs:28-112. *)
Inductive shared_steps {A} (decode : list column -> bytes -> res error A) (N : nat) :
  shared -> list (event A) -> shared -> Prop :=
| sh_nil : forall s, shared_steps decode N s [] s
| sh_snoc : forall s1 s2 s3 l e, shared_steps decode N s1 l s2 -> shared_step decode N s2 e s3 ->
    shared_steps decode N s1 (l ++ e) s3.
