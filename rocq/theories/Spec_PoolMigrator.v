(** Specification for C113: a migrator that takes its connections from a pool, for any migrations, and
    the program of examples/migrations. *)
From Coq Require Import String ZArith List Bool.
From Verif Require Import Base Types Spec_Wire Spec_Packets Spec_Stmt Spec_Text Spec_Conv Spec_Conn Conn Migrator Spec_Migrate Spec_Program
  MigratorWire Spec_MigratorWire Spec_PrimaryAddress PoolMigrator.
Import ListNotations.
Open Scope Z_scope.

(** ** The pool *)

(** The connection returned first is given first; a new one is made only if none is there. *)
Inductive taken (N : nat) (dial : nat -> res error conn) : pool -> res error conn -> pool -> Prop :=
| tk_idle : forall c r k, taken N dial (mkPool (c :: r) k) (Ok c) (mkPool r k)
| tk_new : forall k, (k < N)%nat -> taken N dial (mkPool [] k) (dial k) (mkPool [] (S k))
| tk_never : forall k, (N <= k)%nat -> taken N dial (mkPool [] k) Panic (mkPool [] k).

Definition returned (c : conn) (p : pool) : pool := mkPool (pl_idle p ++ [c]) (pl_made p).

(** How many connections are in use: made, and neither in the pool nor failed when they were made. *)
Definition in_use (dial : nat -> res error conn) (p : pool) : Z :=
  Z.of_nat (pl_made p) - Z.of_nat (length (pl_idle p)) -
  Z.of_nat (length (filter (fun k => match dial k with Ok _ => false | _ => true end) (seq 0 (pl_made p)))).

(** ** The migrator *)

(** The statements that change the records, and the table they lead to. *)
Inductive recorded (bs : bool) (coll : list Z -> list Z -> bool)
  : list step -> list (list Z) -> list migration_record -> list migration_record -> Prop :=
| rc_nil : forall t, recorded bs coll [] [] t t
| rc_apply : forall m s q qs t t1 t', says_insert bs q m -> effect bs coll q t t1 -> recorded bs coll s qs t1 t' ->
    recorded bs coll (Apply m :: s) (q :: qs) t t'
| rc_remove : forall m s q qs t t1 t', says_delete bs q m -> effect bs coll q t t1 -> recorded bs coll s qs t1 t' ->
    recorded bs coll (Remove m :: s) (q :: qs) t t'.

(** [own s p r p']: what the migration of the step does with the pool.  For each step in order: the
    migration itself, and if it has succeeded the statement [q] on a connection from the pool, which is
    returned.  The first failure ends it. *)
Inductive ran (N : nat) (dial : nat -> res error conn) (own : step -> pool -> res error unit -> pool -> Prop)
  : list (step * list Z) -> pool -> res error unit -> pool -> Prop :=
| rn_nil : forall p, ran N dial own [] p (Ok tt) p
| rn_own : forall s q l p r p', own s p r p' -> r <> Ok tt -> ran N dial own ((s, q) :: l) p r p'
| rn_error : forall s q l p p1 e p2, own s p (Ok tt) p1 -> taken N dial p1 (Err e) p2 -> ran N dial own ((s, q) :: l) p (Err e) p2
| rn_panic : forall s q l p p1 p2, own s p (Ok tt) p1 -> taken N dial p1 Panic p2 -> ran N dial own ((s, q) :: l) p Panic p2
| rn_failed : forall s q l p p1 c p2 b e c', own s p (Ok tt) p1 -> taken N dial p1 (Ok c) p2 -> utf8_text q b ->
    execute_query b c = (Err e, c') -> ran N dial own ((s, q) :: l) p (Err e) (returned c' p2)
| rn_broken : forall s q l p p1 c p2 b c', own s p (Ok tt) p1 -> taken N dial p1 (Ok c) p2 -> utf8_text q b ->
    execute_query b c = (Panic, c') -> ran N dial own ((s, q) :: l) p Panic (returned c' p2)
| rn_next : forall s q l p p1 c p2 b x c' r p', own s p (Ok tt) p1 -> taken N dial p1 (Ok c) p2 -> utf8_text q b ->
    execute_query b c = (Ok x, c') -> ran N dial own l (returned c' p2) r p' -> ran N dial own ((s, q) :: l) p r p'.

(** ** The program of examples/migrations *)
Definition user_made : migration_record := (mkVersion 0 1 0, s2l "CreateUser").
Definition address_made : migration_record := (mkVersion 0 1 0, s2l "CreateAddress").
Definition primary_added : migration_record := (mkVersion 0 1 1, s2l "UserAddPrimaryAddress").
Definition example_records : list migration_record := [user_made; address_made; primary_added].

(** The statements of the migrations, but for the last one's [up] (C112). *)
Definition example_says (own : step -> list Z) : Prop :=
  squeeze (own (Apply user_made)) = s2l "CREATE TABLE `user` ( `id` INT UNSIGNED NOT NULL AUTO_INCREMENT PRIMARY KEY, `name` VARCHAR(255) NOT NULL, `email` VARCHAR(255) )" /\
  squeeze (own (Apply address_made)) = s2l "CREATE TABLE `address` ( `id` INT UNSIGNED NOT NULL AUTO_INCREMENT PRIMARY KEY, `user` INT UNSIGNED NOT NULL, `street` VARCHAR(255) NOT NULL, `number` VARCHAR(10) NOT NULL, `postal_code` VARCHAR(10) NOT NULL, `country` CHAR(2) NOT NULL, CONSTRAINT `address-user` FOREIGN KEY (`user`) REFERENCES `user`(`id`) )" /\
  own (Remove user_made) = s2l "DROP TABLE `user`" /\ own (Remove address_made) = s2l "DROP TABLE `address`" /\
  says_remove (own (Remove primary_added)).

(** The statements are sent and executed one after the other. *)
Inductive executed (caps : Z) : list (list Z) -> list Z -> list Z -> Prop :=
| ed_nil : executed caps [] [] []
| ed_cons : forall q b qs rows id status warnings msg st w i w' i', utf8_text q b ->
    exchange caps b (AOk rows id status warnings msg st) w i -> executed caps qs w' i' ->
    executed caps (q :: qs) (w ++ w') (i ++ i').
