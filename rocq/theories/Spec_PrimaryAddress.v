(** Specification for C112: what the migration of examples/migrations/migrations/v0_1_1.rs is to do
    on its three connections.  Uses no function of the model. *)
From Coq Require Import String ZArith List Bool Permutation.
From Verif Require Import Base Types Spec_Wire Spec_Packets Spec_Stmt Spec_Text Spec_Conn Spec_Program Spec_MigratorWire.
Import ListNotations.
Open Scope Z_scope.

Definition says_add (q : list Z) : Prop :=
  squeeze q = s2l "ALTER TABLE `user` ADD COLUMN `primary_address` INT UNSIGNED NULL, ADD CONSTRAINT `user-primary_address` FOREIGN KEY (`primary_address`) REFERENCES `address`(`id`)".
Definition says_remove (q : list Z) : Prop :=
  squeeze q = s2l "ALTER TABLE `user` DROP CONSTRAINT `user-primary_address`, DROP COLUMN `primary_address`".
Definition list_users : list Z := s2l "SELECT `id` FROM `user`".
Definition two_addresses : list Z := s2l "SELECT `id` FROM `address` WHERE `user` = ? LIMIT 2".
Definition set_address : list Z := s2l "UPDATE `user` SET `primary_address` = ? WHERE `id` = ?".

(** The bytes of a use of a connection, and of the answer to it. *)
Definition used (packets : use -> list (list Z)) (caps : Z) (u : use) (a : answer) (w wi : list Z) : Prop :=
  use_ok u /\ exists q pkts q', requests (packets u) w q /\ answer_packets caps a pkts /\ framed q pkts wi q'.

(** LIMIT 2: no more than two, any two if there are more. *)
Definition limited {A} (all shown : list A) : Prop :=
  exists left, Permutation all (shown ++ left) /\ length shown = Nat.min 2 (length all).

(** The two addresses (at most) of the user [u]. *)
Definition addresses_shown (packets : use -> list (list Z)) (caps id : Z) (all : value -> list value) (u : value) (w i : list Z) : Prop :=
  exists shown k cols rows, limited (all u) shown /\ Forall2 (bin_row (columns_sig cols)) (map (fun a => [a]) shown) rows /\
    used packets caps (UStmtQuery id 1 [u] k) (ARows cols rows) w i.

(** For each user in order: the addresses are asked for on the second connection; if there is just
    one, it is set on the third. *)
Inductive gone_through (packets : use -> list (list Z)) (caps2 caps3 id2 id3 : Z) (all : value -> list value)
  : list value -> list Z -> list Z -> list Z -> list Z -> Prop :=
| gt_nil : gone_through packets caps2 caps3 id2 id3 all [] [] [] [] []
| gt_other : forall u us w i w2 i2 w3 i3, length (all u) <> 1%nat -> addresses_shown packets caps2 id2 all u w i ->
    gone_through packets caps2 caps3 id2 id3 all us w2 i2 w3 i3 ->
    gone_through packets caps2 caps3 id2 id3 all (u :: us) (w ++ w2) (i ++ i2) w3 i3
| gt_one : forall u a us w i w2 i2 rows id status warnings msg st w' i' w3 i3, all u = [a] ->
    addresses_shown packets caps2 id2 all u w i ->
    used packets caps3 (UStmtExecute id3 2 [a; u]) (AOk rows id status warnings msg st) w' i' ->
    gone_through packets caps2 caps3 id2 id3 all us w2 i2 w3 i3 ->
    gone_through packets caps2 caps3 id2 id3 all (u :: us) (w ++ w2) (i ++ i2) (w' ++ w3) (i' ++ i3).

(** The table is changed and the users [us] are asked for on the first connection. *)
Definition listed_users (caps : Z) (add : list Z) (us : list value) (w i : list Z) : Prop :=
  exists rows id status warnings msg st w0 i0 cols w1 i1, exchange caps add (AOk rows id status warnings msg st) w0 i0 /\
    shown caps list_users cols (map (fun u => [u]) us) w1 i1 /\ w = w0 ++ w1 /\ i = i0 ++ i1.

Definition statement_made (packets : use -> list (list Z)) (caps : Z) (text : list Z) (id params : Z) (w i : list Z) : Prop :=
  exists columns, used packets caps (UPrepare text) (APrepared id params columns) w i.

(** ** The server refuses a statement *)

(** While the users are gone through: the question for the addresses, or the change of the user. *)
Inductive gone_refused (packets : use -> list (list Z)) (caps2 caps3 id2 id3 : Z) (all : value -> list value) (no : answer)
  : list value -> list Z -> list Z -> list Z -> list Z -> Prop :=
| gr_addresses : forall done u us w i w2 i2 w3 i3 k,
    gone_through packets caps2 caps3 id2 id3 all done w2 i2 w3 i3 ->
    used packets caps2 (UStmtQuery id2 1 [u] k) no w i ->
    gone_refused packets caps2 caps3 id2 id3 all no (done ++ u :: us) (w2 ++ w) (i2 ++ i) w3 i3
| gr_set : forall done u a us w i w2 i2 w' i' w3 i3,
    gone_through packets caps2 caps3 id2 id3 all done w2 i2 w3 i3 -> all u = [a] ->
    addresses_shown packets caps2 id2 all u w i ->
    used packets caps3 (UStmtExecute id3 2 [a; u]) no w' i' ->
    gone_refused packets caps2 caps3 id2 id3 all no (done ++ u :: us) (w2 ++ w) (i2 ++ i) (w3 ++ w') (i3 ++ i').

(** The bytes on the three connections up to the refusal. *)
Inductive run_refused (packets : use -> list (list Z)) (caps1 caps2 caps3 : Z) (add : list Z) (no : answer)
  : list Z -> list Z -> list Z -> list Z -> list Z -> list Z -> Prop :=
| rr_add : forall w i, exchange caps1 add no w i -> run_refused packets caps1 caps2 caps3 add no w i [] [] [] []
| rr_users : forall rows id status warnings msg st w i w' i', exchange caps1 add (AOk rows id status warnings msg st) w i ->
    exchange caps1 list_users no w' i' -> run_refused packets caps1 caps2 caps3 add no (w ++ w') (i ++ i') [] [] [] []
| rr_addresses : forall us w i w2 i2, listed_users caps1 add us w i -> used packets caps2 (UPrepare two_addresses) no w2 i2 ->
    run_refused packets caps1 caps2 caps3 add no w i w2 i2 [] []
| rr_set : forall us id2 w i w2 i2 w3 i3, listed_users caps1 add us w i -> statement_made packets caps2 two_addresses id2 1 w2 i2 ->
    used packets caps3 (UPrepare set_address) no w3 i3 -> run_refused packets caps1 caps2 caps3 add no w i w2 i2 w3 i3
| rr_loop : forall us id2 id3 all w i w2 i2 w3 i3 v2 j2 v3 j3, listed_users caps1 add us w i ->
    statement_made packets caps2 two_addresses id2 1 w2 i2 -> statement_made packets caps3 set_address id3 2 w3 i3 ->
    gone_refused packets caps2 caps3 id2 id3 all no us v2 j2 v3 j3 ->
    run_refused packets caps1 caps2 caps3 add no w i (w2 ++ v2) (i2 ++ j2) (w3 ++ v3) (i3 ++ j3).
