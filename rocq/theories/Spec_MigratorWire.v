(** Specification for C111: what a program that opens a migrator and calls it has to do, and the
    exchanges with the server. *)
From Coq Require Import String ZArith List Bool.
From Verif Require Import Base Types Spec_Wire Spec_Packets Spec_Stmt Spec_Text Spec_Conv Spec_Conn Migrator Spec_Migrate Spec_Program MigratorWire.
Import ListNotations.
Open Scope Z_scope.

(** ** What has to be done *)
Inductive step : Type :=
| Apply (m : migration_record)
| Remove (m : migration_record).

(** The steps of a call when the table holds [t], and what it holds afterwards. *)
Inductive call_steps (lists : list migration_list) : call -> list migration_record -> list step -> list migration_record -> Prop :=
| cs_up : forall t plan, up_plan lists None t plan -> call_steps lists CallUp t (map Apply plan) (t ++ plan)
| cs_up_to : forall v t plan, up_plan lists (Some v) t plan -> call_steps lists (CallUpTo v) t (map Apply plan) (t ++ plan)
| cs_down_to : forall v t plan t', down_plan lists v t plan -> sublist_of (fun m => ~ In m plan) t t' ->
    call_steps lists (CallDownTo v) t (map Remove plan) t'
| cs_to : forall v t s1 t1 s2 t2, call_steps lists (CallUpTo v) t s1 t1 -> call_steps lists (CallDownTo v) t1 s2 t2 ->
    call_steps lists (CallTo v) t (s1 ++ s2) t2
| cs_none : call_steps lists CallOneDown [] [] []
| cs_one : forall t earlier m later t', listed lists = earlier ++ m :: later -> In m t -> (forall x, In x later -> ~ In x t) ->
    sublist_of (fun x => x <> m) t t' -> call_steps lists CallOneDown t [Remove m] t'.

Inductive calls_steps (lists : list migration_list) : list call -> list migration_record -> list step -> list migration_record -> Prop :=
| css_nil : forall t, calls_steps lists [] t [] t
| css_cons : forall k ks t s1 t1 s2 t2, call_steps lists k t s1 t1 -> calls_steps lists ks t1 s2 t2 ->
    calls_steps lists (k :: ks) t (s1 ++ s2) t2.

(** The statements of the steps: for each the migration's own, then one that changes its record.
    Executed on a table holding [t] they leave [t']. *)
Inductive performed (bs : bool) (coll : list Z -> list Z -> bool) (own : step -> list Z)
  : list step -> list (list Z) -> list migration_record -> list migration_record -> Prop :=
| pf_nil : forall t, performed bs coll own [] [] t t
| pf_apply : forall m s q qs t t1 t', says_insert bs q m -> effect bs coll q t t1 -> performed bs coll own s qs t1 t' ->
    performed bs coll own (Apply m :: s) (own (Apply m) :: q :: qs) t t'
| pf_remove : forall m s q qs t t1 t', says_delete bs q m -> effect bs coll q t t1 -> performed bs coll own s qs t1 t' ->
    performed bs coll own (Remove m :: s) (own (Remove m) :: q :: qs) t t'.

(** ** Opening *)

(** White space only separates. *)
Fixpoint squeeze (l : list Z) : list Z :=
  match l with
  | [] => []
  | x :: r =>
    if (x =? 10) || (x =? 32)
    then match squeeze r with y :: r' => if y =? 32 then y :: r' else 32 :: y :: r' | [] => [32] end
    else x :: squeeze r
  end.

Definition is_create (q : list Z) : Prop :=
  squeeze q = s2l "create table `migrations` ( `version_0` smallint unsigned not null, `version_1` smallint unsigned not null, `version_2` smallint unsigned not null, `name` varchar(255) not null, `applied_at` datetime not null default current_timestamp, unique (`version_0`, `version_1`, `version_2`, `name`) )".

Definition columns_sig (cols : list column) : list (column_type * bool) :=
  map (fun c => (col_type c, has_flag (col_flags c) UNSIGNED_FLAG)) cols.

(** A query answered with these values as a text result set. *)
Definition shown (caps : Z) (q : list Z) (cols : list column) (vss : list (list value)) (w wi : list Z) : Prop :=
  exists rows, Forall2 (text_row (fun _ _ => False) (fun _ _ => False) (columns_sig cols)) vss rows /\
    Forall (fun c => col_type c <> CLongBlob) cols /\ exchange caps q (ARows cols rows) w wi.

Definition look : list Z :=
  s2l "select 1 from `information_schema`.`PARTITIONS` where `TABLE_NAME` = ""migrations"" and `TABLE_SCHEMA` = DATABASE()".
Definition list_records : list Z := s2l "select `version_0`, `version_1`, `version_2`, `name` from `migrations`".

(** The server is asked for the table; it is created, if there is none. *)
Definition table_made (caps : Z) (create : list Z) (w i : list Z) : Prop :=
  exists cols vss w0 i0 w1 i1, shown caps look cols vss w0 i0 /\
    (vss <> [] /\ w1 = [] /\ i1 = [] \/
     vss = [] /\ exists rows id status warnings msg st, exchange caps create (AOk rows id status warnings msg st) w1 i1) /\
    w = w0 ++ w1 /\ i = i0 ++ i1.

(** The bytes sent and received until the migrator is open on a table holding [t]. *)
Definition opened (caps : Z) (create : list Z) (t : list migration_record) (w i : list Z) : Prop :=
  exists w0 i0 cols vss w2 i2, table_made caps create w0 i0 /\ shown caps list_records cols vss w2 i2 /\
    select_answer t cols vss /\ w = w0 ++ w2 /\ i = i0 ++ i2.

(** The bytes sent until the server refuses one of the statements of the opening. *)
Inductive opening_refused (caps : Z) (create : list Z) (code : Z) (state : option (list Z)) (msg : list Z) : list Z -> list Z -> Prop :=
| or_look : forall w i, exchange caps look (AErr code state msg) w i -> opening_refused caps create code state msg w i
| or_create : forall cols w0 i0 w1 i1, shown caps look cols [] w0 i0 -> exchange caps create (AErr code state msg) w1 i1 ->
    opening_refused caps create code state msg (w0 ++ w1) (i0 ++ i1)
| or_list : forall w0 i0 w1 i1, table_made caps create w0 i0 -> exchange caps list_records (AErr code state msg) w1 i1 ->
    opening_refused caps create code state msg (w0 ++ w1) (i0 ++ i1).
