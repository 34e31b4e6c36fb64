(** A server that keeps the long data of its statements (C120).  Independent of the model's functions. *)
From Coq Require Import ZArith List Bool.
From Verif Require Import Types Spec_Wire Spec_Stmt Spec_Conn.
Import ListNotations.
Open Scope Z_scope.

(** The long data received so far: statement, parameter, data. *)
Definition memory := list (Z * (nat * list Z)).

(** What is held for the parameters of statement [id]. *)
Definition held (m : memory) (id : Z) : nat -> option (list Z) :=
  srv_long (map snd (filter (fun x => fst x =? id) m)).

(** An execution uses up the long data of its statement. *)
Definition used_up (m : memory) (id : Z) : memory := filter (fun x => negb (fst x =? id)) m.

(** The executions a server performs for the packets [ps], each with the values it takes for the
    parameters; [params] is the number of parameters of each statement.  Commands other than
    COM_STMT_SEND_LONG_DATA (24) and COM_STMT_EXECUTE (23) do not touch the long data. *)
Fixpoint server_executes (params : Z -> nat) (m : memory) (ps : list (list Z))
  : option (list (Z * list value) * memory) :=
  match ps with
  | [] => Some ([], m)
  | p :: r =>
    let? (cmd, l) := srv_byte p in
    if cmd =? 24 then
      let? (id, i, d) := srv_long_data p in
      server_executes params (m ++ [(id, (Z.to_nat i, d))]) r
    else if cmd =? 23 then
      let? (id, _) := srv_int 4 true l in
      let? (_, _, _, values) := srv_execute (params id) (held m id) p in
      let? (ex, m') := server_executes params (used_up m id) r in
      Some ((id, values) :: ex, m')
    else server_executes params m r
  end.

(** The executions that have been asked for. *)
Fixpoint executions (us : list use) : list (Z * list value) :=
  match us with
  | [] => []
  | UStmtQuery id _ values _ :: r | UStmtExecute id _ values :: r => (id, values) :: executions r
  | _ :: r => executions r
  end.

(** The same statement with the same values. *)
Definition same_execution (a b : Z * list value) : Prop :=
  fst a = fst b /\ Forall2 same_value (snd a) (snd b).

(** The statement used has as many parameters as the server says. *)
Definition known_params (params : Z -> nat) (u : use) : Prop :=
  match u with
  | UStmtQuery id n _ _ | UStmtExecute id n _ => Z.of_nat (params id) = n
  | _ => True
  end.

Definition failed {A} (x : seen A) : Prop := (exists e, x = SFailed e) \/ x = SPanic.

(** [given] are some of the uses [us], in the same order, among them every one that has not failed;
    [xs] is what the uses came to. *)
Inductive performed {A} : list use -> list (seen A) -> list use -> Prop :=
| performed_nil : performed [] [] []
| performed_take : forall u given x xs us, performed given xs us -> performed (u :: given) (x :: xs) (u :: us)
| performed_skip : forall u given x xs us, failed x -> performed given xs us -> performed given (x :: xs) (u :: us).
