(** Specification of C109: what a client reports when the first packet of an answer, or the
    definition of a column, is anything at all. *)
From Coq Require Import ZArith List.
From Verif Require Import Base Types Spec_Wire Spec_Conv Spec_Packets Spec_Stmt Spec_Conn Spec_Report.
Import ListNotations.
Open Scope Z_scope.

Definition not_text (b : list Z) : Prop := forall s, ~ utf8_text s b.

Definition too_short : protocol_error := PIo IoUnexpectedEof.

(** Why a packet that starts with 0xFF is no error packet.  After the code, a "#" and a state of five
    bytes are to follow if [p41]; progress reports have the code 65535. *)
Inductive bad_error (p41 progress : bool) : list Z -> protocol_error -> Prop :=
| be_code : forall r, (length r < 2)%nat -> bad_error p41 progress (255 :: r) too_short
| be_progress : forall r, progress = true -> bad_error p41 progress (255 :: 255 :: 255 :: r) too_short
| be_no_state : forall a b, p41 = true -> bad_error p41 progress [255; a; b] too_short
| be_marker : forall a b x r, p41 = true -> ~ (a = 255 /\ b = 255 /\ progress = true) -> x <> 35 ->
    bad_error p41 progress (255 :: a :: b :: x :: r) (PInvalidPacket r)
| be_state_cut : forall a b r, p41 = true -> (length r < 5)%nat -> bad_error p41 progress (255 :: a :: b :: 35 :: r) too_short
| be_state : forall a b st m, p41 = true -> ~ (a = 255 /\ b = 255 /\ progress = true) -> length st = 5%nat -> not_text st ->
    bad_error p41 progress (255 :: a :: b :: 35 :: st ++ m) (PParse EUtf8)
| be_message : forall a b st m, p41 = true -> ~ (a = 255 /\ b = 255 /\ progress = true) -> length st = 5%nat -> not_text m ->
    bad_error p41 progress (255 :: a :: b :: 35 :: st ++ m) (PParse EFromUtf8)
| be_plain : forall a b m, p41 = false -> ~ (a = 255 /\ b = 255 /\ progress = true) -> not_text m ->
    bad_error p41 progress (255 :: a :: b :: m) (PParse EFromUtf8).

(** Uses that ask for no rows, and uses that ask [k] times for the next row. *)
Definition plain (u : use) : Prop :=
  match u with UExecute _ | UStmtExecute _ _ _ => True | _ => False end.
Definition asking (u : use) (k : nat) : Prop :=
  match u with UQuery _ n | UStmtQuery _ _ _ n => k = n | _ => False end.
Definition preparing (u : use) : Prop := match u with UPrepare _ => True | _ => False end.

(** What is reported of an answer whose first packet is [p], unless columns, rows or definitions follow. *)
Inductive reported {A} (caps : Z) : use -> list Z -> seen A -> Prop :=
| rp_done : forall u rows id status warnings msg st p, plain u ->
    ok_report (Z.testbit caps SESSION_TRACK_BIT) rows id status warnings msg st p ->
    reported caps u p (SDone rows id status warnings msg st)
| rp_no_rows : forall u k rows id status warnings msg st p, asking u k ->
    ok_report (Z.testbit caps SESSION_TRACK_BIT) rows id status warnings msg st p ->
    reported caps u p (SNoRows rows id status warnings msg st (repeat (Ok None) k))
| rp_cut : forall u r, ~ preparing u -> (forall rows id status warnings, ~ loose_ok rows id status warnings (0 :: r)) ->
    reported caps u (0 :: r) (SFailed (EProtocol too_short))
| rp_not_prepared : forall u r, preparing u -> (length r < 11)%nat ->
    reported caps u (0 :: r) (SFailed (EProtocol too_short))
| rp_nothing : forall u, plain u -> reported caps u [] (SFailed (EProtocol too_short))
| rp_error : forall u e p, err_report (Z.testbit caps PROTOCOL_41_BIT) (Z.testbit caps PROGRESS_BIT) e p ->
    reported caps u p (SFailed (EServer e))
| rp_bad_error : forall u e p, (forall x, ~ err_report (Z.testbit caps PROTOCOL_41_BIT) (Z.testbit caps PROGRESS_BIT) x p) ->
    bad_error (Z.testbit caps PROTOCOL_41_BIT) (Z.testbit caps PROGRESS_BIT) p e ->
    reported caps u p (SFailed (EProtocol e))
| rp_other : forall u x r, plain u \/ preparing u -> x <> 0 -> x <> 255 ->
    reported caps u (x :: r) (SFailed (EProtocol (PUnexpectedPacket (x :: r))))
| rp_no_statement : forall u, preparing u -> reported caps u [] (SFailed (EProtocol (PUnexpectedPacket []))).

(** Answers of one packet: any to a use that asks for no rows; to a question for rows or the
    preparation of a statement those that announce neither columns nor a statement. *)
Definition lone_answer (u : use) (p : list Z) : Prop :=
  plain u \/
  ((exists k, asking u k) /\ exists r, p = 0 :: r \/ p = 255 :: r) \/
  (preparing u /\ forall r, p = 0 :: r -> (length r < 11)%nat).

(** Why a packet is no column definition: not "def" at the beginning (the rest is shown), too short or a wrong
    length of the fixed part, a name that is no text, or a type that does not exist. *)
Inductive bad_column : list Z -> protocol_error -> Prop :=
| bc_catalog : forall n cat r, Z.of_nat (length cat) = n -> cat <> [100; 101; 102] ->
    bad_column (n :: cat ++ r) (PUnexpectedPacket r)
| bc_short : forall p, bad_column p too_short
| bc_text : forall pre b r, not_text b -> bad_column ([3; 100; 101; 102] ++ pre ++ Z.of_nat (length b) :: b ++ r) (PParse EUtf8)
| bc_type : forall pre n r, (forall t, ~ In (n, t) type_code) ->
    bad_column ([3; 100; 101; 102] ++ pre ++ n :: r) (PParse (EUnknownBitflags (FColumnType n))).

(** The announcement of [n] columns. *)
Definition announces (n : Z) (p : list Z) : Prop :=
  exists l r x t, p = l ++ r /\ p = x :: t /\ x <> 0 /\ x <> 251 /\ x <> 255 /\ loose_int n l.

(** The answer to a question for rows whose columns cannot all be read: [good] can, [bad] cannot; the
    packets after it look like rows. *)
Definition bad_columns (bad : list Z) (pkts : list (list Z)) : Prop :=
  exists n first cols good others status warnings last,
    pkts = [first] ++ good ++ [bad] ++ others ++ [last] /\
    announces n first /\ n * 104 <= 2 ^ 63 - 1 /\ Z.of_nat (length good) < n /\
    Forall2 (column_layout_by u8_text) cols good /\ (forall col, ~ column_layout_by u8_text col bad) /\
    Forall row_packet others /\ end_of_rows status warnings last /\
    Forall (Forall (fun b => 0 <= b < 256)) ([first] ++ good ++ [bad]).

Section Conversation.
  Context {A : Type} (decode : list column -> list Z -> res error A) (caps : Z).

  (** The answers considered: those of the documentation, answers of one packet whatever it is, and
      result sets with a bad column. *)
  Inductive answerable : use -> list (list Z) -> Prop :=
  | an_answer : forall u a y pkts, answer_packets caps a pkts -> expected decode u a y -> answerable u pkts
  | an_lone : forall u p, lone_answer u p -> Forall (fun b => 0 <= b < 256) p -> answerable u [p]
  | an_columns : forall u k bad pkts, asking u k -> bad_columns bad pkts -> answerable u pkts.

  (** What each of them shows. *)
  Inductive shown : use -> list (list Z) -> seen A -> Prop :=
  | sh_answer : forall u a y pkts, answer_packets caps a pkts -> expected decode u a y -> shown u pkts y
  | sh_lone : forall u p y, lone_answer u p -> reported caps u p y -> shown u [p] y
  | sh_columns : forall u k bad e pkts, asking u k -> bad_columns bad pkts -> bad_column bad e ->
      shown u pkts (SFailed (EProtocol e)).

  (** Uses and their answers, one after the other: [i] are the bytes of all answers, [o] those of all
      requests. *)
  Inductive conversation (packets : use -> list (list Z)) : list (use * list (list Z)) -> list Z -> list Z -> Prop :=
  | conversation_nil : conversation packets [] [] []
  | conversation_cons : forall u w q pkts wi q' l i o, use_ok u -> requests (packets u) w q ->
      answerable u pkts -> framed q pkts wi q' -> conversation packets l i o ->
      conversation packets ((u, pkts) :: l) (wi ++ i) (w ++ o).
End Conversation.
