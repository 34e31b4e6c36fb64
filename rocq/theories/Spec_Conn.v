(** Specification of the command phase: what a server sends in answer to a command (MySQL
    documentation, "Command Phase", with DEPRECATE_EOF), and what a client is to see. *)
From Coq Require Import ZArith List.
From Verif Require Import Base Types Spec_Wire Spec_Packets Spec_Stmt.
Import ListNotations.
Open Scope Z_scope.

(** Consecutive packets, numbered on. *)
Inductive framed : Z -> list (list Z) -> list Z -> Z -> Prop :=
| framed_nil : forall q, framed q [] [] q
| framed_cons : forall q p w q' ps w' q'', frames q p w q' -> framed q' ps w' q'' ->
    framed q (p :: ps) (w ++ w') q''.

(** Requests: each packet is numbered from 0. *)
Inductive requests : list (list Z) -> list Z -> Z -> Prop :=
| requests_one : forall p w q, frames 0 p w q -> requests [p] w q
| requests_more : forall p w q ps w' q', frames 0 p w q -> requests ps w' q' -> requests (p :: ps) (w ++ w') q'.

(** The server's reading of a parameter: the value itself; there is no negative zero time. *)
Inductive same_value : value -> value -> Prop :=
| sv_same : forall v, same_value v v
| sv_zero : same_value (VTime true 0 0 0 0 0) (VTime false 0 0 0 0 0).

(** The packets that execute a statement: as the server reads them (Spec_Stmt), optional long
    data followed by the execution with cursor type 0 and one iteration. *)
Definition stmt_request (id : Z) (values : list value) (ps : list (list Z)) : Prop :=
  exists longs exec long values',
    ps = longs ++ [exec] /\
    ((longs = [] /\ forall i, long i = None) \/
     exists pieces, srv_receive id longs = Some pieces /\ forall i, long i = srv_long pieces i) /\
    srv_execute (length values) long exec = Some (id, 0, 1, values') /\ Forall2 same_value values values'.

Definition MORE_RESULTS_BIT : Z := 3.
Definition DEPRECATE_EOF_BIT : Z := 24.

(** The packet that ends a result set. *)
Definition end_of_rows (status warnings : Z) (pkt : list Z) : Prop :=
  known_status status /\ 0 <= warnings < 65536 /\
  pkt = [254; 0; 0] ++ wire_uint 2 status ++ wire_uint 2 warnings.

(** A row packet cannot be taken for the end or an error: text rows start with a length or 0xFB
    (0xFE only before a string of 16 MiB or more), binary rows with 0x00. *)
Definition row_packet (p : list Z) : Prop :=
  exists x r, p = x :: r /\ x <> 255 /\ (x = 254 -> 2 ^ 24 - 1 <= Z.of_nat (length p)).

(** Answers to commands. *)
Inductive answer : Type :=
| AOk (rows id status warnings : Z) (msg st : list Z)
| AErr (code : Z) (state : option (list Z)) (msg : list Z)
| ARows (cols : list column) (rows : list (list Z))
| APrepared (id params columns : Z).

(** The packets of an answer. *)
Inductive answer_packets (caps : Z) : answer -> list (list Z) -> Prop :=
| ap_ok : forall f rows id status warnings msg st pkt, f <> InfoEof ->
    ok_layout (Z.testbit caps SESSION_TRACK_BIT) f rows id status warnings msg st pkt ->
    known_status status -> Z.testbit status MORE_RESULTS_BIT = false ->
    answer_packets caps (AOk rows id status warnings msg st) [pkt]
| ap_err : forall code state msg pkt,
    err_layout (Z.testbit caps PROTOCOL_41_BIT) (Z.testbit caps PROGRESS_BIT) (ErrError code state msg) pkt ->
    answer_packets caps (AErr code state msg) [pkt]
| ap_rows : forall cols defs rows status warnings last,
    cols <> [] -> Forall2 (column_layout_by short_name_text) cols defs -> Forall row_packet rows ->
    end_of_rows status warnings last -> Z.testbit status MORE_RESULTS_BIT = false ->
    Z.of_nat (length cols) < 65536 ->
    answer_packets caps (ARows cols rows) ([wire_lenenc (Z.of_nat (length cols))] ++ defs ++ rows ++ [last])
| ap_prepared : forall id params columns warnings body defs,
    stmt_layout id columns params warnings (0 :: body) -> Z.of_nat (length defs) = params + columns ->
    answer_packets caps (APrepared id params columns) ((0 :: body) :: defs).

(** ** What the client does and sees *)

(** A use of the connection: [reads] is how often the next row is asked for before the result set
    is dropped. *)
Inductive use : Type :=
| UQuery (q : list Z) (reads : nat)
| UExecute (q : list Z)
| UPrepare (q : list Z)
| UStmtQuery (id params : Z) (values : list value) (reads : nat)
| UStmtExecute (id params : Z) (values : list value).

(** The packets of a use: COM_QUERY is 3, COM_STMT_PREPARE is 22. *)
Definition request (u : use) (ps : list (list Z)) : Prop :=
  match u with
  | UQuery q _ | UExecute q => ps = [3 :: q]
  | UPrepare q => ps = [22 :: q]
  | UStmtQuery id _ values _ | UStmtExecute id _ values => stmt_request id values ps
  end.

(** Uses with values in the range of their types, as many as the statement has parameters. *)
Definition use_ok (u : use) : Prop :=
  match u with
  | UStmtQuery id params values _ | UStmtExecute id params values =>
    0 <= id < 2 ^ 32 /\ params < 65536 /\ Forall value_ok values /\ Z.of_nat (length values) = params
  | _ => True
  end.

Inductive seen (A : Type) : Type :=
| SDone (rows id status warnings : Z) (msg st : option (list Z))
| SNoRows (rows id status warnings : Z) (msg st : option (list Z)) (nexts : list (res error (option A)))
| SRows (cols : list column) (nexts : list (res error (option A)))
| SPrepared (id params : Z)
| SFailed (e : error)
| SPanic.
Arguments SDone {A}. Arguments SNoRows {A}. Arguments SRows {A}. Arguments SPrepared {A}.
Arguments SFailed {A}. Arguments SPanic {A}.

(** [k] times the next row: the rows in order, then none. *)
Definition expected_nexts {A} (decode : list column -> list Z -> res error A) (cols : list column)
  (rows : list (list Z)) (k : nat) : list (res error (option A)) :=
  firstn k (map (fun p => match decode cols p with
                          | Ok a => Ok (Some a)
                          | Err e => Err e
                          | Panic => Panic
                          end) rows ++ repeat (Ok None) k).

(** Which answers a use may get, and what is seen. *)
Inductive expected {A} (decode : list column -> list Z -> res error A) : use -> answer -> seen A -> Prop :=
| ex_query_ok : forall q k rows id status warnings msg st,
    expected decode (UQuery q k) (AOk rows id status warnings msg st)
      (SNoRows rows id status warnings (nonempty msg) (nonempty st) (repeat (Ok None) k))
| ex_query_rows : forall q k cols rows,
    Forall (fun p => decode cols p <> Panic) rows ->
    expected decode (UQuery q k) (ARows cols rows) (SRows cols (expected_nexts decode cols rows k))
| ex_stmt_query_ok : forall i n vs k rows id status warnings msg st,
    expected decode (UStmtQuery i n vs k) (AOk rows id status warnings msg st)
      (SNoRows rows id status warnings (nonempty msg) (nonempty st) (repeat (Ok None) k))
| ex_stmt_query_rows : forall i n vs k cols rows,
    Forall (fun p => decode cols p <> Panic) rows ->
    expected decode (UStmtQuery i n vs k) (ARows cols rows) (SRows cols (expected_nexts decode cols rows k))
| ex_execute : forall q rows id status warnings msg st,
    expected decode (UExecute q) (AOk rows id status warnings msg st)
      (SDone rows id status warnings (nonempty msg) (nonempty st))
| ex_stmt_execute : forall i n vs rows id status warnings msg st,
    expected decode (UStmtExecute i n vs) (AOk rows id status warnings msg st)
      (SDone rows id status warnings (nonempty msg) (nonempty st))
| ex_prepare : forall q id params columns,
    expected decode (UPrepare q) (APrepared id params columns) (SPrepared id params)
| ex_err : forall u code state msg,
    expected decode u (AErr code state msg) (SFailed (EServer (ErrError code state msg))).

(** A history: what the client sends ([packets]: the packets of each use), the answers, and what
    the client sees.  [i] are the bytes of all answers, each numbered on from its request; [o]
    those of all requests. *)
Inductive history {A} (decode : list column -> list Z -> res error A) (caps : Z) (packets : use -> list (list Z))
  : list (use * seen A) -> list Z -> list Z -> Prop :=
| history_nil : history decode caps packets [] [] []
| history_cons : forall u a y w q pkts wi q' h i o,
    use_ok u -> requests (packets u) w q ->
    answer_packets caps a pkts -> framed q pkts wi q' -> expected decode u a y ->
    history decode caps packets h i o ->
    history decode caps packets ((u, y) :: h) (wi ++ i) (w ++ o).

(** All rows in order; the first failure otherwise. *)
Fixpoint all_rows {A} (decode : list column -> list Z -> res error A) (cols : list column) (rows : list (list Z))
  : res error (list A) :=
  match rows with
  | [] => Ok []
  | p :: r =>
    match decode cols p with
    | Ok a => match all_rows decode cols r with Ok l => Ok (a :: l) | Err e => Err e | Panic => Panic end
    | Err e => Err e
    | Panic => Panic
    end
  end.
