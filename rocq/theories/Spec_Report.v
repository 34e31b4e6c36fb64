(** Specification of C102: what a client may report after reading given bytes of the server, be they
    what the documentation says or not.  Each outcome is told by the packets standing in the input at
    that place; only failed reads may skip bytes. *)
From Coq Require Import ZArith List Bool.
From Verif Require Import Base Types Spec_Wire Spec_Conv Spec_Packets Spec_Stmt Spec_Conn.
Import ListNotations.
Open Scope Z_scope.

(** A text with a length that is read leniently. *)
Definition loose_text (s w : list Z) : Prop :=
  exists b l, utf8_text s b /\ loose_int (Z.of_nat (length b)) l /\ w = l ++ b.

(** An OK packet and what is reported of it: the numbers; the flags except bit 2; the text that
    follows, if there is one that can be read; a session state only if it is announced, and then a
    text of the packet. *)
Definition ok_report (track : bool) (rows id status warnings : Z) (msg st : option (list Z)) (pkt : list Z) : Prop :=
  exists a b full rest,
    loose_int rows a /\ loose_int id b /\ 0 <= full < 65536 /\ 0 <= warnings < 65536 /\
    pkt = 0 :: a ++ b ++ wire_uint 2 full ++ wire_uint 2 warnings ++ rest /\
    (forall i, Z.testbit status i = Z.testbit full i && negb (i =? 2)) /\
    (forall t, msg = Some t <-> t <> [] /\ exists w r, rest = w ++ r /\ loose_text t w) /\
    (track && Z.testbit full SESSION_STATE_CHANGED_BIT = false -> st = None) /\
    (forall t, st = Some t -> t <> [] /\ exists pre w r, rest = pre ++ w ++ r /\ loose_text t w).

(** An error packet. *)
Definition err_report (p41 progress : bool) (e : err_packet) (pkt : list Z) : Prop :=
  match e with
  | ErrError _ _ _ => err_layout p41 progress e pkt
  | ErrProgress stage max_stage prog info =>
    progress = true /\ 0 <= stage < 256 /\ 0 <= max_stage < 256 /\ 0 <= prog < 16777216 /\
    exists n l rest, loose_int (Z.of_nat (length info)) l /\
      pkt = [255; 255; 255; n; stage; max_stage] ++ wire_uint 3 prog ++ l ++ info ++ rest
  end.

(** The packet after the last row: it starts with 0xFE and is short. *)
Definition last_packet (caps : Z) (p : list Z) : Prop :=
  exists r, p = 254 :: r /\ Z.of_nat (length p) < (if Z.testbit caps DEPRECATE_EOF_BIT then 2 ^ 24 - 1 else 8).

(** A number in front of the status is skipped; its marker 0xFE alone if fewer than 8 bytes follow. *)
Definition skipped (w rest : list Z) : Prop :=
  (exists n, loose_int n w) \/ (w = [254] /\ (length rest < 8)%nat).

(** What is taken for the end of a result set, and what is reported of it.  The first byte counts as
    the first number. *)
Definition end_report (status warnings : Z) (pkt : list Z) : Prop :=
  exists a b full rest, 0 <= full < 65536 /\ 0 <= warnings < 65536 /\
    skipped a (b ++ wire_uint 2 full ++ wire_uint 2 warnings ++ rest) /\
    skipped b (wire_uint 2 full ++ wire_uint 2 warnings ++ rest) /\
    pkt = a ++ b ++ wire_uint 2 full ++ wire_uint 2 warnings ++ rest /\
    (forall i, Z.testbit status i = Z.testbit full i && negb (i =? 2)).

Definition readable_end (pkt : list Z) : Prop := exists status warnings, end_report status warnings pkt.

(** The transport has failed or a packet had a wrong number. *)
Definition lost_packet (e : error) : Prop :=
  e = EProtocol POutOfSync \/ exists k, e = EProtocol (PIo k).

Section Told.
  Context {A : Type} (decode : list column -> list Z -> res error A) (caps : Z).

  (** Asking for rows again and again: the outcomes, the bytes taken, the number of the next packet,
      and whether the set is still open.  Numbers and the rest of the input are only uncertain after a
      packet has been lost. *)
  Inductive rows_told (cols : list column) : Z -> list (res error (option A)) -> list Z -> Z -> bool -> Prop :=
  | rt_stop : forall q, rows_told cols q [] [] q true
  | rt_row : forall q p w q1 a l i q' open, frames q p w q1 -> p <> [] -> ~ last_packet caps p -> decode cols p = Ok a ->
      rows_told cols q1 l i q' open -> rows_told cols q (Ok (Some a) :: l) (w ++ i) q' open
  | rt_bad_row : forall q p w q1 e l i q' open, frames q p w q1 -> p <> [] -> ~ last_packet caps p -> decode cols p = Err e ->
      rows_told cols q1 l i q' open -> rows_told cols q (Err e :: l) (w ++ i) q' open
  | rt_end : forall q p w q1 k, frames q p w q1 -> last_packet caps p -> readable_end p ->
      rows_told cols q (repeat (Ok None) (S k)) w q1 false
  | rt_bad_end : forall q p w q1 l i q' open, frames q p w q1 -> last_packet caps p -> ~ readable_end p ->
      rows_told cols q1 l i q' open -> rows_told cols q (Err (EProtocol (PIo IoUnexpectedEof)) :: l) (w ++ i) q' open
  | rt_panic : forall q p w q1 l i q' open, frames q p w q1 -> p = [] \/ decode cols p = Panic ->
      rows_told cols q1 l i q' open -> rows_told cols q (Panic :: l) (w ++ i) q' open
  | rt_lost : forall q e skipped q1 l i q' open, lost_packet e ->
      rows_told cols q1 l i q' open -> rows_told cols q (Err e :: l) (skipped ++ i) q' open.

  (** The outcomes of a use whose request has been sent; [q] is the number of the first packet of the
      answer. *)
  Inductive told : use -> Z -> seen A -> list Z -> Z -> bool -> Prop :=
  | td_done : forall u q p w q' rows id status warnings msg st,
      (exists t, u = UExecute t) \/ (exists i n vs, u = UStmtExecute i n vs) ->
      frames q p w q' -> ok_report (Z.testbit caps SESSION_TRACK_BIT) rows id status warnings msg st p ->
      told u q (SDone rows id status warnings msg st) w q' false
  | td_no_rows : forall u k q p w q' rows id status warnings msg st,
      (exists t, u = UQuery t k) \/ (exists i n vs, u = UStmtQuery i n vs k) ->
      frames q p w q' -> ok_report (Z.testbit caps SESSION_TRACK_BIT) rows id status warnings msg st p ->
      told u q (SNoRows rows id status warnings msg st (repeat (Ok None) k)) w q' false
  | td_rows : forall u k q p w q1 n l rest cols defs wd q2 nexts i q' open,
      (exists t, u = UQuery t k) \/ (exists i n vs, u = UStmtQuery i n vs k) ->
      frames q p w q1 -> loose_int n l -> p = l ++ rest -> (forall r, p <> 0 :: r /\ p <> 251 :: r /\ p <> 255 :: r) ->
      n = Z.of_nat (length cols) -> framed q1 defs wd q2 -> Forall2 (column_layout_by u8_text) cols defs ->
      rows_told cols q2 nexts i q' open -> length nexts = k ->
      told u q (SRows cols nexts) (w ++ wd ++ i) q' open
  | td_prepared : forall t q p w q1 id params columns warnings defs wd q',
      frames q p w q1 -> stmt_layout id columns params warnings p -> (exists r, p = 0 :: r) ->
      framed q1 defs wd q' -> Z.of_nat (length defs) = params + columns ->
      told (UPrepare t) q (SPrepared id params) (w ++ wd) q' false
  | td_error : forall u q p w q' e,
      frames q p w q' -> err_report (Z.testbit caps PROTOCOL_41_BIT) (Z.testbit caps PROGRESS_BIT) e p ->
      told u q (SFailed (EServer e)) w q' false.

  (** Uses of a connection one after the other.  [open]: a result set has not been read to its end;
      then the next use first takes its packets, to the last.  A use without any result may leave the
      input anywhere. *)
  Inductive all_told (packets : use -> list (list Z)) : bool -> Z -> list (use * seen A) -> list Z -> bool -> Z -> Prop :=
  | at_nil : forall open q, all_told packets open q [] [] open q
  | at_use : forall q u y wr q1 wi q2 open2 rest i open3 q3,
      requests (packets u) wr q1 -> told u q1 y wi q2 open2 ->
      all_told packets open2 q2 rest i open3 q3 ->
      all_told packets false q ((u, y) :: rest) (wi ++ i) open3 q3
  | at_open : forall q rows last wl ql u y wr q1 wi q2 open2 rest i open3 q3,
      framed q (rows ++ [last]) wl ql -> Forall (fun p => p <> [] /\ ~ last_packet caps p) rows ->
      last_packet caps last -> readable_end last ->
      requests (packets u) wr q1 -> told u q1 y wi q2 open2 ->
      all_told packets open2 q2 rest i open3 q3 ->
      all_told packets true q ((u, y) :: rest) (wl ++ wi ++ i) open3 q3
  | at_failed : forall open q u y wi q2 open2 rest i open3 q3,
      (exists e, y = SFailed e /\ forall x, e <> EServer x) \/ y = SPanic ->
      all_told packets open2 q2 rest i open3 q3 ->
      all_told packets open q ((u, y) :: rest) (wi ++ i) open3 q3.
End Told.
