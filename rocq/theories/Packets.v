(** Server packets of the command phase: src/connection/packets/{ok,err,column_def,stmt}.rs. *)
From Coq Require Import ZArith List Bool String.
From Coq Require Import List.
From Verif Require Import Base Types Utf8 ParseBuf.
Import ListNotations.
Open Scope Z_scope.
Open Scope parse_scope.

(** src/connection/bitflags.rs:170 *)
Definition CAP_PROTOCOL_41 : Z := 0x200.
(** src/connection/bitflags.rs:277 *)
Definition CAP_SESSION_TRACK : Z := 0x800000.
(** src/connection/bitflags.rs:343 *)
Definition CAP_PROGRESS_OBSOLETE : Z := 0x20000000.
(** src/connection/bitflags.rs:110 *)
Definition STATUS_SESSION_STATE_CHANGED : Z := 0x4000.
(** All status flags: src/connection/bitflags.rs:67-113 (0x0004 is not among them) *)
Definition STATUS_ALL : Z := 0xfffb.

(** [StatusFlags::from_bits_truncate] (bitflags crate, src/connection/packets/ok.rs:57) *)
Definition status_truncate (x : Z) : Z := Z.land x STATUS_ALL.

(** src/connection/packets/ok.rs:9-16 *)
Record ok_packet : Type := mkOk {
  ok_affected_rows : Z;
  ok_last_insert_id : Z;
  ok_status : Z;
  ok_warnings : Z;
  ok_message : option str;
  ok_session_state_info : option str
}.

(** The match on the result of checked_eat_lenenc_str: src/connection/packets/ok.rs:64-67; the
    position reached in the buffer is kept when the text is refused. *)
Definition optional_str : P (option str) :=
  fun b => match checked_eat_lenenc_str b with
           | (Ok (c :: s), b') => (Ok (Some (c :: s)), b')
           | (Ok [], b') | (Err _, b') => (Ok None, b')
           | (Panic, b') => (Panic, b')
           end.

(** [let _ = buf.checked_eat_lenenc_int()]: src/connection/packets/ok.rs:90-91 *)
Definition ignore_lenenc_int : P unit :=
  fun b => match checked_eat_lenenc_int b with
           | (Ok _, b') | (Err _, b') => (Ok tt, b')
           | (Panic, b') => (Panic, b')
           end.

(** Shared ending: src/connection/packets/ok.rs:59-78, 96-115 *)
Definition ok_tail (caps rows id status : Z) : P ok_packet :=
  warnings <- checked_eat_uint 2 ;;
  message <- optional_str ;;
  if has_flag caps CAP_SESSION_TRACK && has_flag status STATUS_SESSION_STATE_CHANGED
  then info <- optional_str ;; pret (mkOk rows id status warnings message info)
  else pret (mkOk rows id status warnings message None).

(** src/connection/packets/ok.rs:45-79 *)
Definition read_ok_p (caps : Z) : P ok_packet :=
  h <- checked_eat_uint 1 ;;
  if negb (h =? 0) then fun b => (Err (PUnexpectedPacket b), b) else
  rows <- checked_eat_lenenc_int ;;
  id <- checked_eat_lenenc_int ;;
  status <- checked_eat_uint 2 ;;
  ok_tail caps rows id (status_truncate status).

(** src/connection/packets/ok.rs:45 *)
Definition read_ok (packet : bytes) (caps : Z) : res protocol_error ok_packet := fst (read_ok_p caps packet).

(** src/connection/packets/ok.rs:85-115 *)
Definition read_eof_p (caps : Z) : P ok_packet :=
  ignore_lenenc_int ;;;
  ignore_lenenc_int ;;;
  status <- checked_eat_uint 2 ;;
  ok_tail caps 0 0 (status_truncate status).

(** src/connection/packets/ok.rs:81-116 *)
Definition read_eof (packet : bytes) (caps : Z) : res protocol_error ok_packet := fst (read_eof_p caps packet).

(** src/connection/packets/ok.rs:118-135 *)
Definition read_old_eof (packet : bytes) : res protocol_error ok_packet :=
  fst ((warnings <- checked_eat_uint 2 ;;
        status <- checked_eat_uint 2 ;;
        pret (mkOk 0 0 (status_truncate status) warnings None None)) packet).

(** [String::from_utf8(..)?]: src/connection/packets/err.rs:103, src/error/parse.rs:71-75 *)
Definition string_from_utf8 (b : bytes) : res protocol_error str :=
  match utf8_decode b with
  | Some s => Ok s
  | None => Err (PParse EFromUtf8)
  end.

(** src/connection/packets/err.rs:82-105 *)
Definition error_packet (code : Z) (protocol_41 : bool) : P err_packet :=
  state <-
    (if protocol_41 then
       h <- checked_eat_uint 1 ;;
       if negb (h =? 35) then fun b => (Err (PInvalidPacket b), b) else
       s <- checked_eat 5 ;;
       plift (from_utf8 s) ;;;
       pret (Some s)
     else pret None) ;;
  m <- eat_all ;;
  message <- plift (string_from_utf8 m) ;;
  pret (ErrError code state message).

(** src/connection/packets/err.rs:138-150 *)
Definition progress_packet : P err_packet :=
  check_len 6 ;;;
  skip 1 ;;;
  stage <- eat_uint 1 ;;
  max_stage <- eat_uint 1 ;;
  progress <- eat_uint 3 ;;
  info <- checked_eat_lenenc_slice ;;
  pret (ErrProgress stage max_stage progress info).

(** src/connection/packets/err.rs:20-36 *)
Definition read_err_p (caps : Z) : P err_packet :=
  check_len 3 ;;;
  h <- eat_uint 1 ;;
  if negb (h =? 255) then fun b => (Err (PUnexpectedPacket b), b) else
  code <- eat_uint 2 ;;
  if (code =? 65535) && has_flag caps CAP_PROGRESS_OBSOLETE
  then progress_packet
  else error_packet code (has_flag caps CAP_PROTOCOL_41).

(** src/connection/packets/err.rs:20 on a whole packet (src/connection/io.rs:163-166) *)
Definition read_err (packet : bytes) (caps : Z) : res protocol_error err_packet := fst (read_err_p caps packet).

(** src/connection/packets/column_def.rs:8-19 *)
Record column_def : Type := mkColumnDef {
  cd_db : str; cd_table : str; cd_org_table : str; cd_name : str; cd_org_name : str;
  cd_charset : Z; cd_length : Z; cd_type : column_type; cd_flags : Z; cd_decimals : Z
}.

(** [ColumnType::try_from(..)?]: src/connection/packets/column_def.rs:49,
    src/connection/types/column_type.rs:9-18 *)
Definition column_type_p (n : Z) : P column_type :=
  match column_type_of n with
  | Some t => pret t
  | None => perr (PParse (EUnknownBitflags (FColumnType n)))
  end.

(** src/connection/packets/column_def.rs:25-55.  All 16 column flags are defined
    (src/connection/bitflags.rs:376-426), so [ColumnFlags::try_from] accepts every u16. *)
Definition column_def_p : P column_def :=
  catalog <- checked_eat_u8_slice ;;
  if negb (list_eqb catalog (s2l "def")) then fun b => (Err (PUnexpectedPacket b), b) else
  db <- checked_eat_u8_str ;;
  table <- checked_eat_u8_str ;;
  org_table <- checked_eat_u8_str ;;
  name <- checked_eat_u8_str ;;
  org_name <- checked_eat_u8_str ;;
  check_len 13 ;;;
  n <- eat_uint 1 ;;
  if negb (n =? 12) then perr peof else
  charset <- eat_uint 2 ;;
  length <- eat_uint 4 ;;
  ty <- eat_uint 1 ;;
  ty <- column_type_p ty ;;
  flags <- eat_uint 2 ;;
  decimals <- eat_uint 1 ;;
  skip 2 ;;;
  pret (mkColumnDef db table org_table name org_name charset length ty flags decimals).

(** [TryFrom<ColumnDef> for Column]: src/connection/types/column.rs:16-29; the strings are UTF-8
    already, so the conversions succeed. *)
Definition column_of (d : column_def) : column :=
  mkColumn (cd_org_name d) (cd_name d) (cd_org_table d) (cd_table d) (cd_type d) (cd_flags d).

(** [ParseBuf(&packet).parse::<ColumnDef>(())?.try_into()?]: src/connection/query.rs:45-46 *)
Definition read_column (packet : bytes) : res protocol_error column :=
  rmap column_of (fst (column_def_p packet)).

(** src/connection/packets/stmt.rs:5-10 *)
Record stmt_packet : Type := mkStmt {
  st_id : Z; st_columns_len : Z; st_params_len : Z; st_warning_count : Z
}.

(** src/connection/packets/stmt.rs:16-28 *)
Definition stmt_p : P stmt_packet :=
  check_len 12 ;;;
  skip 1 ;;;
  id <- eat_uint 4 ;;
  columns_len <- eat_uint 2 ;;
  params_len <- eat_uint 2 ;;
  skip 1 ;;;
  warning_count <- eat_uint 2 ;;
  pret (mkStmt id columns_len params_len warning_count).

(** src/connection/packets/stmt.rs:16 on a whole packet (src/connection/prepared_statement.rs) *)
Definition read_stmt (packet : bytes) : res protocol_error stmt_packet := fst (stmt_p packet).
