(** The command layer of a connection: src/connection/query.rs, result_set.rs,
    prepared_statement.rs, the commands of io.rs, and connecting (init.rs). *)
From Coq Require Import String ZArith List Bool.
From Verif Require Import Base Types Utf8 ParseBuf BufMut Packets Crypt Handshake Framing StmtPackets ValueText Rows
  Conversion Auth.
Import ListNotations.
Open Scope Z_scope.
Open Scope io_scope.

(** src/connection/mod.rs:50-56 without the options, which never change *)
Record conn : Type := mkConn {
  c_stream : stream;
  c_seq : Z;
  c_data : conn_data;
  c_pending : bool
}.

(** [self.data.capabilities]: src/connection/result_set.rs:70-74 *)
Definition c_caps (c : conn) : Z := d_capabilities (c_data c).

(** src/connection/io.rs:94-105 *)
Definition conn_read : IO conn bytes :=
  fun c => let '((r, seq), s) := read_packet (c_seq c) (c_stream c) in (r, mkConn s seq (c_data c) (c_pending c)).

(** src/connection/io.rs:107-139 *)
Definition conn_write (b : bytes) : IO conn unit :=
  fun c => let '((r, seq), s) := write_packet (c_seq c) b (c_stream c) in (r, mkConn s seq (c_data c) (c_pending c)).

(** [self.seq_id = 0]: src/connection/query.rs:37, src/connection/io.rs:149 *)
Definition reset_seq : IO conn unit :=
  fun c => (Ok tt, mkConn (c_stream c) 0 (c_data c) (c_pending c)).

(** [pending_result = b]: src/connection/result_set.rs:47, 83, 162 *)
Definition set_pending (b : bool) : IO conn unit :=
  fun c => (Ok tt, mkConn (c_stream c) (c_seq c) (c_data c) b).

(** [is_last_result_set_packet]: src/connection/result_set.rs:71-80, 152-160; [packet[0]] panics
    on an empty packet. *)
Definition is_last (caps : Z) (packet : bytes) : res error bool :=
  match packet with
  | [] => Panic
  | x :: _ =>
    Ok ((x =? 254) && (lenZ packet <? (if has_flag caps CAP_DEPRECATE_EOF then MAX_PAYLOAD_LEN else 8)))
  end.

(** The loop of src/connection/result_set.rs:150-166; every packet takes input, so more rounds
    than input bytes are never needed (lemma [cleanup_fuel] in Conn_proofs). *)
Fixpoint cleanup_loop (fuel : nat) : IO conn (option ok_packet) :=
  match fuel with
  | O => fun c => (Panic, c)
  | S fuel' =>
    packet <- conn_read ;;
    (fun c =>
      (last <- iores (is_last (c_caps c) packet) ;;
       if last then
         set_pending false ;;;
         x <- iores (of_protocol (read_eof packet (c_caps c))) ;;
         ioret (Some x)
       else cleanup_loop fuel') c)
  end.

(** src/connection/result_set.rs:147-170 *)
Definition cleanup : IO conn (option ok_packet) :=
  fun c =>
    if c_pending c then cleanup_loop (S (length (s_in (c_stream c)))) c
    else (Ok None, c).

(** src/connection/query.rs:28-39 *)
Definition execute_command (cmd : Z) (data : bytes) : IO conn unit :=
  cleanup ;;; reset_seq ;;; conn_write (cmd :: data).

(** src/connection/io.rs:141-151 on the serialized command *)
Definition write_command (cmd : bytes) : IO conn unit :=
  cleanup ;;; reset_seq ;;; conn_write cmd.

(** src/connection/io.rs:153-171 *)
Definition decode_response (packet : bytes) : IO conn (res err_packet ok_packet) :=
  fun c =>
    match packet with
    | [] => (Err (EProtocol peof), c)
    | x :: _ =>
      if x =? 0 then
        (x <- iores (of_protocol (read_ok packet (c_caps c))) ;; ioret (Ok x)) c
      else if x =? 255 then
        (e <- iores (of_protocol (read_err packet (c_caps c))) ;; ioret (Err e)) c
      else (Err (EProtocol (PUnexpectedPacket packet)), c)
    end.

(** [map_err(Into::into)] from ErrPacket to Error: src/error/mod.rs:51-55 *)
Definition of_server {A} (r : res err_packet A) : res error A := rmap_err EServer r.

(** src/connection/io.rs:173-176 and src/connection/query.rs:25 *)
Definition read_response : IO conn ok_packet :=
  packet <- conn_read ;;
  r <- decode_response packet ;;
  iores (of_server r).

(** src/connection/query.rs:23-26 *)
Definition execute_query (query : bytes) : IO conn ok_packet :=
  execute_command COM_QUERY query ;;; read_response.

(** src/connection/query.rs:41-49 *)
Fixpoint read_column_defs (count : nat) : IO conn (list column) :=
  match count with
  | O => ioret []
  | S n =>
    packet <- conn_read ;;
    c <- iores (of_protocol (read_column packet)) ;;
    r <- read_column_defs n ;;
    ioret (c :: r)
  end.

(** src/connection/result_set.rs:15-25; the mapping is computed from the columns (line 56). *)
Record result_set : Type := mkSet {
  rs_columns : list column;
  rs_ok : option ok_packet
}.

(** [size_of::<Column>()]: four [String]s of three words, a byte and two bytes
    (src/connection/types/column.rs:7-14), on a 64-bit machine *)
Definition COLUMN_SIZE : Z := 104.

(** [Vec::with_capacity(count)] of src/connection/query.rs:42 panics if the size in bytes exceeds
    [isize::MAX]; smaller allocations are taken to succeed. *)
Definition capacity_overflow (count : Z) : bool := 2 ^ 63 - 1 <? count * COLUMN_SIZE.

(** src/connection/result_set.rs:32-53.  The number of columns is read as announced: reading
    stops at the end of the input, so counts beyond it need not be followed ([min]). *)
Definition rs_read : IO conn result_set :=
  packet <- conn_read ;;
  if first_is 0 packet then
    r <- decode_response packet ;;
    x <- iores (of_server r) ;;
    ioret (mkSet [] (Some x))
  else if first_is 251 packet then iores Panic
  else if first_is 255 packet then
    (fun c => (server_error packet (c_caps c), c))
  else
    set_pending true ;;;
    n <- iores (of_protocol (fst (checked_eat_lenenc_int packet))) ;;
    if capacity_overflow n then iores Panic else
    (fun c =>
      (columns <- read_column_defs (Z.to_nat (Z.min n (lenZ (s_in (c_stream c)) + 1))) ;;
       ioret (mkSet columns None)) c).

(** src/connection/query.rs:15-21 *)
Definition query (q : bytes) : IO conn result_set :=
  execute_command COM_QUERY q ;;; rs_read.

(** src/connection/result_set.rs:66-89.  [decode]: [P::read_result_set_row] followed by
    [R::from_mapping_and_row], for any protocol and row type. *)
Definition rs_next {A} (decode : list column -> bytes -> res error A) : IO (conn * result_set) (option A) :=
  fun '(c, rs) =>
    match rs_ok rs with
    | Some _ => (Ok None, (c, rs))
    | None =>
      match conn_read c with
      | (Err e, c') => (Err e, (c', rs))
      | (Panic, c') => (Panic, (c', rs))
      | (Ok packet, c') =>
        match is_last (c_caps c') packet with
        | Ok true =>
          match read_eof packet (c_caps c') with
          | Ok x => (Ok None, (mkConn (c_stream c') (c_seq c') (c_data c') false, mkSet (rs_columns rs) (Some x)))
          | Err e => (Err (EProtocol e), (c', rs))
          | Panic => (Panic, (c', rs))
          end
        | Ok false => (rbind (decode (rs_columns rs) packet) (fun a => Ok (Some a)), (c', rs))
        | _ => (Panic, (c', rs))
        end
      end
    end.

(** src/connection/result_set.rs:91-97; [fuel] as for [cleanup_loop] *)
Fixpoint collect_loop {A} (decode : list column -> bytes -> res error A) (fuel : nat) (rows : list A)
  : IO (conn * result_set) (list A) :=
  match fuel with
  | O => fun c => (Panic, c)
  | S fuel' =>
    row <- rs_next decode ;;
    match row with
    | Some r => collect_loop decode fuel' (rows ++ [r])
    | None => ioret rows
    end
  end.

(** The bound on the rounds of the loops of src/connection/result_set.rs:93, 101, 129 *)
Definition rounds (c : conn) : nat := S (S (length (s_in (c_stream c)))).

(** src/connection/result_set.rs:91-97 *)
Definition collect {A} (decode : list column -> bytes -> res error A) : IO (conn * result_set) (list A) :=
  fun '(c, rs) => collect_loop decode (rounds c) [] (c, rs).

(** [while self.next().await?.is_some() {}]: src/connection/result_set.rs:101, 129, 140 *)
Fixpoint drain_loop {A} (decode : list column -> bytes -> res error A) (fuel : nat)
  : IO (conn * result_set) unit :=
  match fuel with
  | O => fun c => (Panic, c)
  | S fuel' =>
    row <- rs_next decode ;;
    match row with Some _ => drain_loop decode fuel' | None => ioret tt end
  end.

(** src/connection/result_set.rs:99-103 *)
Definition one {A} (decode : list column -> bytes -> res error A) : IO (conn * result_set) (option A) :=
  fun s =>
    match rs_next decode s with
    | (Panic, s') => (Panic, s')
    | (res, (c', rs')) =>
      match drain_loop decode (rounds c') (c', rs') with
      | (Ok _, s'') => (res, s'')
      | (Err e, s'') => (Err e, s'')
      | (Panic, s'') => (Panic, s'')
      end
    end.

(** src/connection/result_set.rs:125-134; the [unwrap] panics on [None]. *)
Definition finish {A} (decode : list column -> bytes -> res error A) : IO (conn * result_set) ok_packet :=
  fun '(c, rs) =>
    match rs_ok rs with
    | Some x => (Ok x, (c, rs))
    | None =>
      match drain_loop decode (rounds c) (c, rs) with
      | (Ok _, (c', rs')) => (match rs_ok rs' with Some x => Ok x | None => Panic end, (c', rs'))
      | (Err e, s') => (Err e, s')
      | (Panic, s') => (Panic, s')
      end
    end.

(** src/connection/result_set.rs:136-145; the mapping is computed from the columns (line 56). *)
Definition finish_into_inner {A} (decode : list column -> bytes -> res error A)
  : IO (conn * result_set) (ok_packet * list column) :=
  fun '(c, rs) =>
    match rs_ok rs with
    | Some x => (Ok (x, rs_columns rs), (c, rs))
    | None =>
      match drain_loop decode (rounds c) (c, rs) with
      | (Ok _, (c', rs')) => (match rs_ok rs' with Some x => Ok (x, rs_columns rs') | None => Panic end, (c', rs'))
      | (Err e, s') => (Err e, s')
      | (Panic, s') => (Panic, s')
      end
    end.

(** The loop of src/connection/prepared_statement.rs:58-60 *)
Fixpoint skip_packets (n : nat) : IO conn unit :=
  match n with
  | O => ioret tt
  | S n' => conn_read ;;; skip_packets n'
  end.

(** [PreparedStatement] without the borrowed connection: src/connection/prepared_statement.rs:12-17 *)
Record prepared : Type := mkPrepared { ps_id : Z; ps_params : Z }.

(** src/connection/prepared_statement.rs:45-67 *)
Definition prepare_statement (text : bytes) : IO conn prepared :=
  execute_command COM_STMT_PREPARE text ;;;
  packet <- conn_read ;;
  stmt <- (fun c =>
             (if first_is 0 packet then iores (of_protocol (read_stmt packet))
              else if first_is 255 packet then iores (server_error packet (c_caps c))
              else iores (Err (EProtocol (PUnexpectedPacket packet)))) c) ;;
  skip_packets (Z.to_nat (st_params_len stmt + st_columns_len stmt)) ;;;
  ioret (mkPrepared (st_id stmt) (st_params_len stmt)).

(** src/connection/io.rs:20-44 *)
Fixpoint write_commands (packets : list bytes) : IO conn unit :=
  match packets with
  | [] => ioret tt
  | p :: r => write_command p ;;; write_commands r
  end.

(** src/connection/io.rs:20-44 *)
Definition send_long_data (id : Z) (params : list value) : IO conn unit :=
  write_commands (long_data_packets id 0 params).

(** The request: src/connection/prepared_statement.rs:74-80, 89-95 *)
Definition send_execute (id : Z) (params : list value) : IO conn unit :=
  match execute_new id params with
  | None => iores Panic
  | Some request =>
    (if ex_as_long_data request then send_long_data id params else ioret tt) ;;;
    write_command (execute_serialize request)
  end.

(** src/connection/prepared_statement.rs:20-31 and 69-82 *)
Definition stmt_query (st : prepared) (values : list value) : IO conn result_set :=
  if negb (lenZ values =? ps_params st) then iores (Err (ERuntime RParameterCountMismatch))
  else send_execute (ps_id st) values ;;; rs_read.

(** src/connection/prepared_statement.rs:33-41 and 84-97 *)
Definition stmt_execute (st : prepared) (values : list value) : IO conn ok_packet :=
  if negb (lenZ values =? ps_params st) then iores (Err (ERuntime RParameterCountMismatch))
  else send_execute (ps_id st) values ;;; read_response.

(** [Command::Quit]: src/connection/command.rs:6 *)
Definition COM_QUIT : Z := 1.

(** src/connection/init.rs:32-34 *)
Definition disconnect : IO conn unit := execute_command COM_QUIT [].

(** [Vec<Value>] rows of the text protocol: src/connection/types/protocol.rs:14-27,
    src/model/from_query_result.rs (the row itself) *)
Definition text_rows (debug : bool) (f32 f64 : str -> option Z) (cols : list column) (packet : bytes)
  : res error (list value) := of_protocol (read_text_row debug f32 f64 packet cols).

(** [Vec<Value>] rows of the binary protocol: src/connection/types/protocol.rs:34-54 *)
Definition bin_rows (cols : list column) (packet : bytes) : res error (list value) :=
  of_protocol (read_bin_row packet cols).

(** [columns.iter().position(|x| x.name() == ..)]: src/connection/query.rs:59-62 *)
Fixpoint find_column (name : str) (cols : list column) : option nat :=
  match cols with
  | [] => None
  | c :: r => if list_eqb (col_name c) name then Some O else option_map S (find_column name r)
  end.

(** src/connection/query.rs:64-65 *)
Definition set_max_allowed_packet (n : Z) : IO conn unit :=
  fun c =>
    let d := c_data c in
    (Ok tt, mkConn (c_stream c) (c_seq c)
       (mkData (d_id d) (d_is_mariadb d) (d_version d) (d_capabilities d) (d_nonce d) (d_server_key d)
          (d_auth_plugin d) (d_auth_switched d) n) (c_pending c)).

(** src/connection/query.rs:51-70 *)
Definition read_settings (debug : bool) (f32 f64 : str -> option Z) (o : conn_options) : IO conn unit :=
  match o_max_allowed_packet o with
  | Some _ => ioret tt
  | None =>
    rs <- query (s2l "select @@max_allowed_packet") ;;
    (fun c =>
      match rs_next (text_rows debug f32 f64) (c, rs) with
      | (Err e, (c', _)) => (Err e, c')
      | (Panic, (c', _)) => (Panic, c')
      | (Ok None, (c', _)) => (Ok tt, c')
      | (Ok (Some row), (c', rs')) =>
        match find_column (s2l "@@max_allowed_packet") (rs_columns rs') with
        | None => (Ok tt, c')
        | Some i =>
          match nth_error row i with
          | None => (Panic, c')
          | Some v =>
            (n <- iores (rmap_err (fun e => EProtocol (PParse e)) (prim_try_into U64 v)) ;;
             set_max_allowed_packet n) c'
          end
        end
      end)
  end.

(** The stream and the sequence number while connecting: src/connection/init.rs:14-26 *)
Definition wire_transport : transport (stream * Z) :=
  mkTransport _
    (fun '(s, seq) => let '((r, seq'), s') := read_packet seq s in (r, (s', seq')))
    (fun b '(s, seq) => let '((r, seq'), s') := write_packet seq b s in (r, (s', seq'))).

(** src/connection/init.rs:14-30 after the transport is connected *)
Definition connect (pr : primitives) (debug : bool) (other : Z -> bool) (f32 f64 : str -> option Z) (secure : bool)
    (o : conn_options) : IO stream conn :=
  fun s =>
    match authenticate wire_transport pr debug other secure o (s, 0) with
    | (Err e, (s', _)) => (Err e, s')
    | (Panic, (s', _)) => (Panic, s')
    | (Ok d, (s', seq)) =>
      match read_settings debug f32 f64 o (mkConn s' seq d false) with
      | (Ok _, c) => (Ok c, c_stream c)
      | (Err e, c) => (Err e, c_stream c)
      | (Panic, c) => (Panic, c_stream c)
      end
    end.
