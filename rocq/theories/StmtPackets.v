(** Packets of prepared statements sent by the client:
    src/connection/packets/stmt_execute_request.rs, stmt_send_long_data.rs, stmt_close.rs and
    the packet sequence of src/connection/io.rs:20-44. *)
From Coq Require Import ZArith List Bool.
From Verif Require Import Base Types BufMut ValueBin NullBitmap Framing.
Import ListNotations.
Open Scope Z_scope.

(** src/connection/command.rs:5-37 *)
Definition COM_QUERY : Z := 3.
(** src/connection/command.rs:27 *)
Definition COM_STMT_PREPARE : Z := 22.
(** src/connection/command.rs:28 *)
Definition COM_STMT_EXECUTE : Z := 23.
(** src/connection/command.rs:29 *)
Definition COM_STMT_SEND_LONG_DATA : Z := 24.
(** src/connection/command.rs:30 *)
Definition COM_STMT_CLOSE : Z := 25.

(** src/connection/packets/stmt_execute_request.rs:12-20.  [flags] = NO_CURSOR,
    [iteration_count] = 1 and [params_flags] = NEW_PARAMS_BOUND are fixed by [new]. *)
Record execute_request : Type := mkExecute {
  ex_stmt_id : Z;
  ex_flags : Z;
  ex_iteration_count : Z;
  ex_bitmap : bytes;
  ex_params_flags : Z;
  ex_params : list value;
  ex_as_long_data : bool
}.

(** The loop of src/connection/packets/stmt_execute_request.rs:27-33; [None] is a panic. *)
Fixpoint mark_params (i : Z) (params : list value) (bm : bytes) (data_len : Z)
  : option (bytes * Z) :=
  match params with
  | [] => Some (bm, data_len)
  | p :: r =>
    if bin_len p =? 0 then
      match nb_set true bm i true with
      | Some bm' => mark_params (i + 1) r bm' data_len
      | None => None
      end
    else mark_params (i + 1) r bm (data_len + bin_len p)
  end.

(** src/connection/packets/stmt_execute_request.rs:23-47; [None] is a panic. *)
Definition execute_new (id : Z) (params : list value) : option execute_request :=
  let n := lenZ params in
  match mark_params 0 params (nb_new true n) 0 with
  | None => None
  | Some (bm, data_len) =>
    let total_len := 10 + lenZ bm + 1 + n * 2 + data_len in
    Some (mkExecute id 0 1 bm 1 params (total_len >? MAX_PAYLOAD_LEN))
  end.

(** The type bytes: src/connection/packets/stmt_execute_request.rs:67-74 *)
Definition param_type_bytes (v : value) : bytes :=
  [column_type_code (value_column_type v); if value_is_unsigned v then 128 else 0].

(** src/connection/packets/stmt_execute_request.rs:78-82 *)
Definition param_data (as_long_data : bool) (v : value) : bytes :=
  match v with
  | VBytes _ => if as_long_data then [] else value_serialize v
  | VNull => []
  | _ => value_serialize v
  end.

(** src/connection/packets/stmt_execute_request.rs:54-85 *)
Definition execute_serialize (r : execute_request) : bytes :=
  le_bytes 1 COM_STMT_EXECUTE ++ le_bytes 4 (ex_stmt_id r) ++ le_bytes 1 (ex_flags r)
  ++ le_bytes 4 (ex_iteration_count r)
  ++ (match ex_params r with
      | [] => []
      | _ => ex_bitmap r ++ le_bytes 1 (ex_params_flags r)
      end)
  ++ flat_map param_type_bytes (ex_params r)
  ++ flat_map (param_data (ex_as_long_data r)) (ex_params r).

(** src/connection/packets/stmt_send_long_data.rs:22-29 *)
Definition long_data_serialize (id index : Z) (data : bytes) : bytes :=
  le_bytes 1 COM_STMT_SEND_LONG_DATA ++ le_bytes 4 id ++ le_bytes 2 index ++ data.

(** [slice::chunks] (core library), used at src/connection/io.rs:35; [fuel] is the length of
    the data. *)
Fixpoint chunks (fuel : nat) (size : Z) (data : bytes) : list bytes :=
  match fuel, data with
  | _, [] => []
  | O, _ => []
  | S fuel', _ => takeZ size data :: chunks fuel' size (dropZ size data)
  end.

(** One iteration of src/connection/io.rs:29-42: the packets for one parameter.
    [i as u16] wraps. *)
Definition long_data_packets_of (id i : Z) (v : value) : list bytes :=
  match v with
  | VBytes [] => [long_data_serialize id (i mod 65536) []]
  | VBytes b =>
    map (fun c => long_data_serialize id (i mod 65536) c)
        (chunks (length b) (MAX_PAYLOAD_LEN - 6) b)
  | _ => []
  end.

(** All packets of src/connection/io.rs:20-44, in order. *)
Fixpoint long_data_packets (id i : Z) (params : list value) : list bytes :=
  match params with
  | [] => []
  | p :: r => long_data_packets_of id i p ++ long_data_packets id (i + 1) r
  end.

(** src/connection/packets/stmt_close.rs:1-20 (never constructed by the crate). *)
Definition stmt_close_serialize (id : Z) : bytes :=
  le_bytes 1 COM_STMT_CLOSE ++ le_bytes 4 id.
