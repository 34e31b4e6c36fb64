(** Authentication: src/connection/auth.rs and the first half of src/connection/init.rs:14-30,
    over a transport of packets. *)
From Coq Require Import String ZArith List Bool.
From Verif Require Import Base Types Utf8 ParseBuf BufMut Packets Scramble Crypt Handshake Framing.
Import ListNotations.
Open Scope Z_scope.
Open Scope io_scope.

(** Packet transport: [Connection::read_packet] and [write_packet]
    (src/connection/io.rs:94-139) on a state [S]. *)
Record transport (S : Type) : Type := mkTransport {
  t_read : IO S bytes;
  t_write : bytes -> IO S unit
}.
Arguments t_read {S} t.
Arguments t_write {S} t b.

(** A transport action while [self.data] stays as it is (src/connection/auth.rs:25). *)
Definition on_stream {S D A} (m : IO S A) : IO (S * D) A :=
  fun '(s, d) => let '(r, s') := m s in (r, (s', d)).

(** A pure result (e.g. src/connection/auth.rs:29). *)
Definition iores {S A} (r : res error A) : IO S A := fun s => (r, s).

(** [?] from ProtocolError to Error: src/error/mod.rs:57-61 *)
Definition of_protocol {A} (r : res protocol_error A) : res error A := rmap_err EProtocol r.

(** [.map_err(SerializeError::from)?]: src/connection/auth.rs:83-84, 110-111,
    src/error/protocol.rs:24-28 and 99-103 *)
Definition of_crypt {A} (r : res crypt_error A) : res error A :=
  rmap_err (fun e => EProtocol (PSerialize (SEncryption e))) r.

(** src/connection/packets/auth_switch_request.rs:24-37 on a whole packet *)
Definition read_auth_switch (packet : bytes) : res protocol_error (auth_plugin * bytes) :=
  fst ((skip 1 ;;; plugin <- plugin_p ;; data <- eat_all ;; pret (plugin, strip_zero data))%parse packet).

(** [packet.first() == Some(&n)]: src/connection/auth.rs:26-31, 56-61 *)
Definition first_is (n : Z) (packet : bytes) : bool :=
  match packet with x :: _ => x =? n | [] => false end.

(** [packet.get(1) == Some(&n)]: src/connection/auth.rs:61-67 *)
Definition second_is (n : Z) (packet : bytes) : bool :=
  match packet with _ :: x :: _ => x =? n | _ => false end.

(** src/connection/auth.rs:32-40, 132-140 *)
Definition err_or_unexpected (packet : bytes) (caps : Z) : res error unit :=
  match read_err packet caps with
  | Ok e => Err (EServer e)
  | Err _ => Err (EProtocol (PUnexpectedPacket packet))
  | Panic => Panic
  end.

(** [Error::Server(ErrPacket::deserialize(..)?)]: src/connection/auth.rs:89-94, 117-120 *)
Definition server_error {A} (packet : bytes) (caps : Z) : res error A :=
  rbind (of_protocol (read_err packet caps)) (fun e => Err (EServer e)).

(** src/connection/auth.rs:154-156: the data after a switch request *)
Definition switched (d : conn_data) (plugin : auth_plugin) (nonce : bytes) : conn_data :=
  mkData (d_id d) (d_is_mariadb d) (d_version d) (d_capabilities d) nonce (d_server_key d) plugin true
    (d_max_allowed_packet d).

(** src/connection/auth.rs:86 *)
Definition with_key (d : conn_data) (k : public_key) : conn_data :=
  mkData (d_id d) (d_is_mariadb d) (d_version d) (d_capabilities d) (d_nonce d) (Some k) (d_auth_plugin d)
    (d_auth_switched d) (d_max_allowed_packet d).

(** src/connection/auth.rs:74-104: the server's key, asked for if not known *)
Definition get_server_key {S} (t : transport S) : IO (S * conn_data) public_key :=
  fun '(s, d) =>
    match d_server_key d with
    | Some k => (Ok k, (s, d))
    | None =>
      (on_stream (t_write t [2]) ;;;
       packet <- on_stream (t_read t) ;;
       if first_is 1 packet then
         key <- iores (of_crypt (try_from_pem (tl packet))) ;;
         (fun '(s, d) => (Ok key, (s, with_key d key)))
       else if first_is 255 packet then iores (server_error packet (d_capabilities d))
       else iores (Err (EProtocol (PUnexpectedPacket packet)))) (s, d)
    end.

(** src/connection/auth.rs:66-126: full authentication *)
Definition full_auth {S} (t : transport S) (pr : primitives) (secure : bool) (o : conn_options)
  : IO (S * conn_data) unit :=
  let pass := utf8_encode (o_password o) ++ [0] in
  (if secure then on_stream (t_write t pass)
   else
     key <- get_server_key t ;;
     fun '(s, d) =>
       (masked <- iores (of_crypt (mask_password (d_nonce d) pass)) ;;
        encrypted <- iores (of_crypt (p_encrypt pr key masked)) ;;
        on_stream (t_write t encrypted)) (s, d)) ;;;
  res <- on_stream (t_read t) ;;
  fun '(s, d) =>
    if first_is 0 res then (Ok tt, (s, d))
    else if first_is 255 res then (server_error res (d_capabilities d), (s, d))
    else (Err (EProtocol (PUnexpectedPacket res)), (s, d)).

(** [options.auth_plugin().unwrap_or(data.auth_plugin)]: src/connection/auth.rs:16,
    src/connection/init.rs:84 *)
Definition current_plugin (o : conn_options) (d : conn_data) : auth_plugin :=
  match o_auth_plugin o with Some p => p | None => d_auth_plugin d end.

(** src/connection/auth.rs:12-171.  [fuel] bounds the recursion through [perform_auth_switch];
    two levels are enough (C44).  The functions for mysql_native_password (lines 24-42) and
    caching_sha2_password (46-143) differ in the packets starting with 1 only. *)
Fixpoint continue_auth (fuel : nat) {S} (t : transport S) (pr : primitives) (secure : bool) (o : conn_options)
  : IO (S * conn_data) unit :=
  match fuel with
  | O => fun s => (Panic, s)
  | S fuel' =>
    let perform_auth_switch (packet : bytes) : IO (_ * conn_data) unit :=
      request <- iores (of_protocol (read_auth_switch packet)) ;;
      let '(plugin, nonce) := request in
      (fun '(s, d) =>
         if d_auth_switched d then (Panic, (s, d))
         else (Ok tt, (s, switched d plugin nonce))) ;;;
      plugin_data <- iores (gen_data pr plugin (utf8_encode (o_password o)) nonce o) ;;
      on_stream (t_write t (match plugin_data with Some x => plugin_data_serialize x | None => [] end)) ;;;
      continue_auth fuel' t pr secure o in
    fun '(s, d) =>
      (packet <- on_stream (t_read t) ;;
       if first_is 0 packet then ioret tt
       else if (match current_plugin o d with PSha2 => true | _ => false end) && first_is 1 packet then
         (if second_is 3 packet then on_stream (t_read t) ;;; ioret tt
          else if second_is 4 packet then full_auth t pr secure o
          else iores (Err (EProtocol (PUnexpectedPacket packet))))
       else if first_is 254 packet && negb (d_auth_switched d) then perform_auth_switch packet
       else iores (err_or_unexpected packet (d_capabilities d))) (s, d)
  end.

(** src/connection/init.rs:18-27 up to the end of authentication *)
Definition authenticate {S} (t : transport S) (pr : primitives) (debug : bool) (other : Z -> bool)
    (secure : bool) (o : conn_options) : IO S conn_data :=
  greeting <- t_read t ;;
  d <- iores (of_protocol (handle_handshake debug other o greeting)) ;;
  response <- iores (make_handshake_response pr o d) ;;
  t_write t response ;;;
  fun s =>
    match continue_auth 2 t pr secure o (s, d) with
    | (Ok _, (s', d')) => (Ok d', s')
    | (Err e, (s', _)) => (Err e, s')
    | (Panic, (s', _)) => (Panic, s')
    end.
