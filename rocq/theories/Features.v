(** Connecting in builds without the optional features: what the [cfg] attributes of
    src/connection/types/auth_plugin.rs, auth.rs, init.rs and options.rs leave out.  With the features
    that are on by default (Cargo.toml:20) these functions are those of Handshake.v and Auth.v (C101).
    The features tcpstream (an instance of a trait) and serde (SerdeHex.v) do not change connecting. *)
From Coq Require Import String ZArith List Bool.
From Verif Require Import Base Types Utf8 ParseBuf BufMut Packets Scramble Crypt Handshake Framing Auth.
Import ListNotations.
Open Scope Z_scope.
Open Scope io_scope.

(** The features a build has: Cargo.toml:19-24, src/connection/options.rs:107-114 *)
Record features : Type := mkFeatures { f_sha2 : bool; f_time : bool }.

(** src/connection/types/auth_plugin.rs:46-61 with the attribute of line 55 *)
Definition plugin_from_bytes_with (f : features) (name : bytes) : res protocol_error auth_plugin :=
  let name := strip_zero name in
  if list_eqb name (plugin_bytes PClear) then Ok PClear
  else if list_eqb name (plugin_bytes PNative) then Ok PNative
  else if f_sha2 f && list_eqb name (plugin_bytes PSha2) then Ok PSha2
  else Err (PUnknownAuthPlugin name).

(** src/connection/packets/handshake.rs:28-72 *)
Definition handshake_with (f : features) (debug : bool) : P handshake :=
  (protocol_version <- parse_uint 1 ;;
   server_version <- eat_null_str ;;
   check_len 31 ;;;
   connection_id <- eat_uint 4 ;;
   nonce <- eat 8 ;;
   skip 1 ;;;
   caps1 <- deserialize_lower ;;
   collation <- eat_uint 1 ;;
   status <- status_p ;;
   caps2 <- deserialize_upper ;;
   data_len <- eat_uint 1 ;;
   skip 10 ;;;
   let caps := Z.lor caps1 caps2 in
   nonce <-
     (if has_flag caps CAP_SECURE_CONNECTION
      then len <- nonce_rest_len debug data_len ;;
           rest <- checked_eat len ;;
           pret (nonce ++ rest)
      else pret nonce) ;;
   let nonce := resize20 nonce in
   plugin <-
     (if has_flag caps CAP_PLUGIN_AUTH
      then name <- eat_all ;;
           p <- plift (plugin_from_bytes_with f name) ;;
           pret (Some p)
      else pret None) ;;
   pret (mkHandshake protocol_version server_version connection_id caps collation status data_len nonce plugin))%parse.

(** src/connection/init.rs:56-80; the key (line 69) is there with the feature only, where it is that
    of the options *)
Definition handle_handshake_with (f : features) (debug : bool) (other : Z -> bool) (o : conn_options) (packet : bytes)
  : res protocol_error conn_data :=
  match fst (handshake_with f debug packet) with
  | Err _ | Panic => Panic
  | Ok h =>
    rbind (parse_server_version other (hs_server_version h)) (fun v =>
    let '(version, is_mariadb) := match v with Some x => x | None => ((0, 0, 0), false) end in
    Ok (mkData (hs_connection_id h) is_mariadb version
          (Z.land (hs_capabilities h) (get_capabilities o))
          (hs_nonce h) (if f_sha2 f then o_server_key o else None)
          (match hs_auth_plugin h with Some p => p | None => PNative end)
          false
          (match o_max_allowed_packet o with Some n => n | None => DEFAULT_MAX_ALLOWED_PACKET end)))
  end.

(** src/connection/packets/auth_switch_request.rs:24-37 with src/connection/types/auth_plugin.rs:33-35 *)
Definition read_auth_switch_with (f : features) (packet : bytes) : res protocol_error (auth_plugin * bytes) :=
  fst ((skip 1 ;;; plugin <- (name <- eat_null_slice ;; plift (plugin_from_bytes_with f name)) ;;
        data <- eat_all ;; pret (plugin, strip_zero data))%parse packet).

(** src/connection/auth.rs:12-171 with the attributes of lines 16 and 44: the function for
    caching_sha2_password is there with the feature only.  [fuel] as in Auth.v. *)
Fixpoint continue_auth_with (f : features) (fuel : nat) {S} (t : transport S) (pr : primitives) (secure : bool)
    (o : conn_options) : IO (S * conn_data) unit :=
  match fuel with
  | O => fun s => (Panic, s)
  | S fuel' =>
    let perform_auth_switch (packet : bytes) : IO (_ * conn_data) unit :=
      request <- iores (of_protocol (read_auth_switch_with f packet)) ;;
      let '(plugin, nonce) := request in
      (fun '(s, d) =>
         if d_auth_switched d then (Panic, (s, d))
         else (Ok tt, (s, switched d plugin nonce))) ;;;
      plugin_data <- iores (gen_data pr plugin (utf8_encode (o_password o)) nonce o) ;;
      on_stream (t_write t (match plugin_data with Some x => plugin_data_serialize x | None => [] end)) ;;;
      continue_auth_with f fuel' t pr secure o in
    let native (s : S * conn_data) :=
      (packet <- on_stream (t_read t) ;;
       if first_is 0 packet then ioret tt
       else if first_is 254 packet && negb (d_auth_switched (snd s)) then perform_auth_switch packet
       else iores (err_or_unexpected packet (d_capabilities (snd s)))) s in
    let sha2 (s : S * conn_data) :=
      (packet <- on_stream (t_read t) ;;
       if first_is 0 packet then ioret tt
       else if first_is 1 packet then
         (if second_is 3 packet then on_stream (t_read t) ;;; ioret tt
          else if second_is 4 packet then full_auth t pr secure o
          else iores (Err (EProtocol (PUnexpectedPacket packet))))
       else if first_is 254 packet && negb (d_auth_switched (snd s)) then perform_auth_switch packet
       else iores (err_or_unexpected packet (d_capabilities (snd s)))) s in
    fun s => match current_plugin o (snd s) with
             | PSha2 => if f_sha2 f then sha2 s else native s
             | PNative | PClear => native s
             end
  end.

(** src/connection/init.rs:41-51: the function to sleep with; without the feature it has to be given
    with the options ([sleep]: it is) *)
Definition sleep_with {S} (f : features) (sleep : bool) : IO S unit :=
  fun s => if f_time f || sleep then (Ok tt, s) else (Panic, s).

(** src/connection/init.rs:18-27 up to the end of authentication *)
Definition authenticate_with (f : features) (sleep : bool) {S} (t : transport S) (pr : primitives) (debug : bool)
    (other : Z -> bool) (secure : bool) (o : conn_options) : IO S conn_data :=
  sleep_with f sleep ;;;
  greeting <- t_read t ;;
  d <- iores (of_protocol (handle_handshake_with f debug other o greeting)) ;;
  response <- iores (make_handshake_response pr o d) ;;
  t_write t response ;;;
  fun s =>
    match continue_auth_with f 2 t pr secure o (s, d) with
    | (Ok _, (s', d')) => (Ok d', s')
    | (Err e, (s', _)) => (Err e, s')
    | (Panic, (s', _)) => (Panic, s')
    end.

(** [ConnectionOptions { user, password, ..Default::default() }]: src/connection/options.rs:98-120 *)
Definition default_options_with (f : features) (user password : str) : conn_options :=
  mkOptions user password None None false (if f_sha2 f then Some PSha2 else None) None.

(** [ConnectionOptions::default().sleep]: src/connection/options.rs:113-114 *)
Definition default_sleep : bool := false.
