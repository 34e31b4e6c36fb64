(** The greeting and the handshake response: src/connection/packets/handshake.rs,
    src/connection/packets/handshake_response.rs, src/connection/types/auth_plugin.rs,
    src/connection/options.rs, src/connection/init.rs. *)
From Coq Require Import String ZArith List Bool.
From Verif Require Import Base Types Utf8 ParseBuf BufMut Packets Scramble Crypt.
Import ListNotations.
Open Scope Z_scope.
Open Scope parse_scope.

(** src/connection/bitflags.rs:141 *)
Definition CAP_CONNECT_WITH_DB : Z := 0x8.
(** src/connection/bitflags.rs:200 *)
Definition CAP_TRANSACTIONS : Z := 0x2000.
(** src/connection/bitflags.rs:204 *)
Definition CAP_SECURE_CONNECTION : Z := 0x8000.
(** src/connection/bitflags.rs:227 *)
Definition CAP_PS_MULTI_RESULTS : Z := 0x40000.
(** src/connection/bitflags.rs:240 *)
Definition CAP_PLUGIN_AUTH : Z := 0x80000.
(** src/connection/bitflags.rs:243 *)
Definition CAP_CONNECT_ATTRS : Z := 0x100000.
(** src/connection/bitflags.rs:263 *)
Definition CAP_LENENC_CLIENT_DATA : Z := 0x200000.
(** src/connection/bitflags.rs:295 *)
Definition CAP_DEPRECATE_EOF : Z := 0x1000000.

(** src/connection/types/auth_plugin.rs:9-13, 63-70 *)
Definition plugin_bytes (p : auth_plugin) : bytes :=
  match p with
  | PClear => s2l "mysql_clear_password"
  | PNative => s2l "mysql_native_password"
  | PSha2 => s2l "caching_sha2_password"
  end.

(** src/connection/types/auth_plugin.rs:46-61 *)
Definition plugin_from_bytes (name : bytes) : res protocol_error auth_plugin :=
  let name := strip_zero name in
  if list_eqb name (plugin_bytes PClear) then Ok PClear
  else if list_eqb name (plugin_bytes PNative) then Ok PNative
  else if list_eqb name (plugin_bytes PSha2) then Ok PSha2
  else Err (PUnknownAuthPlugin name).

(** src/connection/types/auth_plugin.rs:33-35 *)
Definition plugin_p : P auth_plugin := name <- eat_null_slice ;; plift (plugin_from_bytes name).

(** src/connection/types/auth_plugin.rs:38-43 *)
Definition plugin_serialize (p : auth_plugin) : bytes := plugin_bytes p ++ [0].

(** src/connection/packets/handshake.rs:12-22 *)
Record handshake : Type := mkHandshake {
  hs_protocol_version : Z;
  hs_server_version : str;
  hs_connection_id : Z;
  hs_capabilities : Z;
  hs_collation : Z;
  hs_status : Z;
  hs_auth_plugin_data_len : Z;
  hs_nonce : bytes;
  hs_auth_plugin : option auth_plugin
}.

(** [StatusFlags::try_from]: src/connection/bitflags.rs:19-22, 42-50 *)
Definition status_p : P Z :=
  x <- eat_uint 2 ;;
  if Z.land x STATUS_ALL =? x then pret x else perr (PParse (EUnknownBitflags (FStatus x))).

(** [HalfInteger::deserialize_lower] of u32: src/connection/types/ints.rs:27-29 *)
Definition deserialize_lower : P Z := eat_uint 2.

(** [HalfInteger::deserialize_upper] of u32: src/connection/types/ints.rs:23-25 *)
Definition deserialize_upper : P Z := x <- eat_uint 2 ;; pret (Z.shiftl x 16).

(** [HalfInteger::serialize_upper] of u32: src/connection/types/ints.rs:15-17 (never called) *)
Definition serialize_upper (n : Z) : bytes := le_bytes 2 (Z.shiftr n 16).

(** [HalfInteger::serialize_lower] of u32: src/connection/types/ints.rs:19-21 (never called) *)
Definition serialize_lower (n : Z) : bytes := le_bytes 2 (Z.land n 65535).

(** src/connection/packets/handshake.rs:47.  The subtraction overflows an i8 for lengths 128 to
    135: panic with overflow checks ([debug]), wrap-around without. *)
Definition nonce_rest_len (debug : bool) (len : Z) : P Z :=
  let d := to_signed 1 len - 8 in
  if d <? -128 then (if debug then ppanic else pret (Z.max 13 (d + 256)))
  else pret (Z.max 13 d).

(** [Vec::resize(20, 0)]: src/connection/packets/handshake.rs:53 *)
Definition resize20 (v : bytes) : bytes := takeZ 20 v ++ repeatZ 0 (20 - lenZ v).

(** src/connection/packets/handshake.rs:28-72.  All 32 capability bits are defined
    (src/connection/bitflags.rs:120-351), so [CapabilityFlags::try_from] (line 44) succeeds. *)
Definition handshake_p (debug : bool) : P handshake :=
  protocol_version <- parse_uint 1 ;;
  server_version <- eat_null_str ;;
  check_len 31 ;;;
  connection_id <- eat_uint 4 ;;
  nonce <- eat 8 ;;
  skip 1 ;;;
  caps1 <- deserialize_lower ;;
  collation <- eat_uint 1 ;;
  status <- status_p ;;
  caps2 <- deserialize_upper ;;
  data_len <- eat_uint 1 ;;
  skip 10 ;;;
  let caps := Z.lor caps1 caps2 in
  nonce <-
    (if has_flag caps CAP_SECURE_CONNECTION
     then len <- nonce_rest_len debug data_len ;;
          rest <- checked_eat len ;;
          pret (nonce ++ rest)
     else pret nonce) ;;
  let nonce := resize20 nonce in
  plugin <-
    (if has_flag caps CAP_PLUGIN_AUTH
     then name <- eat_all ;;
          p <- plift (plugin_from_bytes name) ;;
          pret (Some p)
     else pret None) ;;
  pret (mkHandshake protocol_version server_version connection_id caps collation status data_len nonce plugin).

(** [ParseBuf(&packet).parse::<HandshakePacket>(())]: src/connection/init.rs:56 *)
Definition read_handshake (debug : bool) (packet : bytes) : res protocol_error handshake :=
  fst (handshake_p debug packet).

(** [char::is_alphanumeric] (std): ASCII letters and digits; [other] decides above ASCII.
    src/connection/packets/handshake.rs:88 *)
Definition is_alphanumeric (other : Z -> bool) (c : Z) : bool :=
  if c <? 128 then
    ((48 <=? c) && (c <=? 57)) || ((65 <=? c) && (c <=? 90)) || ((97 <=? c) && (c <=? 122))
  else other c.

(** [string.chars().position(..)]: src/connection/packets/handshake.rs:88 *)
Fixpoint find_char (f : Z -> bool) (s : str) : option Z :=
  match s with
  | [] => None
  | c :: r => if f c then Some 0 else option_map (fun i => i + 1) (find_char f r)
  end.

(** Splitting a [str] at a byte index; [None] (a panic) inside a character or beyond the end:
    src/connection/packets/handshake.rs:90-91 *)
Fixpoint split_bytes (s : str) (n : Z) : option (str * str) :=
  if n =? 0 then Some ([], s)
  else if n <? 0 then None
  else match s with
       | [] => None
       | c :: r => option_map (fun '(a, b) => (c :: a, b)) (split_bytes r (n - lenZ (utf8_encode_char c)))
       end.

(** Decimal digits of [u16::from_str] (std). *)
Fixpoint u16_digits (acc : Z) (s : str) : option Z :=
  match s with
  | [] => Some acc
  | c :: r =>
    if (48 <=? c) && (c <=? 57) then
      let acc' := acc * 10 + (c - 48) in
      if acc' <? 65536 then u16_digits acc' r else None
    else None
  end.

(** [u16::from_str] (std): src/connection/packets/handshake.rs:90, 95 *)
Definition u16_from_str (s : str) : option Z :=
  match s with
  | [] => None
  | [43] => None
  | 43 :: r => u16_digits 0 r
  | _ => u16_digits 0 s
  end.

(** src/connection/packets/handshake.rs:87-100: the number and the rest of the text *)
Definition eat_int (other : Z -> bool) (s : str) : res protocol_error (option Z * str) :=
  match find_char (fun c => negb (is_alphanumeric other c)) s with
  | Some pos =>
    match split_bytes s pos, split_bytes s (pos + 1) with
    | Some (a, _), Some (_, b) => Ok (u16_from_str a, b)
    | _, _ => Panic
    end
  | None => Ok (u16_from_str s, [])
  end.

(** src/connection/packets/handshake.rs:85-108 *)
Definition parse_server_version (other : Z -> bool) (v : str)
  : res protocol_error (option ((Z * Z * Z) * bool)) :=
  rbind (eat_int other v) (fun '(a, v1) =>
  match a with
  | None => Ok None
  | Some a =>
    rbind (eat_int other v1) (fun '(b, v2) =>
    match b with
    | None => Ok None
    | Some b =>
      rbind (eat_int other v2) (fun '(c, v3) =>
      match c with
      | None => Ok None
      | Some c => Ok (Some ((a, b, c), starts_with v3 (s2l "MariaDB")))
      end)
    end)
  end).

(** src/connection/options.rs:24-40.  [o_password] etc. are text; the transport options, the
    timeout and the sleep function are outside the model. *)
Record conn_options : Type := mkOptions {
  o_user : str;
  o_password : str;
  o_db_name : option str;
  o_max_allowed_packet : option Z;
  o_allow_cleartext : bool;
  o_auth_plugin : option auth_plugin;
  o_server_key : option public_key
}.

(** src/connection/options.rs:81-94 *)
Definition get_capabilities (o : conn_options) : Z :=
  let out := Z.lor (Z.lor (Z.lor (Z.lor (Z.lor CAP_PROTOCOL_41 CAP_SECURE_CONNECTION) CAP_TRANSACTIONS)
                                 CAP_PS_MULTI_RESULTS) CAP_DEPRECATE_EOF) CAP_PLUGIN_AUTH in
  match o_db_name o with
  | Some _ => Z.lor out CAP_CONNECT_WITH_DB
  | None => out
  end.

(** src/connection/data.rs:7-20 without the sleep function *)
Record conn_data : Type := mkData {
  d_id : Z;
  d_is_mariadb : bool;
  d_version : Z * Z * Z;
  d_capabilities : Z;
  d_nonce : bytes;
  d_server_key : option public_key;
  d_auth_plugin : auth_plugin;
  d_auth_switched : bool;
  d_max_allowed_packet : Z
}.

(** src/connection/mod.rs:18 *)
Definition DEFAULT_MAX_ALLOWED_PACKET : Z := 4 * 1024 * 1024.

(** src/connection/init.rs:56-80: from the greeting packet; [unwrap] at line 56 panics on any
    parse error. *)
Definition handle_handshake (debug : bool) (other : Z -> bool) (o : conn_options) (packet : bytes)
  : res protocol_error conn_data :=
  match read_handshake debug packet with
  | Err _ | Panic => Panic
  | Ok h =>
    rbind (parse_server_version other (hs_server_version h)) (fun v =>
    let '(version, is_mariadb) := match v with Some x => x | None => ((0, 0, 0), false) end in
    Ok (mkData (hs_connection_id h) is_mariadb version
          (Z.land (hs_capabilities h) (get_capabilities o))
          (hs_nonce h) (o_server_key o)
          (match hs_auth_plugin h with Some p => p | None => PNative end)
          false
          (match o_max_allowed_packet o with Some n => n | None => DEFAULT_MAX_ALLOWED_PACKET end)))
  end.

(** src/connection/types/auth_plugin.rs:107-117 (the variant for mysql_old_password is never
    built) *)
Inductive auth_plugin_data : Type :=
| DClear (x : bytes)
| DNative (x : bytes)
| DSha2 (x : bytes).

(** src/connection/types/auth_plugin.rs:119-130 *)
Definition plugin_data_bytes (d : auth_plugin_data) : bytes :=
  match d with DClear x | DNative x | DSha2 x => x end.

(** src/connection/types/auth_plugin.rs:132-147 *)
Definition plugin_data_serialize (d : auth_plugin_data) : bytes :=
  match d with
  | DClear x => x ++ [0]
  | DNative x | DSha2 x => x
  end.

(** The cryptographic primitives the connection uses: hashes of the crates sha1 and sha2
    (src/utils/scramble.rs) and [PublicKey::encrypt_padded] with a fresh random seed
    (src/connection/auth.rs:108-111). *)
Record primitives : Type := mkPrims {
  p_sha1 : bytes -> bytes;
  p_sha256 : bytes -> bytes;
  p_encrypt : public_key -> bytes -> res crypt_error bytes
}.

(** src/connection/types/auth_plugin.rs:77-104 *)
Definition gen_data (pr : primitives) (p : auth_plugin) (pass nonce : bytes) (o : conn_options)
  : res error (option auth_plugin_data) :=
  let mismatch := match o_auth_plugin o with
                  | Some f => if auth_plugin_eqb p f then None else Some (RAuthPluginMismatch f p)
                  | None => None
                  end in
  match mismatch with
  | Some e => Err (ERuntime e)
  | None =>
    match p with
    | PClear => if o_allow_cleartext o then Ok (Some (DClear pass)) else Err (ERuntime RInsecureAuth)
    | PNative => Ok (option_map DNative (scramble_native (p_sha1 pr) nonce pass))
    | PSha2 => Ok (option_map DSha2 (scramble_sha256 (p_sha256 pr) nonce pass))
    end
  end.

(** src/connection/packets/handshake_response.rs:25-30 *)
Inductive scramble_encoding : Type := EncLenEnc | EncU8 | EncNull.

(** src/connection/packets/handshake_response.rs:12-23; the attributes (always absent,
    src/connection/init.rs:95) as a list of pairs. *)
Record handshake_response : Type := mkResponse {
  hr_capabilities : Z;
  hr_max_packet_size : Z;
  hr_collation : Z;
  hr_scramble : bytes;
  hr_encoding : scramble_encoding;
  hr_user : bytes;
  hr_db_name : option bytes;
  hr_auth_plugin : option auth_plugin;
  hr_attributes : option (list (bytes * bytes))
}.

(** [CapabilityFlags::insert] / [remove] (bitflags crate):
    src/connection/packets/handshake_response.rs:89-105 *)
Definition set_flag (present : bool) (caps bit : Z) : Z :=
  if present then Z.lor caps bit else Z.ldiff caps bit.

(** [Option::is_some]: src/connection/packets/handshake_response.rs:89 *)
Definition is_some {A} (o : option A) : bool := match o with Some _ => true | None => false end.

(** [>= (5, 5, 3)] on tuples: src/connection/packets/handshake_response.rs:110 *)
Definition version_ge_553 (v : Z * Z * Z) : bool :=
  let '(a, b, c) := v in
  (5 <? a) || ((a =? 5) && ((5 <? b) || ((b =? 5) && (3 <=? c)))).

(** src/connection/packets/handshake_response.rs:70-122 *)
Definition response_new (scramble : bytes) (version : Z * Z * Z) (user : bytes) (db_name : option bytes)
    (plugin : option auth_plugin) (caps : Z) (attrs : option (list (bytes * bytes))) (max_packet_size : Z)
  : handshake_response :=
  let encoding := if has_flag caps CAP_LENENC_CLIENT_DATA then EncLenEnc
                  else if has_flag caps CAP_SECURE_CONNECTION then EncU8 else EncNull in
  let caps := set_flag (is_some db_name) caps CAP_CONNECT_WITH_DB in
  let caps := set_flag (is_some plugin) caps CAP_PLUGIN_AUTH in
  let caps := set_flag (is_some attrs) caps CAP_CONNECT_ATTRS in
  mkResponse caps max_packet_size (if version_ge_553 version then 45 else 33)
    scramble encoding user db_name plugin attrs.

(** src/connection/packets/handshake_response.rs:33-65 *)
Definition response_serialize (r : handshake_response) : bytes :=
  le_bytes 4 (hr_capabilities r) ++ le_bytes 4 (hr_max_packet_size r) ++ le_bytes 1 (hr_collation r)
  ++ repeatZ 0 23 ++ put_null_slice (hr_user r)
  ++ (match hr_encoding r with
      | EncLenEnc => put_lenenc_slice (hr_scramble r)
      | EncU8 => put_u8_slice (hr_scramble r)
      | EncNull => put_null_slice (hr_scramble r)
      end)
  ++ (match hr_db_name r with Some db => put_null_slice db | None => [] end)
  ++ (match hr_auth_plugin r with Some p => plugin_serialize p | None => [] end)
  ++ (match hr_attributes r with
      | Some attrs =>
        put_lenenc_int (fold_right (fun '(k, v) n => lenenc_slice_len k + lenenc_slice_len v + n) 0 attrs)
        ++ flat_map (fun '(k, v) => put_lenenc_slice k ++ put_lenenc_slice v) attrs
      | None => []
      end).

(** src/connection/init.rs:83-101: the packet that is written *)
Definition make_handshake_response (pr : primitives) (o : conn_options) (d : conn_data) : res error bytes :=
  let plugin := match o_auth_plugin o with Some p => p | None => d_auth_plugin d end in
  rbind (gen_data pr plugin (utf8_encode (o_password o)) (d_nonce d) o) (fun auth_data =>
  Ok (response_serialize
        (response_new (match auth_data with Some x => plugin_data_bytes x | None => [] end)
           (d_version d) (utf8_encode (o_user o)) (option_map utf8_encode (o_db_name o))
           (Some plugin) (d_capabilities d) None (d_max_allowed_packet d mod 2 ^ 32)))).
