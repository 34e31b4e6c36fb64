(** Debug output of errors: src/error/mod.rs, src/error/protocol.rs, src/error/parse.rs,
    src/connection/packets/err.rs, src/types/value/mod.rs, src/utils/crypt.rs.  The errors are modelled
    here with the details that Types.v drops. *)
From Coq Require Import String ZArith List Bool.
From Verif Require Import Base Types Utf8 ValueText Crypt Handshake Debug.
Import ListNotations.
Open Scope Z_scope.

(** [std::str::Utf8Error] (valid_up_to, error_len); held at src/error/parse.rs:37 *)
Record utf8_error : Type := mkUtf8Error { ue_valid_up_to : Z; ue_error_len : option Z }.

(** src/error/parse.rs:18-27 *)
Inductive full_flags : Type :=
| GStatus (x : Z) | GCapability (x : Z) | GCursorType (x : Z) | GStmtExecuteParams (x : Z) | GStmtExecuteParam (x : Z)
| GColumn (x : Z) | GColumnType (x : Z).

(** src/error/parse.rs:29-39; [std::string::FromUtf8Error] has the bytes and the Utf8Error. *)
Inductive full_parse : Type :=
| GMissingField (name : str)
| GRowLengthMismatch
| GWrongValue (expected : value_type) (got : value)
| GInvalidValue (ty : value_type) (raw : bytes)
| GValueOutOfBounds (v : value)
| GUnknownBitflags (f : full_flags)
| GUtf8 (e : utf8_error)
| GFromUtf8 (b : bytes) (e : utf8_error).

(** src/error/protocol.rs:7-14; the boxed value as what it prints *)
Inductive full_serialize : Type :=
| GInfallible
| GInvalid (ty : value_type) (text : str)
| GEncryption (e : crypt_error).

(** src/error/protocol.rs:52-61 with lines 30, 45-50; an [io::Error] as what it prints *)
Inductive full_protocol : Type :=
| GParse (e : full_parse)
| GSerialize (e : full_serialize)
| GIo (text : str)
| GOutOfSync
| GUnexpectedPacket (packet : bytes) (expected : option str)
| GInvalidPacket (packet : bytes) (type error : str)
| GUnknownAuthPlugin (name : str).

(** src/error/mod.rs:33-38 *)
Inductive full_error : Type :=
| GServer (e : err_packet)
| GProtocol (e : full_protocol)
| GRuntime (e : runtime_error).

Section Shown.
  (** Which characters std prints as they are; the texts of floats (std), for
      src/types/value/mod.rs:26-27. *)
  Variables (printable : Z -> bool) (f32_text f64_text : Z -> str).

  (** [DebugTuple] (std, derived for enum variants); used at src/error/mod.rs:33-38 *)
  Definition debug_tuple (name : str) (items : list str) : str := name ++ [40] ++ debug_items items ++ [41].

  (** [Debug] of a [Vec<u8>] (std); used at src/error/protocol.rs:38, 41 *)
  Definition debug_bytes (b : bytes) : str := [91] ++ debug_items (map dec b) ++ [93].

  (** Derived [Debug]: src/types/value/mod.rs:38-55 *)
  Definition debug_value_type (t : value_type) : str :=
    match t with
    | TNumber => s2l "Number" | TTiny => s2l "Tiny" | TShort => s2l "Short" | TInt => s2l "Int" | TLong => s2l "Long"
    | TUTiny => s2l "UTiny" | TUShort => s2l "UShort" | TUInt => s2l "UInt" | TULong => s2l "ULong"
    | TFloat => s2l "Float" | TDouble => s2l "Double" | TBytes => s2l "Bytes" | TDate => s2l "Date" | TTime => s2l "Time"
    | TDatetime => s2l "Datetime"
    end.

  (** Derived [Debug]: src/types/value/mod.rs:16-36 *)
  Definition debug_value (v : value) : str :=
    match v with
    | VNull => s2l "Null"
    | VTiny x => debug_tuple (s2l "Tiny") [dec_signed x]
    | VShort x => debug_tuple (s2l "Short") [dec_signed x]
    | VInt x => debug_tuple (s2l "Int") [dec_signed x]
    | VLong x => debug_tuple (s2l "Long") [dec_signed x]
    | VUTiny x => debug_tuple (s2l "UTiny") [dec x]
    | VUShort x => debug_tuple (s2l "UShort") [dec x]
    | VUInt x => debug_tuple (s2l "UInt") [dec x]
    | VULong x => debug_tuple (s2l "ULong") [dec x]
    | VFloat x => debug_tuple (s2l "Float") [f32_text x]
    | VDouble x => debug_tuple (s2l "Double") [f64_text x]
    | VBytes b => debug_tuple (s2l "Bytes") [debug_bytes b]
    | VDate y m d => debug_tuple (s2l "Date") [dec y; dec m; dec d]
    | VTime neg d h m s u => debug_tuple (s2l "Time") [debug_bool neg; dec d; dec h; dec m; dec s; dec u]
    | VDatetime y mo d h mi s u => debug_tuple (s2l "Datetime") [dec y; dec mo; dec d; dec h; dec mi; dec s; dec u]
    end.

  (** Derived [Debug] of [Utf8Error] (std); used at src/error/parse.rs:37 *)
  Definition debug_utf8_error (e : utf8_error) : str :=
    debug_struct (s2l "Utf8Error")
      [(s2l "valid_up_to", dec (ue_valid_up_to e)); (s2l "error_len", debug_option dec (ue_error_len e))].

  (** Derived [Debug]: src/error/parse.rs:18-27 *)
  Definition debug_flags (f : full_flags) : str :=
    match f with
    | GStatus x => debug_tuple (s2l "Status") [dec x]
    | GCapability x => debug_tuple (s2l "Capability") [dec x]
    | GCursorType x => debug_tuple (s2l "CursorType") [dec x]
    | GStmtExecuteParams x => debug_tuple (s2l "StmtExecuteParams") [dec x]
    | GStmtExecuteParam x => debug_tuple (s2l "StmtExecuteParam") [dec x]
    | GColumn x => debug_tuple (s2l "Column") [dec x]
    | GColumnType x => debug_tuple (s2l "ColumnType") [dec x]
    end.

  (** Derived [Debug] at src/error/parse.rs:29-39, for WrongValue lines 7-16, for FromUtf8Error that of std *)
  Definition debug_parse (e : full_parse) : str :=
    match e with
    | GMissingField n => debug_tuple (s2l "MissingField") [debug_str printable n]
    | GRowLengthMismatch => s2l "RowLengthMismatch"
    | GWrongValue t v =>
      debug_tuple (s2l "WrongValue")
        [debug_struct (s2l "WrongValue") [(s2l "expected", debug_value_type t); (s2l "got", debug_value v)]]
    | GInvalidValue t b => debug_tuple (s2l "InvalidValue") [debug_value_type t; debug_bytes b]
    | GValueOutOfBounds v => debug_tuple (s2l "ValueOutOfBounds") [debug_value v]
    | GUnknownBitflags f => debug_tuple (s2l "UnknownBitflags") [debug_flags f]
    | GUtf8 u => debug_tuple (s2l "Utf8") [debug_utf8_error u]
    | GFromUtf8 b u =>
      debug_tuple (s2l "FromUtf8")
        [debug_struct (s2l "FromUtf8Error") [(s2l "bytes", debug_bytes b); (s2l "error", debug_utf8_error u)]]
    end.

  (** Derived [Debug] at src/error/protocol.rs:7-14 and src/utils/crypt.rs:7-11 *)
  Definition debug_serialize (e : full_serialize) : str :=
    match e with
    | GInfallible => s2l "Infallible"
    | GInvalid t text => debug_tuple (s2l "InvalidValue") [debug_value_type t; text]
    | GEncryption InvalidPem => debug_tuple (s2l "Encryption") [s2l "InvalidPem"]
    | GEncryption MessageTooLong => debug_tuple (s2l "Encryption") [s2l "MessageTooLong"]
    end.

  (** src/error/protocol.rs:32-43 *)
  Definition debug_unexpected (packet : bytes) (expected : option str) : str :=
    match expected with
    | Some x => debug_struct (s2l "UnexpectedPacket") [(s2l "expected", debug_str printable x); (s2l "got", debug_bytes packet)]
    | None => debug_tuple (s2l "UnexpectedPacket") [debug_bytes packet]
    end.

  (** Derived [Debug] at src/error/protocol.rs:52-61, for InvalidPacket lines 45-50 *)
  Definition debug_protocol (e : full_protocol) : str :=
    match e with
    | GParse x => debug_tuple (s2l "Parse") [debug_parse x]
    | GSerialize x => debug_tuple (s2l "Serialize") [debug_serialize x]
    | GIo text => debug_tuple (s2l "Io") [text]
    | GOutOfSync => s2l "OutOfSync"
    | GUnexpectedPacket p x => debug_tuple (s2l "UnexpectedPacket") [debug_unexpected p x]
    | GInvalidPacket p t x =>
      debug_tuple (s2l "InvalidPacket")
        [debug_struct (s2l "InvalidPacket")
           [(s2l "packet", debug_bytes p); (s2l "type", debug_str printable t); (s2l "error", debug_str printable x)]]
    | GUnknownAuthPlugin n => debug_tuple (s2l "UnknownAuthPlugin") [debug_str printable n]
    end.

  (** Derived [Debug]: src/error/mod.rs:14-25 *)
  Definition debug_runtime (e : runtime_error) : str :=
    match e with
    | RParameterCountMismatch => s2l "ParameterCountMismatch"
    | RInsecureAuth => s2l "InsecureAuth"
    | RAuthPluginMismatch c r =>
      debug_tuple (s2l "AuthPluginMismatch")
        [debug_struct (s2l "AuthPluginMismatch") [(s2l "current", debug_plugin c); (s2l "requested", debug_plugin r)]]
    end.

  (** Derived [Debug] of the enum [ErrPacket]: src/connection/packets/err.rs:10-14 *)
  Definition debug_server (e : err_packet) : str :=
    debug_tuple (match e with ErrError _ _ _ => s2l "Error" | ErrProgress _ _ _ _ => s2l "Progress" end) [debug_err printable e].

  (** Derived [Debug]: src/error/mod.rs:33-38 *)
  Definition debug_error (e : full_error) : str :=
    match e with
    | GServer x => debug_tuple (s2l "Server") [debug_server x]
    | GProtocol x => debug_tuple (s2l "Protocol") [debug_protocol x]
    | GRuntime x => debug_tuple (s2l "Runtime") [debug_runtime x]
    end.
End Shown.
