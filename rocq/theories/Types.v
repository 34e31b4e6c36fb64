(** Data types of the crate: values, column types, packets carried by errors, errors. *)
From Coq Require Import ZArith List Bool.
From Verif Require Import Base.
Import ListNotations.
Open Scope Z_scope.

(** src/types/value/mod.rs:16-36.  Floats are represented by their IEEE-754 bit pattern
    (the binary protocol moves bits, src/types/value/bin.rs:51-52). *)
Inductive value : Type :=
| VNull
| VTiny (x : Z)
| VShort (x : Z)
| VInt (x : Z)
| VLong (x : Z)
| VUTiny (x : Z)
| VUShort (x : Z)
| VUInt (x : Z)
| VULong (x : Z)
| VFloat (bits : Z)
| VDouble (bits : Z)
| VBytes (b : bytes)
| VDate (year month day : Z)
| VTime (neg : bool) (days hours minutes seconds micros : Z)
| VDatetime (year month day hour minute second micro : Z).

(** Ranges of the fields, from the field types in src/types/value/mod.rs:17-36. *)
Definition value_ok (v : value) : Prop :=
  match v with
  | VNull => True
  | VTiny x => signed_ok 1 x
  | VShort x => signed_ok 2 x
  | VInt x => signed_ok 4 x
  | VLong x => signed_ok 8 x
  | VUTiny x => unsigned_ok 1 x
  | VUShort x => unsigned_ok 2 x
  | VUInt x => unsigned_ok 4 x
  | VULong x => unsigned_ok 8 x
  | VFloat x => unsigned_ok 4 x
  | VDouble x => unsigned_ok 8 x
  | VBytes b => bytes_ok b /\ unsigned_ok 8 (lenZ b)
  | VDate y m d => unsigned_ok 2 y /\ unsigned_ok 1 m /\ unsigned_ok 1 d
  | VTime _ d h m s u =>
      unsigned_ok 4 d /\ unsigned_ok 1 h /\ unsigned_ok 1 m /\ unsigned_ok 1 s /\ unsigned_ok 4 u
  | VDatetime y mo d h mi s u =>
      unsigned_ok 2 y /\ unsigned_ok 1 mo /\ unsigned_ok 1 d /\ unsigned_ok 1 h
      /\ unsigned_ok 1 mi /\ unsigned_ok 1 s /\ unsigned_ok 4 u
  end.

(** src/types/value/mod.rs:38-55 *)
Inductive value_type : Type :=
| TNumber | TTiny | TShort | TInt | TLong | TUTiny | TUShort | TUInt | TULong
| TFloat | TDouble | TBytes | TDate | TTime | TDatetime.

(** src/connection/types/column_type.rs:22-56 *)
Inductive column_type : Type :=
| CDecimal | CTiny | CShort | CLong | CFloat | CDouble | CNull | CTimestamp | CLongLong
| CInt24 | CDate | CTime | CDatetime | CYear | CNewDate | CVarchar | CBit | CTimestamp2
| CDatetime2 | CTime2 | CTypedArray | CUnknown | CJson | CNewDecimal | CEnum | CSet
| CTinyBlob | CMediumBlob | CLongBlob | CBlob | CVarString | CString | CGeometry.

(** [column_type as u8]: src/connection/types/column_type.rs:23-56 *)
Definition column_type_code (t : column_type) : Z :=
  match t with
  | CDecimal => 0 | CTiny => 1 | CShort => 2 | CLong => 3 | CFloat => 4 | CDouble => 5
  | CNull => 6 | CTimestamp => 7 | CLongLong => 8 | CInt24 => 9 | CDate => 10 | CTime => 11
  | CDatetime => 12 | CYear => 13 | CNewDate => 14 | CVarchar => 15 | CBit => 16
  | CTimestamp2 => 17 | CDatetime2 => 18 | CTime2 => 19 | CTypedArray => 20 | CUnknown => 243
  | CJson => 245 | CNewDecimal => 246 | CEnum => 247 | CSet => 248 | CTinyBlob => 249
  | CMediumBlob => 250 | CLongBlob => 251 | CBlob => 252 | CVarString => 253 | CString => 254
  | CGeometry => 255
  end.

(** [ColumnType::try_from(u8)]: src/connection/types/column_type.rs:9-18; [None] is the error. *)
Definition column_type_of (n : Z) : option column_type :=
  match n with
  | 0 => Some CDecimal | 1 => Some CTiny | 2 => Some CShort | 3 => Some CLong
  | 4 => Some CFloat | 5 => Some CDouble | 6 => Some CNull | 7 => Some CTimestamp
  | 8 => Some CLongLong | 9 => Some CInt24 | 10 => Some CDate | 11 => Some CTime
  | 12 => Some CDatetime | 13 => Some CYear | 14 => Some CNewDate | 15 => Some CVarchar
  | 16 => Some CBit | 17 => Some CTimestamp2 | 18 => Some CDatetime2 | 19 => Some CTime2
  | 20 => Some CTypedArray | 243 => Some CUnknown | 245 => Some CJson
  | 246 => Some CNewDecimal | 247 => Some CEnum | 248 => Some CSet | 249 => Some CTinyBlob
  | 250 => Some CMediumBlob | 251 => Some CLongBlob | 252 => Some CBlob
  | 253 => Some CVarString | 254 => Some CString | 255 => Some CGeometry
  | _ => None
  end.

(** src/types/value/mod.rs:58-72 *)
Definition value_column_type (v : value) : column_type :=
  match v with
  | VNull => CNull
  | VTiny _ | VUTiny _ => CTiny
  | VShort _ | VUShort _ => CShort
  | VInt _ | VUInt _ => CLong
  | VLong _ | VULong _ => CLongLong
  | VFloat _ => CFloat
  | VDouble _ => CDouble
  | VBytes _ => CVarString
  | VDate _ _ _ => CDate
  | VTime _ _ _ _ _ _ => CTime
  | VDatetime _ _ _ _ _ _ _ => CDatetime
  end.

(** src/types/value/mod.rs:74-79 *)
Definition value_is_unsigned (v : value) : bool :=
  match v with
  | VUTiny _ | VUShort _ | VUInt _ | VULong _ => true
  | _ => false
  end.

(** src/connection/types/auth_plugin.rs:15-27 (feature caching-sha2-password enabled). *)
Inductive auth_plugin : Type := PClear | PNative | PSha2.

(** [==] on AuthPlugin (derived), src/connection/types/auth_plugin.rs:15. *)
Definition auth_plugin_eqb (a b : auth_plugin) : bool :=
  match a, b with
  | PClear, PClear | PNative, PNative | PSha2, PSha2 => true
  | _, _ => false
  end.

(** src/connection/packets/err.rs:10-14, 39-43, 108-114 *)
Inductive err_packet : Type :=
| ErrError (code : Z) (state : option bytes) (message : str)
| ErrProgress (stage max_stage progress : Z) (stage_info : bytes).

(** src/error/parse.rs:18-27; [FColumnType] etc. carry the rejected bits. *)
Inductive invalid_flags : Type :=
| FStatus (x : Z) | FCapability (x : Z) | FColumn (x : Z) | FColumnType (x : Z).

(** src/error/parse.rs:29-39.  Simplification: the positions inside Utf8Error and
    FromUtf8Error are dropped. *)
Inductive parse_error : Type :=
| EMissingField (name : str)
| ERowLengthMismatch
| EWrongValue (expected : value_type) (got : value)
| EInvalidValue (ty : value_type) (raw : bytes)
| EValueOutOfBounds (v : value)
| EUnknownBitflags (f : invalid_flags)
| EUtf8
| EFromUtf8.

(** src/utils/crypt.rs:7-11 *)
Inductive crypt_error : Type := InvalidPem | MessageTooLong.

(** src/error/protocol.rs:7-14.  Simplification: the boxed debug value is dropped. *)
Inductive serialize_error : Type :=
| SInfallible
| SInvalidValue (ty : value_type)
| SEncryption (e : crypt_error).

(** [std::io::ErrorKind] as far as the crate creates or forwards it:
    UnexpectedEof (src/error/protocol.rs:64-66), TimedOut (src/connection/timeout.rs),
    InvalidData (src/types/value/text.rs:346), anything from the transport. *)
Inductive io_kind : Type := IoUnexpectedEof | IoTimedOut | IoInvalidData | IoOther.

(** src/error/protocol.rs:52-61.  Simplification: the static "expected" texts are dropped;
    UnknownAuthPlugin keeps the raw bytes instead of the lossy string. *)
Inductive protocol_error : Type :=
| PParse (e : parse_error)
| PSerialize (e : serialize_error)
| PIo (k : io_kind)
| POutOfSync
| PUnexpectedPacket (packet : bytes)
| PInvalidPacket (packet : bytes)
| PUnknownAuthPlugin (name : bytes).

(** [ProtocolError::eof()]: src/error/protocol.rs:64-66 *)
Definition peof : protocol_error := PIo IoUnexpectedEof.

(** src/error/mod.rs:20-25 *)
Inductive runtime_error : Type :=
| RParameterCountMismatch
| RInsecureAuth
| RAuthPluginMismatch (current requested : auth_plugin).

(** src/error/mod.rs:33-38 *)
Inductive error : Type :=
| EServer (e : err_packet)
| EProtocol (e : protocol_error)
| ERuntime (e : runtime_error).

(** src/connection/types/column.rs:6-14.  Flags are their u16 bits. *)
Record column : Type := mkColumn {
  col_org_name : str;
  col_name : str;
  col_org_table : str;
  col_table : str;
  col_type : column_type;
  col_flags : Z
}.

(** [flags.contains(bit)] for single-bit flags (bitflags crate; used e.g. in
    src/types/value/bin.rs:219). *)
Definition has_flag (flags bit : Z) : bool := Z.land flags bit =? bit.

(** src/connection/bitflags.rs:394 *)
Definition UNSIGNED_FLAG : Z := 32.
