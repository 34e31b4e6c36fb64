(** How a reader of Rust's debug output understands it: numbers, string literals, lists, and named
    things with unnamed or named parts.  Then which of these each error is.  Independent of the
    model's printing functions. *)
From Coq Require Import String ZArith List Bool.
From Verif Require Import Base Types Utf8 Shown Spec_Text Spec_Debug.
Import ListNotations.
Open Scope Z_scope.

Inductive tree : Type :=
| Num (n : Z)
| Text (s : str)
| Given (s : str)                                  (* a text this crate does not write *)
| Name (name : str)
| Items (l : list tree)
| Tuple (name : str) (l : list tree)
| Struct (name : str) (l : list (str * tree)).

(** The parts with ", " between them. *)
Inductive separated : list str -> str -> Prop :=
| sep_none : separated [] []
| sep_last : forall a, separated [a] a
| sep_more : forall a b l r, separated (b :: l) r -> separated (a :: b :: l) (a ++ s2l ", " ++ r).

Inductive prints : tree -> str -> Prop :=
| prints_num : forall n t, signed_text n t -> prints (Num n) t
| prints_text : forall s l, literal InText l = Some (s, []) -> prints (Text s) (34 :: l)
| prints_given : forall s, prints (Given s) s
| prints_name : forall s, prints (Name s) s
| prints_items : forall l ts t, prints_all l ts -> separated ts t -> prints (Items l) (s2l "[" ++ t ++ s2l "]")
| prints_tuple : forall n l ts t, prints_all l ts -> separated ts t -> prints (Tuple n l) (n ++ s2l "(" ++ t ++ s2l ")")
| prints_struct : forall n l ts t, prints_fields l ts -> separated ts t -> prints (Struct n l) (n ++ s2l " { " ++ t ++ s2l " }")
with prints_all : list tree -> list str -> Prop :=
| all_none : prints_all [] []
| all_more : forall a t l ts, prints a t -> prints_all l ts -> prints_all (a :: l) (t :: ts)
with prints_fields : list (str * tree) -> list str -> Prop :=
| fields_none : prints_fields [] []
| fields_more : forall n a t l ts, prints a t -> prints_fields l ts -> prints_fields ((n, a) :: l) ((n ++ s2l ": " ++ t) :: ts).

Section Trees.
  Variables (f32_text f64_text : Z -> str).

  Definition number_list (b : bytes) : tree := Items (map Num b).

  Definition type_tree (t : value_type) : tree :=
    Name (s2l match t with
              | TNumber => "Number" | TTiny => "Tiny" | TShort => "Short" | TInt => "Int" | TLong => "Long" | TUTiny => "UTiny"
              | TUShort => "UShort" | TUInt => "UInt" | TULong => "ULong" | TFloat => "Float" | TDouble => "Double"
              | TBytes => "Bytes" | TDate => "Date" | TTime => "Time" | TDatetime => "Datetime"
              end).

  Definition value_tree (v : value) : tree :=
    match v with
    | VNull => Name (s2l "Null")
    | VTiny x => Tuple (s2l "Tiny") [Num x] | VShort x => Tuple (s2l "Short") [Num x]
    | VInt x => Tuple (s2l "Int") [Num x] | VLong x => Tuple (s2l "Long") [Num x]
    | VUTiny x => Tuple (s2l "UTiny") [Num x] | VUShort x => Tuple (s2l "UShort") [Num x]
    | VUInt x => Tuple (s2l "UInt") [Num x] | VULong x => Tuple (s2l "ULong") [Num x]
    | VFloat x => Tuple (s2l "Float") [Given (f32_text x)] | VDouble x => Tuple (s2l "Double") [Given (f64_text x)]
    | VBytes b => Tuple (s2l "Bytes") [number_list b]
    | VDate y m d => Tuple (s2l "Date") (map Num [y; m; d])
    | VTime neg d h m s u => Tuple (s2l "Time") (Name (s2l (if neg then "true" else "false")) :: map Num [d; h; m; s; u])
    | VDatetime y mo d h mi s u => Tuple (s2l "Datetime") (map Num [y; mo; d; h; mi; s; u])
    end.

  Definition option_tree {A} (f : A -> tree) (o : option A) : tree :=
    match o with Some a => Tuple (s2l "Some") [f a] | None => Name (s2l "None") end.

  Definition utf8_tree (e : utf8_error) : tree :=
    Struct (s2l "Utf8Error") [(s2l "valid_up_to", Num (ue_valid_up_to e)); (s2l "error_len", option_tree Num (ue_error_len e))].

  Definition flags_tree (f : full_flags) : tree :=
    match f with
    | GStatus x => Tuple (s2l "Status") [Num x] | GCapability x => Tuple (s2l "Capability") [Num x]
    | GCursorType x => Tuple (s2l "CursorType") [Num x] | GStmtExecuteParams x => Tuple (s2l "StmtExecuteParams") [Num x]
    | GStmtExecuteParam x => Tuple (s2l "StmtExecuteParam") [Num x] | GColumn x => Tuple (s2l "Column") [Num x]
    | GColumnType x => Tuple (s2l "ColumnType") [Num x]
    end.

  Definition parse_tree (e : full_parse) : tree :=
    match e with
    | GMissingField n => Tuple (s2l "MissingField") [Text n]
    | GRowLengthMismatch => Name (s2l "RowLengthMismatch")
    | GWrongValue t v =>
      Tuple (s2l "WrongValue") [Struct (s2l "WrongValue") [(s2l "expected", type_tree t); (s2l "got", value_tree v)]]
    | GInvalidValue t b => Tuple (s2l "InvalidValue") [type_tree t; number_list b]
    | GValueOutOfBounds v => Tuple (s2l "ValueOutOfBounds") [value_tree v]
    | GUnknownBitflags f => Tuple (s2l "UnknownBitflags") [flags_tree f]
    | GUtf8 u => Tuple (s2l "Utf8") [utf8_tree u]
    | GFromUtf8 b u =>
      Tuple (s2l "FromUtf8") [Struct (s2l "FromUtf8Error") [(s2l "bytes", number_list b); (s2l "error", utf8_tree u)]]
    end.

  Definition serialize_tree (e : full_serialize) : tree :=
    match e with
    | GInfallible => Name (s2l "Infallible")
    | GInvalid t text => Tuple (s2l "InvalidValue") [type_tree t; Given text]
    | GEncryption InvalidPem => Tuple (s2l "Encryption") [Name (s2l "InvalidPem")]
    | GEncryption MessageTooLong => Tuple (s2l "Encryption") [Name (s2l "MessageTooLong")]
    end.

  Definition protocol_tree (e : full_protocol) : tree :=
    match e with
    | GParse x => Tuple (s2l "Parse") [parse_tree x]
    | GSerialize x => Tuple (s2l "Serialize") [serialize_tree x]
    | GIo text => Tuple (s2l "Io") [Given text]
    | GOutOfSync => Name (s2l "OutOfSync")
    | GUnexpectedPacket p (Some x) =>
      Tuple (s2l "UnexpectedPacket") [Struct (s2l "UnexpectedPacket") [(s2l "expected", Text x); (s2l "got", number_list p)]]
    | GUnexpectedPacket p None => Tuple (s2l "UnexpectedPacket") [Tuple (s2l "UnexpectedPacket") [number_list p]]
    | GInvalidPacket p t x =>
      Tuple (s2l "InvalidPacket")
        [Struct (s2l "InvalidPacket") [(s2l "packet", number_list p); (s2l "type", Text t); (s2l "error", Text x)]]
    | GUnknownAuthPlugin n => Tuple (s2l "UnknownAuthPlugin") [Text n]
    end.

  Definition plugin_tree (p : auth_plugin) : tree :=
    Name (s2l match p with PClear => "Clear" | PNative => "Native" | PSha2 => "Sha2" end).

  Definition runtime_tree (e : runtime_error) : tree :=
    match e with
    | RParameterCountMismatch => Name (s2l "ParameterCountMismatch")
    | RInsecureAuth => Name (s2l "InsecureAuth")
    | RAuthPluginMismatch c r =>
      Tuple (s2l "AuthPluginMismatch")
        [Struct (s2l "AuthPluginMismatch") [(s2l "current", plugin_tree c); (s2l "requested", plugin_tree r)]]
    end.

  (** The state is shown as the text it is; [t] is that text. *)
  Inductive server_tree : err_packet -> tree -> Prop :=
  | server_state : forall code t m,
      server_tree (ErrError code (Some (utf8_encode t)) m)
        (Tuple (s2l "Error") [Struct (s2l "ErrorPacket") [(s2l "code", Num code); (s2l "state", Text t); (s2l "message", Text m)]])
  | server_plain : forall code m,
      server_tree (ErrError code None m)
        (Tuple (s2l "Error") [Struct (s2l "ErrorPacket") [(s2l "code", Num code); (s2l "message", Text m)]])
  | server_progress : forall a b c info,
      server_tree (ErrProgress a b c info)
        (Tuple (s2l "Progress") [Struct (s2l "ProgressPacket")
           [(s2l "stage", Num a); (s2l "max_stage", Num b); (s2l "progress", Num c); (s2l "stage_info", number_list info)]]).

  Inductive error_tree : full_error -> tree -> Prop :=
  | tree_server : forall e t, server_tree e t -> error_tree (GServer e) (Tuple (s2l "Server") [t])
  | tree_protocol : forall e, error_tree (GProtocol e) (Tuple (s2l "Protocol") [protocol_tree e])
  | tree_runtime : forall e, error_tree (GRuntime e) (Tuple (s2l "Runtime") [runtime_tree e]).
End Trees.

(** ** What the parts of an error can be *)

(** Bit patterns that are not a number. *)
Definition f32_nan (bits : Z) : Prop := bits mod 2 ^ 31 > 255 * 2 ^ 23.
Definition f64_nan (bits : Z) : Prop := bits mod 2 ^ 63 > 2047 * 2 ^ 52.

Definition no_nan (v : value) : Prop :=
  match v with VFloat x => ~ f32_nan x | VDouble x => ~ f64_nan x | _ => True end.

Definition utf8_error_ok (e : utf8_error) : Prop :=
  0 <= ue_valid_up_to e /\ match ue_error_len e with Some n => 0 <= n | None => True end.

Definition flags_ok (f : full_flags) : Prop :=
  match f with
  | GStatus x | GCapability x | GCursorType x | GStmtExecuteParams x | GStmtExecuteParam x | GColumn x | GColumnType x => 0 <= x
  end.

Definition parse_ok (e : full_parse) : Prop :=
  match e with
  | GMissingField n => str_ok n
  | GRowLengthMismatch => True
  | GWrongValue _ v | GValueOutOfBounds v => value_ok v
  | GInvalidValue _ b => bytes_ok b
  | GUnknownBitflags f => flags_ok f
  | GUtf8 u => utf8_error_ok u
  | GFromUtf8 b u => bytes_ok b /\ utf8_error_ok u
  end.

Definition protocol_ok (e : full_protocol) : Prop :=
  match e with
  | GParse x => parse_ok x
  | GSerialize _ | GIo _ | GOutOfSync => True
  | GUnexpectedPacket p x => bytes_ok p /\ match x with Some s => str_ok s | None => True end
  | GInvalidPacket p t x => bytes_ok p /\ str_ok t /\ str_ok x
  | GUnknownAuthPlugin n => str_ok n
  end.

Definition server_ok (e : err_packet) : Prop :=
  match e with
  | ErrError code state message => 0 <= code /\ str_ok message /\
      match state with Some s => exists t, str_ok t /\ utf8_encode t = s | None => True end
  | ErrProgress a b c info => 0 <= a /\ 0 <= b /\ 0 <= c /\ Forall (fun n => 0 <= n) info
  end.

Definition error_ok (e : full_error) : Prop :=
  match e with GServer x => server_ok x | GProtocol x => protocol_ok x | GRuntime _ => True end.

Definition error_no_nan (e : full_error) : Prop :=
  match e with
  | GProtocol (GParse (GWrongValue _ v)) | GProtocol (GParse (GValueOutOfBounds v)) => no_nan v
  | _ => True
  end.

(** What std prints for floating-point numbers: letters, digits, point and sign; different texts for
    different numbers. *)
Definition float_char (c : Z) : Prop := c <> 44 /\ c <> 41 /\ c <> 32.
Definition float_texts (width : nat) (nan : Z -> Prop) (text : Z -> str) : Prop :=
  (forall a, Forall float_char (text a)) /\
  (forall a b, unsigned_ok width a -> unsigned_ok width b -> ~ nan a -> ~ nan b -> text a = text b -> a = b).
