(** The serde support of [Hex]: src/types/hex.rs:59-80, with the parts of crate serde it uses.  Texts are
    given as their UTF-8 bytes, as in Hex.v. *)
From Coq Require Import String ZArith List Bool.
From Verif Require Import Base Utf8 Hex.
Import ListNotations.
Open Scope Z_scope.

(** The call on the [Serializer]: [serialize_newtype_struct] with a [String] (src/types/hex.rs:66). *)
Inductive ser_call : Type := SerNewtypeString (name content : bytes).

(** [Serialize for Hex]: src/types/hex.rs:61-68 *)
Definition hex_serialize (b : bytes) : ser_call := SerNewtypeString (s2l "Hex") (hex_display b).

(** What a [Deserializer] answers to [deserialize_str], i.e. the method of the [Visitor] it calls: text
    or bytes of the input itself, text or bytes held elsewhere, or anything else.
    (trait [Visitor] of crate serde; src/types/hex.rs:77) *)
Inductive visit : Type :=
| VisitBorrowedStr (s : bytes)
| VisitStr (s : bytes)
| VisitBorrowedBytes (b : bytes)
| VisitBytes (b : bytes)
| VisitOther.

(** Errors: [de::Error::invalid_type], [invalid_value] (crate serde) and [custom] (src/types/hex.rs:78) *)
Inductive de_error : Type :=
| DInvalidType
| DInvalidValue
| DCustom (e : hex_error).

(** [Visitor for StrVisitor] (crate serde, the implementation for [&str]; src/types/hex.rs:77): the
    methods for text and bytes of the input are implemented, all others are errors. *)
Definition str_visitor (v : visit) : res de_error bytes :=
  match v with
  | VisitBorrowedStr s => Ok s
  | VisitBorrowedBytes b => match utf8_decode b with Some _ => Ok b | None => Err DInvalidValue end
  | VisitStr _ | VisitBytes _ | VisitOther => Err DInvalidType
  end.

(** [Deserialize for Hex]: src/types/hex.rs:73-79 *)
Definition hex_deserialize (v : visit) : res de_error bytes :=
  rbind (str_visitor v) (fun s =>
  match hex_from_str s with
  | Ok b => Ok b
  | Err e => Err (DCustom e)
  | Panic => Panic
  end).
