(** Specification for the serialized form of [Hex]: texts in JSON documents (RFC 8259, section 7) and
    the sources a document can be read from. *)
From Coq Require Import ZArith List Bool.
Import ListNotations.
Open Scope Z_scope.

(** Inside a JSON string: characters as they are or, here for those below 128, written out as \u00XY.
    [copied]: some character is written out, so the text is no part of the document. *)
Inductive json_chars : list Z -> list Z -> bool -> Prop :=
| json_nil : json_chars [] [] false
| json_plain : forall c s d copied, 32 <= c -> c <> 34 -> c <> 92 -> json_chars s d copied -> json_chars (c :: s) (c :: d) copied
| json_written_out : forall h l s d copied, 0 <= h < 8 -> 0 <= l <= 9 -> json_chars s d copied ->
    json_chars (16 * h + l :: s) ([92; 117; 48; 48; 48 + h; 48 + l] ++ d) true.

Definition json_string (s d : list Z) (copied : bool) : Prop :=
  exists w, json_chars s w copied /\ d = [34] ++ w ++ [34].

(** From memory a reader can lend the text to its caller; from a stream or from an already built tree of
    values it cannot. *)
Inductive source : Type := InMemory | Streamed | Tree.
Definition can_lend (src : source) (copied : bool) : bool :=
  match src with InMemory => negb copied | Streamed | Tree => false end.
