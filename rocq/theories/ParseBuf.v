(** src/connection/parse_buf.rs and src/connection/serialization.rs.

    A parser takes the remaining buffer and returns the outcome together with the buffer
    that is left; the buffer is returned on errors too, since [ParseBuf] keeps its position. *)
From Coq Require Import ZArith List Bool.
From Verif Require Import Base Types Utf8.
Import ListNotations.
Open Scope Z_scope.

(** [fn(&mut ParseBuf) -> Result<A, ProtocolError>] (src/connection/parse_buf.rs:4). *)
Definition P (A : Type) : Type := bytes -> res protocol_error A * bytes.

(** Sequencing with [?] (e.g. src/connection/packets/ok.rs:47-57). *)
Definition pbind {A B} (m : P A) (f : A -> P B) : P B :=
  fun b => match m b with
           | (Ok a, b') => f a b'
           | (Err e, b') => (Err e, b')
           | (Panic, b') => (Panic, b')
           end.

(** [Ok(a)] (e.g. src/connection/packets/ok.rs:59). *)
Definition pret {A} (a : A) : P A := fun b => (Ok a, b).

(** [return Err(e)] (e.g. src/connection/packets/ok.rs:48). *)
Definition perr {A} (e : protocol_error) : P A := fun b => (Err e, b).

(** Panic inside a parser (e.g. src/types/value/bin.rs:252). *)
Definition ppanic {A} : P A := fun b => (Panic, b).

(** A pure step that may fail (e.g. src/connection/packets/err.rs:95). *)
Definition plift {A} (r : res protocol_error A) : P A := fun b => (r, b).

Declare Scope parse_scope.
Delimit Scope parse_scope with parse.
Notation "x <- m ;; k" := (pbind m (fun x => k))
  (at level 61, m at next level, right associativity) : parse_scope.
Notation "m ;;; k" := (pbind m (fun _ => k))
  (at level 61, right associativity) : parse_scope.
Open Scope parse_scope.

(** src/connection/parse_buf.rs:27-29 *)
Definition skip (n : Z) : P unit :=
  fun b => (Ok tt, dropZ (Z.min n (lenZ b)) b).

(** src/connection/parse_buf.rs:32-38 *)
Definition check_len (n : Z) : P unit :=
  fun b => if lenZ b <? n then (Err peof, b) else (Ok tt, b).

(** src/connection/parse_buf.rs:46-50; [split_at] panics beyond the end. *)
Definition eat (n : Z) : P bytes :=
  fun b => if lenZ b <? n then (Panic, b) else (Ok (takeZ n b), dropZ n b).

(** src/connection/parse_buf.rs:53-59 *)
Definition checked_eat (n : Z) : P bytes :=
  fun b => if lenZ b >=? n then eat n b else (Err peof, b).

(** src/connection/parse_buf.rs:62-66 *)
Definition eat_all : P bytes := fun b => (Ok b, []).

(** src/connection/parse_buf.rs:93-98 (unsigned, [k] bytes; u24 at 110-117 with $size 3) *)
Definition eat_uint (k : nat) : P Z :=
  x <- eat (Z.of_nat k) ;; pret (le_val x).

(** src/connection/parse_buf.rs:100-105, 119-126 (unsigned) *)
Definition checked_eat_uint (k : nat) : P Z :=
  x <- checked_eat (Z.of_nat k) ;; pret (le_val x).

(** src/connection/parse_buf.rs:100-105 (signed; only widths 1, 2, 4, 8 are used by the crate) *)
Definition checked_eat_int (k : nat) : P Z :=
  x <- checked_eat (Z.of_nat k) ;; pret (to_signed k (le_val x)).

(** src/connection/parse_buf.rs:158-166 *)
Definition checked_eat_lenenc_int : P Z :=
  x <- checked_eat_uint 1 ;;
  if x <=? 250 then pret x
  else if x =? 252 then checked_eat_uint 2
  else if x =? 253 then checked_eat_uint 3
  else if x =? 254 then checked_eat_uint 8
  else pret 0.

(** src/connection/parse_buf.rs:148-156 *)
Definition eat_lenenc_int : P Z :=
  x <- eat_uint 1 ;;
  if x <=? 250 then pret x
  else if x =? 252 then eat_uint 2
  else if x =? 253 then eat_uint 3
  else if x =? 254 then eat_uint 8
  else pret 0.

(** src/connection/parse_buf.rs:179-182 *)
Definition checked_eat_lenenc_slice : P bytes :=
  n <- checked_eat_lenenc_int ;; checked_eat n.

(** [std::str::from_utf8(..).map_err(Into::into)]: src/connection/parse_buf.rs:185, 203, 221;
    src/error/parse.rs:65-69 *)
Definition from_utf8 (b : bytes) : res protocol_error str :=
  match utf8_decode b with
  | Some s => Ok s
  | None => Err (PParse EUtf8)
  end.

(** src/connection/parse_buf.rs:184-186 *)
Definition checked_eat_lenenc_str : P str :=
  x <- checked_eat_lenenc_slice ;; plift (from_utf8 x).

(** src/connection/parse_buf.rs:197-200 *)
Definition checked_eat_u8_slice : P bytes :=
  n <- checked_eat_uint 1 ;; checked_eat n.

(** src/connection/parse_buf.rs:202-204 *)
Definition checked_eat_u8_str : P str :=
  x <- checked_eat_u8_slice ;; plift (from_utf8 x).

(** [iter().position(|x| *x == c)] (src/connection/parse_buf.rs:208-212, src/types/value/text.rs:205-208). *)
Fixpoint position (c : Z) (b : bytes) : option Z :=
  match b with
  | [] => None
  | x :: r => if x =? c then Some 0 else option_map (fun i => i + 1) (position c r)
  end.

(** The pattern [[head @ .., 0] => head, all => all]
    (src/connection/parse_buf.rs:214-217, src/connection/types/auth_plugin.rs:47-51,
    src/connection/packets/auth_switch_request.rs:32-35) *)
Definition strip_zero (b : bytes) : bytes :=
  match rev b with
  | 0 :: r => rev r
  | _ => b
  end.

(** src/connection/parse_buf.rs:207-218 *)
Definition eat_null_slice : P bytes :=
  fun b =>
    let pos := match position 0 b with Some i => i + 1 | None => lenZ b end in
    (x <- eat pos ;; pret (strip_zero x)) b.

(** src/connection/parse_buf.rs:220-222 *)
Definition eat_null_str : P str :=
  x <- eat_null_slice ;; plift (from_utf8 x).

(** [buf.parse(())] of an unsigned integer: src/connection/parse_buf.rs:77-87 with
    src/connection/serialization.rs:31-34 *)
Definition parse_uint (k : nat) : P Z :=
  fun b => if lenZ b <? Z.of_nat k then (Err peof, b) else eat_uint k b.
