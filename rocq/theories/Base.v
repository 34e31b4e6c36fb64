(** Common ground of the model: results, byte strings, integer widths.

    Source tree: /repo.  Rust integers are [Z] with explicit range predicates,
    byte strings and character strings are [list Z]. *)
From Coq Require Import ZArith List Bool Lia String Ascii.
Import ListNotations.
Open Scope Z_scope.

(** Rust [Result] with an explicit outcome for a panic.
    (std::result::Result; panics of slices, unwrap, unimplemented! as in src/types/value/bin.rs:252) *)
Inductive res (E A : Type) : Type :=
| Ok (a : A)
| Err (e : E)
| Panic.
Arguments Ok {E A} a.
Arguments Err {E A} e.
Arguments Panic {E A}.

(** The [?] operator without state (used throughout, e.g. src/types/value/text.rs:205-216). *)
Definition rbind {E A B} (m : res E A) (f : A -> res E B) : res E B :=
  match m with
  | Ok a => f a
  | Err e => Err e
  | Panic => Panic
  end.

(** [Result::map] (e.g. src/types/value/bin.rs:230). *)
Definition rmap {E A B} (f : A -> B) (m : res E A) : res E B :=
  rbind m (fun a => Ok (f a)).

(** [Result::map_err] (e.g. src/types/value/text.rs:212). *)
Definition rmap_err {E F A} (f : E -> F) (m : res E A) : res F A :=
  match m with
  | Ok a => Ok a
  | Err e => Err (f e)
  | Panic => Panic
  end.

(** Byte strings: Rust [&[u8]] / [Vec<u8>] (src/connection/parse_buf.rs:4). *)
Definition bytes : Type := list Z.

(** Character strings: Rust [&str] as its [chars()] (src/types/value/text.rs:18). *)
Definition str : Type := list Z.

(** A Rust [u8] (primitive type). *)
Definition byte_ok (b : Z) : Prop := 0 <= b < 256.

(** A Rust byte slice holds bytes only (primitive type). *)
Definition bytes_ok (l : bytes) : Prop := Forall byte_ok l.

(** Unsigned range of [k] bytes (primitive types u8 .. u64), as read and written
    by src/connection/parse_buf.rs:90-145 and src/utils/buf_mut_ext.rs:5-46. *)
Definition unsigned_ok (k : nat) (n : Z) : Prop := 0 <= n < 256 ^ Z.of_nat k.

(** Signed range of [k] bytes (primitive types i8 .. i64), as read and written
    by src/connection/parse_buf.rs:90-145 and src/utils/buf_mut_ext.rs:5-46. *)
Definition signed_ok (k : nat) (n : Z) : Prop :=
  - (256 ^ Z.of_nat k / 2) <= n < 256 ^ Z.of_nat k / 2.

(** [slice.len()] (src/connection/parse_buf.rs:22-24). *)
Definition lenZ {A} (l : list A) : Z := Z.of_nat (List.length l).

(** [&s[..n]] without bounds check (src/connection/parse_buf.rs:47, split_at left half). *)
Fixpoint takeZ {A} (n : Z) (l : list A) : list A :=
  match l with
  | [] => []
  | x :: r => if n <=? 0 then [] else x :: takeZ (n - 1) r
  end.

(** [&s[n..]] without bounds check (src/connection/parse_buf.rs:47, split_at right half). *)
Fixpoint dropZ {A} (n : Z) (l : list A) : list A :=
  match l with
  | [] => []
  | x :: r => if n <=? 0 then l else dropZ (n - 1) r
  end.

(** [s[i]]; [None] where Rust panics (e.g. src/connection/result_set.rs:77). *)
Definition index_opt {A} (l : list A) (i : Z) : option A :=
  if i <? 0 then None else nth_error l (Z.to_nat i).

(** [vec![x; n]] (e.g. src/connection/types/null_bitmap.rs:47). *)
Definition repeatZ {A} (x : A) (n : Z) : list A := repeat x (Z.to_nat n).

(** [to_le_bytes] of a [k]-byte integer, two's complement for negative numbers
    (src/connection/serialization.rs:23; bytes::BufMut::put_*_le). *)
Fixpoint le_bytes (k : nat) (n : Z) : bytes :=
  match k with
  | O => []
  | S k' => (n mod 256) :: le_bytes k' (n / 256)
  end.

(** [from_le_bytes] of an unsigned integer (src/connection/serialization.rs:33). *)
Fixpoint le_val (l : bytes) : Z :=
  match l with
  | [] => 0
  | b :: r => b + 256 * le_val r
  end.

(** Reinterpretation of an unsigned [k]-byte integer as signed
    ([from_le_bytes] of a signed type, src/connection/parse_buf.rs:97). *)
Definition to_signed (k : nat) (n : Z) : Z :=
  if n <? 256 ^ Z.of_nat k / 2 then n else n - 256 ^ Z.of_nat k.

(** [from_be_bytes] (src/utils/crypt.rs:30; BigUint::from_bytes_be, src/utils/crypt.rs:44). *)
Definition be_val (l : bytes) : Z := fold_left (fun a b => a * 256 + b) l 0.

(** Text literals of the Rust source as character lists (e.g. src/model/into_query.rs). *)
Fixpoint s2l (s : string) : list Z :=
  match s with
  | EmptyString => []
  | String a r => Z.of_nat (nat_of_ascii a) :: s2l r
  end.

(** Equality of byte / character strings ([==] on slices, e.g. src/types/hex.rs:21). *)
Fixpoint list_eqb (a b : list Z) : bool :=
  match a, b with
  | [], [] => true
  | x :: a', y :: b' => (x =? y) && list_eqb a' b'
  | _, _ => false
  end.

(** [slice::starts_with] (src/utils/crypt.rs:101, src/types/hex.rs:32). *)
Fixpoint starts_with (l p : list Z) {struct p} : bool :=
  match p, l with
  | [], _ => true
  | y :: p', x :: l' => (x =? y) && starts_with l' p'
  | _ :: _, [] => false
  end.
