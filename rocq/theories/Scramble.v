(** src/utils/scramble.rs.  The hash functions (crates sha1, sha2) are parameters: the hash of
    a list of slices is the hash of their concatenation ([Digest::update]). *)
From Coq Require Import ZArith List Bool.
From Verif Require Import Base.
Import ListNotations.
Open Scope Z_scope.

(** src/utils/scramble.rs:3-12; also the loops of src/utils/crypt.rs:236-238 and 241-243 *)
Fixpoint xor (left right : bytes) : bytes :=
  match left, right with
  | l :: left', r :: right' => Z.lxor l r :: xor left' right'
  | _, _ => left
  end.

(** src/utils/scramble.rs:15-32 *)
Definition scramble_native (sha1 : bytes -> bytes) (nonce password : bytes) : option bytes :=
  match password with
  | [] => None
  | _ => Some (xor (sha1 password) (sha1 (nonce ++ sha1 (sha1 password))))
  end.

(** src/utils/scramble.rs:37-54 *)
Definition scramble_sha256 (sha256 : bytes -> bytes) (nonce password : bytes) : option bytes :=
  match password with
  | [] => None
  | _ => Some (xor (sha256 password) (sha256 (sha256 (sha256 password) ++ nonce)))
  end.
