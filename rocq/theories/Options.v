(** Default connection options: src/connection/options.rs:98-120 *)
From Coq Require Import ZArith List.
From Verif Require Import Base Types Crypt Handshake.
Import ListNotations.
Open Scope Z_scope.

(** [ConnectionOptions { user, password, ..Default::default() }] with the feature
    caching-sha2-password (on by default, Cargo.toml:20): src/connection/options.rs:98-120 *)
Definition default_options (user password : str) : conn_options :=
  mkOptions user password None None false (Some PSha2) None.
