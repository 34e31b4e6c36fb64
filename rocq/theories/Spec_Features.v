(** Specification of builds without optional features: which packets name the plugin that such a
    build does not know. *)
From Coq Require Import String ZArith List.
From Verif Require Import Base Types Spec_Wire Spec_Handshake Spec_Auth.
Import ListNotations.
Open Scope Z_scope.

(** The packet names caching_sha2_password where a greeting does, at the end, or where a switch request
    does, after the first byte. *)
Definition names_sha2 (pkt : list Z) : Prop :=
  (exists a, pkt = a ++ plugin_name PSha2 \/ pkt = a ++ plugin_name PSha2 ++ [0]) \/
  (exists data, switch_request PSha2 data pkt).

(** Options that can be written in a build without the plugin. *)
Definition without_sha2 (forced : option auth_plugin) : Prop := forced <> Some PSha2.
