(** Which plugin a user was authenticated by, from the packets after the client's first one: a request to
    switch, if any, names another plugin.  Independent of the model's functions. *)
From Coq Require Import ZArith List.
From Verif Require Import Types Spec_Wire Spec_Packets Spec_Handshake Spec_Auth Spec_Connect Spec_Accept.
Import ListNotations.
Open Scope Z_scope.

Inductive authenticated_by (p : auth_plugin) : list event -> auth_plugin -> Prop :=
| by_first : forall x r ev, x <> 254 -> authenticated_by p (Received (x :: r) :: ev) p
| by_switch : forall q data pkt ev, loose_switch q data pkt -> authenticated_by p (Received pkt :: ev) q.

(** The exchange has a request to switch. *)
Definition has_switch (ev : list event) : Prop := exists q data pkt r, ev = Received pkt :: r /\ loose_switch q data pkt.
