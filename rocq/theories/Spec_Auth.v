(** Specification of the authentication exchange: packets seen on the wire, the authentication
    data of each plugin (MySQL documentation, "Authentication Phase"). *)
From Coq Require Import ZArith List.
From Verif Require Import Base Types Spec_Wire Spec_Crypt Spec_Handshake.
Import ListNotations.
Open Scope Z_scope.

(** What happens on the wire, packet by packet. *)
Inductive event : Type := Received (p : list Z) | Sent (p : list Z).

Definition received (tr : list event) : list (list Z) :=
  flat_map (fun e => match e with Received p => [p] | Sent _ => [] end) tr.
Definition sent (tr : list event) : list (list Z) :=
  flat_map (fun e => match e with Sent p => [p] | Received _ => [] end) tr.

(** Authentication data of mysql_native_password and caching_sha2_password; nothing for an empty
    password. *)
Definition native_token (sha1 : list Z -> list Z) (nonce pass : list Z) : list Z :=
  match pass with
  | [] => []
  | _ => xor_all (sha1 pass) (sha1 (nonce ++ sha1 (sha1 pass)))
  end.
Definition sha2_token (sha256 : list Z -> list Z) (nonce pass : list Z) : list Z :=
  match pass with
  | [] => []
  | _ => xor_all (sha256 pass) (sha256 (sha256 (sha256 pass) ++ nonce))
  end.

(** An authentication switch request. *)
Definition switch_request (p : auth_plugin) (data pkt : list Z) : Prop :=
  pkt = [254] ++ wire_nul_str (plugin_name p) ++ data.

(** caching_sha2_password: fast authentication succeeded; an OK or ERR packet follows. *)
Definition fast_auth_ok (pkt : list Z) : Prop := exists r, pkt = 1 :: 3 :: r.

Definition is_ok_packet (pkt : list Z) : Prop := exists r, pkt = 0 :: r.
Definition is_err_packet (pkt : list Z) : Prop := exists r, pkt = 255 :: r.
Definition is_switch_packet (pkt : list Z) : Prop := exists r, pkt = 254 :: r.

(** Number of switch requests the client answered. *)
Fixpoint switches (tr : list event) : nat :=
  match tr with
  | [] => 0
  | Received (254 :: _) :: ((Sent _ :: _) as rest) => S (switches rest)
  | _ :: rest => switches rest
  end.
