(** Specification of connecting: the documented authentication exchanges (MySQL documentation,
    "Authentication Phase", "Caching_sha2_password information", "Clear text client plugin") and
    how a conversation in both directions is numbered on the wire. *)
From Coq Require Import String ZArith List.
From Verif Require Import Base Types Spec_Wire Spec_Crypt Spec_Packets Spec_Handshake Spec_Auth Spec_Text Spec_Conn.
Import ListNotations.
Open Scope Z_scope.

(** A conversation in which packets of both directions are numbered on: [wi] are the bytes of the
    packets received, [wo] those of the packets sent. *)
Inductive conversation : Z -> list event -> list Z -> list Z -> Z -> Prop :=
| conv_end : forall q, conversation q [] [] [] q
| conv_received : forall q p w q1 ev wi wo q2, frames q p w q1 -> conversation q1 ev wi wo q2 ->
    conversation q (Received p :: ev) (w ++ wi) wo q2
| conv_sent : forall q p w q1 ev wi wo q2, frames q p w q1 -> conversation q1 ev wi wo q2 ->
    conversation q (Sent p :: ev) wi (w ++ wo) q2.

(** A public key file: PKCS #1 or PKCS #8. *)
Definition key_file (n e : Z) (w : list Z) : Prop :=
  exists der, octets der /\
    ((pkcs1_key n e der /\ pem_file "RSA PUBLIC KEY" der w) \/ (pkcs8_key n e der /\ pem_file "PUBLIC KEY" der w)).

(** The nonce of a switch request: its data, without the NUL that may end it. *)
Definition switch_nonce (data nonce : list Z) : Prop :=
  data = nonce ++ [0] \/ (data = nonce /\ forall a, nonce <> a ++ [0]).

Section Login.
  Variables (sha1 sha256 : list Z -> list Z) (encrypts : Z -> Z -> list Z -> list Z -> Prop).
  (** The transport is encrypted; plugins the user allows; the password; a known key of the server. *)
  Variables (secure : bool) (allowed : auth_plugin -> Prop) (pass : list Z) (known : option (Z * Z)).

  (** Authentication data. *)
  Definition token (p : auth_plugin) (nonce : list Z) : list Z :=
    match p with
    | PNative => native_token sha1 nonce pass
    | PSha2 => sha2_token sha256 nonce pass
    | PClear => pass ++ [0]
    end.

  (** How a server accepts the user, after having got the token of plugin [p] for [nonce];
      [may_switch]: it has not asked for another plugin before. *)
  Inductive login : auth_plugin -> list Z -> bool -> list event -> Prop :=
  | login_ok : forall p nonce may_switch q, is_ok_packet q -> login p nonce may_switch [Received q]
  | login_fast : forall nonce may_switch f q, fast_auth_ok f -> is_ok_packet q ->
      login PSha2 nonce may_switch [Received f; Received q]
  | login_full_secure : forall nonce may_switch r q, secure = true -> is_ok_packet q ->
      login PSha2 nonce may_switch [Received (1 :: 4 :: r); Sent (pass ++ [0]); Received q]
  | login_full_known : forall nonce may_switch r q n e c, secure = false -> is_ok_packet q ->
      nonce <> [] -> known = Some (n, e) -> encrypts n e (xor_nonce nonce (pass ++ [0])) c ->
      login PSha2 nonce may_switch [Received (1 :: 4 :: r); Sent c; Received q]
  | login_full_asked : forall nonce may_switch r q n e w c, secure = false -> is_ok_packet q ->
      nonce <> [] -> known = None -> key_file n e w -> encrypts n e (xor_nonce nonce (pass ++ [0])) c ->
      login PSha2 nonce may_switch [Received (1 :: 4 :: r); Sent [2]; Received (1 :: w); Sent c; Received q]
  | login_switch : forall p nonce q data nonce' pkt ev, allowed q -> switch_request q data pkt -> switch_nonce data nonce' ->
      login q nonce' false ev ->
      login p nonce true (Received pkt :: Sent (token q nonce') :: ev).
End Login.

(** The capabilities a client that can do what this one can has in common with the server. *)
Definition common_bit (db : bool) (i : Z) : Prop :=
  In i [PROTOCOL_41_BIT; 13 (* TRANSACTIONS *); SECURE_CONNECTION_BIT; 18 (* PS_MULTI_RESULTS *);
        PLUGIN_AUTH_BIT; DEPRECATE_EOF_BIT] \/ (db = true /\ i = CONNECT_WITH_DB_BIT).

(** The answer to "select @@max_allowed_packet": one BIGINT UNSIGNED row. *)
Definition settings_answer (caps n : Z) (pkts : list (list Z)) : Prop :=
  exists c row, col_name c = s2l "@@max_allowed_packet" /\ col_type c = CLongLong /\ Z.testbit (col_flags c) 5 = true /\
    text_row (fun _ _ => False) (fun _ _ => False) [(CLongLong, true)] [VULong n] row /\
    answer_packets caps (ARows [c] [row]) pkts.
