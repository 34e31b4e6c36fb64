(** Specification of C103 and C104: the exchanges after which the client takes itself for authenticated.  They
    are the documented ones ([login] in Spec_Connect.v), taken leniently in three places: whatever
    packet follows "fast authentication succeeded", public key files of the lenient grammar, and switch
    requests that lack the NUL after the name of the plugin. *)
From Coq Require Import ZArith List.
From Verif Require Import Base Types Spec_Wire Spec_Crypt Spec_Packets Spec_Handshake Spec_Auth Spec_Connect.
Import ListNotations.
Open Scope Z_scope.

Definition loose_switch (p : auth_plugin) (data pkt : list Z) : Prop :=
  switch_request p data pkt \/ (data = [] /\ pkt = [254] ++ plugin_name p).

Section Accepted.
  Variables (sha1 sha256 : list Z -> list Z) (encrypts : Z -> Z -> list Z -> list Z -> Prop).
  Variables (secure : bool) (allowed : auth_plugin -> Prop) (pass : list Z) (known : option (Z * Z)).

  Inductive accepted : auth_plugin -> list Z -> bool -> list event -> Prop :=
  | ac_ok : forall p nonce may_switch q, is_ok_packet q -> accepted p nonce may_switch [Received q]
  | ac_fast : forall nonce may_switch f q, fast_auth_ok f -> accepted PSha2 nonce may_switch [Received f; Received q]
  | ac_secure : forall nonce may_switch r q, secure = true -> is_ok_packet q ->
      accepted PSha2 nonce may_switch [Received (1 :: 4 :: r); Sent (pass ++ [0]); Received q]
  | ac_known : forall nonce may_switch r q n e c, secure = false -> is_ok_packet q ->
      nonce <> [] -> known = Some (n, e) -> encrypts n e (xor_nonce nonce (pass ++ [0])) c ->
      accepted PSha2 nonce may_switch [Received (1 :: 4 :: r); Sent c; Received q]
  | ac_asked : forall nonce may_switch r q n e w c, secure = false -> is_ok_packet q ->
      nonce <> [] -> known = None -> loose_pem n e w -> encrypts n e (xor_nonce nonce (pass ++ [0])) c ->
      accepted PSha2 nonce may_switch [Received (1 :: 4 :: r); Sent [2]; Received (1 :: w); Sent c; Received q]
  | ac_switch : forall p nonce q data nonce' pkt ev, allowed q -> loose_switch q data pkt -> switch_nonce data nonce' ->
      accepted q nonce' false ev ->
      accepted p nonce true (Received pkt :: Sent (token sha1 sha256 pass q nonce') :: ev).
End Accepted.

(** ** Refusals *)

(** A packet that ends authentication, and the error it is reported as: an error of the server, or
    something that is no packet of the exchange. *)
Inductive last_word (p41 progress : bool) : list Z -> error -> Prop :=
| lw_error : forall code state msg q, err_layout p41 progress (ErrError code state msg) q ->
    last_word p41 progress q (EServer (ErrError code state msg))
| lw_nothing : last_word p41 progress [] (EProtocol (PUnexpectedPacket []))
| lw_other : forall x r, ~ In x [0; 1; 254; 255] -> last_word p41 progress (x :: r) (EProtocol (PUnexpectedPacket (x :: r))).

Section Refused.
  Variables (sha1 sha256 : list Z -> list Z) (encrypts : Z -> Z -> list Z -> list Z -> Prop).
  Variables (secure : bool) (allowed : auth_plugin -> Prop) (pass : list Z) (known : option (Z * Z)).
  Variable q : list Z.

  (** The conversations in which packet [q] comes where the server may refuse. *)
  Inductive refused : auth_plugin -> list Z -> bool -> list event -> Prop :=
  | rf_now : forall p nonce may_switch, refused p nonce may_switch [Received q]
  | rf_secure : forall nonce may_switch r, secure = true ->
      refused PSha2 nonce may_switch [Received (1 :: 4 :: r); Sent (pass ++ [0]); Received q]
  | rf_known : forall nonce may_switch r n e c, secure = false ->
      nonce <> [] -> known = Some (n, e) -> encrypts n e (xor_nonce nonce (pass ++ [0])) c ->
      refused PSha2 nonce may_switch [Received (1 :: 4 :: r); Sent c; Received q]
  | rf_key : forall nonce may_switch r, secure = false -> known = None ->
      refused PSha2 nonce may_switch [Received (1 :: 4 :: r); Sent [2]; Received q]
  | rf_asked : forall nonce may_switch r n e w c, secure = false ->
      nonce <> [] -> known = None -> loose_pem n e w -> encrypts n e (xor_nonce nonce (pass ++ [0])) c ->
      refused PSha2 nonce may_switch [Received (1 :: 4 :: r); Sent [2]; Received (1 :: w); Sent c; Received q]
  | rf_switch : forall p nonce p' data nonce' pkt ev, allowed p' -> loose_switch p' data pkt -> switch_nonce data nonce' ->
      refused p' nonce' false ev ->
      refused p nonce true (Received pkt :: Sent (token sha1 sha256 pass p' nonce') :: ev).
End Refused.

Section Unusable.
  (** [fails n e m er]: encrypting [m] for the key with modulus [n] and exponent [e] fails with [er]. *)
  Variables (sha1 sha256 : list Z -> list Z) (fails : Z -> Z -> list Z -> crypt_error -> Prop).
  Variables (secure : bool) (allowed : auth_plugin -> Prop) (pass : list Z) (known : option (Z * Z)).
  Variable er : crypt_error.

  (** The conversations that end because the password cannot be encrypted: the server's key is no key, or
      encrypting for the key fails. *)
  Inductive unusable : auth_plugin -> list Z -> bool -> list event -> Prop :=
  | un_known : forall nonce may_switch r n e, secure = false -> nonce <> [] -> known = Some (n, e) ->
      fails n e (xor_nonce nonce (pass ++ [0])) er ->
      unusable PSha2 nonce may_switch [Received (1 :: 4 :: r)]
  | un_no_key : forall nonce may_switch r w, secure = false -> known = None -> er = InvalidPem ->
      ~ cut_pem w -> (forall n e, ~ loose_pem n e w) ->
      unusable PSha2 nonce may_switch [Received (1 :: 4 :: r); Sent [2]; Received (1 :: w)]
  | un_asked : forall nonce may_switch r n e w, secure = false -> nonce <> [] -> known = None -> loose_pem n e w ->
      fails n e (xor_nonce nonce (pass ++ [0])) er ->
      unusable PSha2 nonce may_switch [Received (1 :: 4 :: r); Sent [2]; Received (1 :: w)]
  | un_switch : forall p nonce p' data nonce' pkt ev, allowed p' -> loose_switch p' data pkt -> switch_nonce data nonce' ->
      unusable p' nonce' false ev ->
      unusable p nonce true (Received pkt :: Sent (token sha1 sha256 pass p' nonce') :: ev).
End Unusable.
