(** Specification of C114: the exchanges during which logging in breaks off with a panic. *)
From Coq Require Import ZArith List.
From Verif Require Import Base Types Spec_Wire Spec_Crypt Spec_Packets Spec_Handshake Spec_Auth Spec_Connect Spec_Accept.
Import ListNotations.
Open Scope Z_scope.

Section Breaking.
  (** [breaks n e m]: encrypting [m] for the key with modulus [n] and exponent [e] breaks. *)
  Variables (sha1 sha256 : list Z -> list Z) (breaks : Z -> Z -> list Z -> Prop).
  Variables (secure : bool) (allowed : auth_plugin -> Prop) (pass : list Z) (known : option (Z * Z)).

  (** There is nothing to mask the password with, or the masked password cannot be encrypted. *)
  Definition unencryptable (nonce : list Z) (n e : Z) : Prop :=
    nonce = [] \/ (nonce <> [] /\ breaks n e (xor_nonce nonce (pass ++ [0]))).

  Inductive breaking : auth_plugin -> list Z -> bool -> list event -> Prop :=
  | br_known : forall nonce may_switch r n e, secure = false -> known = Some (n, e) -> unencryptable nonce n e ->
      breaking PSha2 nonce may_switch [Received (1 :: 4 :: r)]
  | br_cut : forall nonce may_switch r w, secure = false -> known = None -> cut_pem w ->
      breaking PSha2 nonce may_switch [Received (1 :: 4 :: r); Sent [2]; Received (1 :: w)]
  | br_asked : forall nonce may_switch r n e w, secure = false -> known = None -> loose_pem n e w ->
      unencryptable nonce n e ->
      breaking PSha2 nonce may_switch [Received (1 :: 4 :: r); Sent [2]; Received (1 :: w)]
  | br_switch : forall p nonce q data nonce' pkt ev, allowed q -> loose_switch q data pkt -> switch_nonce data nonce' ->
      breaking q nonce' false ev ->
      breaking p nonce true (Received pkt :: Sent (token sha1 sha256 pass q nonce') :: ev).
End Breaking.
