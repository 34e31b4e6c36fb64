(** Specification of the use of the server's public key while connecting. *)
From Coq Require Import ZArith List.
From Verif Require Import Base Types Crypt Spec_Crypt Spec_Auth.
Import ListNotations.
Open Scope Z_scope.

(** The password as a plugin sends it: hash tokens, or the text itself. *)
Inductive plugin_answer (sha1 sha256 : list Z -> list Z) (clear : bool) (pass : list Z) : list Z -> Prop :=
| answer_native : forall nonce, plugin_answer sha1 sha256 clear pass (native_token sha1 nonce pass)
| answer_sha2 : forall nonce, plugin_answer sha1 sha256 clear pass (sha2_token sha256 nonce pass)
| answer_clear : clear = true -> plugin_answer sha1 sha256 clear pass (pass ++ [0]).

(** The password, hidden by the server's challenge, encrypted for a key. *)
Definition encrypted_for (encrypt : public_key -> list Z -> res crypt_error (list Z)) (k : public_key)
    (pass p : list Z) : Prop :=
  exists nonce, nonce <> [] /\ encrypt k (xor_nonce nonce (pass ++ [0])) = Ok p.

(** The key was asked for, and this file came back. *)
Definition asked_for (pem : list Z) (before : list event) : Prop :=
  exists earlier, before = earlier ++ [Sent [2]; Received (1 :: pem)].

(** How often the key was asked for. *)
Definition requests (packets : list (list Z)) : nat := count_occ (list_eq_dec Z.eq_dec) packets [2].
