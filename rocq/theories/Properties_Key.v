(** C92: which public key a password is encrypted for. *)
From Coq Require Import String ZArith List Bool Lia.
From Verif Require Import Base BaseFacts Types Utf8 ParseBuf Packets Scramble Crypt Handshake Framing Auth
  Spec_Wire Spec_Crypt Spec_Handshake Spec_Auth Spec_Key Crypt_proofs Pem_proofs Auth_proofs Key_proofs Properties_Crypt
  Properties_Handshake Properties_Auth.
Import ListNotations.
Open Scope Z_scope.

(** With a key in the options, every packet after the handshake response is the answer of a plugin or
    the password encrypted for that key (the password itself on a secure transport): no other key is
    ever used, whatever the server sends. *)
Theorem C92_configured_key : forall S (t : transport S) pr debug other secure o k s r s' tr,
  o_server_key o = Some k -> hash_fun 20 (p_sha1 pr) -> hash_fun 32 (p_sha256 pr) ->
  authenticate (traced t) pr debug other secure o (s, []) = (r, (s', tr)) ->
  let pass := utf8_encode (o_password o) in
  forall g h before p after, tr = Received g :: Sent h :: before ++ Sent p :: after ->
  plugin_answer (p_sha1 pr) (p_sha256 pr) (o_allow_cleartext o) pass p \/
  (secure = true /\ p = pass ++ [0]) \/
  (secure = false /\ encrypted_for (p_encrypt pr) k pass p).
Proof.
  intros S t pr debug other secure o k s r s' tr Hk H1 H2 H pass0 g h before p after E.
  apply authenticate_keyed in H. destruct H as [[(g' & [F|F]) _] | (g' & h' & ev & final & r' & F & Q & _)]; try congruence.
  rewrite E in F. injection F as <- <- F. symmetry in F.
  destruct (auth_place pr secure o H1 H2 _ _ _ _ Q _ _ _ F) as [R|[R|[(R1 & k' & R2 & R3)|[(_ & R & _)|(_ & R & _)]]]]; auto.
  - right. right. split; [exact R1|]. rewrite Hk in R2. injection R2 as <-. exact R3.
  - congruence.
  - congruence.
Qed.
Print Assumptions C92_configured_key.

(** Without one, the password is encrypted for the key the server sent when asked, and for no other. *)
Theorem C92_received_key : forall S (t : transport S) pr debug other secure o s r s' tr,
  o_server_key o = None -> hash_fun 20 (p_sha1 pr) -> hash_fun 32 (p_sha256 pr) ->
  authenticate (traced t) pr debug other secure o (s, []) = (r, (s', tr)) -> Forall octets (received tr) ->
  let pass := utf8_encode (o_password o) in
  forall g h before p after, tr = Received g :: Sent h :: before ++ Sent p :: after ->
  plugin_answer (p_sha1 pr) (p_sha256 pr) (o_allow_cleartext o) pass p \/
  (secure = true /\ p = pass ++ [0]) \/
  (secure = false /\ p = [2]) \/
  (secure = false /\ exists pem n e, asked_for pem before /\ loose_pem n e pem /\
     encrypted_for (p_encrypt pr) (mkKey n e) pass p).
Proof.
  intros S t pr debug other secure o s r s' tr Hk H1 H2 H Ho pass0 g h before p after E.
  apply authenticate_keyed in H. destruct H as [[(g' & [F|F]) _] | (g' & h' & ev & final & r' & F & Q & _)]; try congruence.
  rewrite E in F. injection F as <- <- F. symmetry in F.
  destruct (auth_place pr secure o H1 H2 _ _ _ _ Q _ _ _ F) as [R|[R|[(_ & k' & R & _)|[(R1 & _ & R2)|(R1 & _ & pem & [n e] & Ha & Hp & He)]]]]; auto.
  - congruence.
  - right. right. right. split; [exact R1|]. exists pem, n, e. split; [exact Ha|]. split; [|exact He].
    apply pem_iff; [|exact Hp]. destruct Ha as (earlier & ->). rewrite Forall_forall in Ho.
    assert (Hin : In (1 :: pem) (received tr)).
    { rewrite E. unfold received. apply in_flat_map. exists (Received (1 :: pem)). split; [|left; reflexivity].
      right. right. apply in_or_app. left. apply in_or_app. right. right. left. reflexivity. }
    specialize (Ho _ Hin). inversion Ho. assumption.
Qed.
Print Assumptions C92_received_key.

(** The key is asked for at most once, and never if one is configured or the transport is secure; the
    connection keeps the configured key, or the one received. *)
Theorem C92_asked_once : forall S (t : transport S) pr debug other secure o s r s' tr,
  hash_fun 20 (p_sha1 pr) -> hash_fun 32 (p_sha256 pr) -> (forall k m, p_encrypt pr k m <> Ok [2]) ->
  authenticate (traced t) pr debug other secure o (s, []) = (r, (s', tr)) ->
  (requests (tl (sent tr)) <= 1)%nat /\
  (o_server_key o <> None \/ secure = true -> requests (tl (sent tr)) = 0%nat) /\
  (forall d, r = Ok d ->
     requests (tl (sent tr)) = 0%nat /\ d_server_key d = o_server_key o \/
     requests (tl (sent tr)) = 1%nat /\ exists pem k earlier later, d_server_key d = Some k /\ try_from_pem pem = Ok k /\
       tr = earlier ++ Sent [2] :: Received (1 :: pem) :: later).
Proof.
  intros S t pr debug other secure o s r s' tr H1 H2 H3 H.
  apply authenticate_keyed in H. destruct H as [[(g & [-> | ->]) N] | (g & h & ev & final & r' & -> & Q & Hd)].
  - cbn. split; [lia|]. split; [reflexivity|]. intros d E. destruct (N d E).
  - cbn. split; [lia|]. split; [reflexivity|]. intros d E. destruct (N d E).
  - change (tl (sent (Received g :: Sent h :: ev))) with (sent ev).
    destruct (auth_requests pr secure o H1 H2 H3 _ _ _ _ Q) as [[E ->] | (E & E1 & E2 & Hf)].
    + unfold requested in E. rewrite E. split; [lia|]. split; [reflexivity|]. intros d Er. left. split; [reflexivity|]. apply Hd. exact Er.
    + unfold requested in E. rewrite E. split; [lia|]. split; [intros [F|F]; congruence|].
      intros d Er. right. split; [reflexivity|]. destruct (Hd d Er) as [Hr Hf']. destruct Hf as [Hf|(pem & k & e & l & -> & Hk & ->)].
      * destruct (Hf tt Hr).
      * exists pem, k, (Received g :: Sent h :: e), l. split; [exact Hf'|]. split; [exact Hk|reflexivity].
Qed.
Print Assumptions C92_asked_once.

(** A run with a key in the options, and one that asks for the key. *)
Definition asking_options : conn_options :=
  mkOptions (s2l "root") (s2l "secret") None None false (Some PSha2) None.
Definition key_file : list Z :=
  ascii_text "-----BEGIN PUBLIC KEY-----" ++ [10] ++ ascii_text "MBwwDQYJKoZIhvcNAQEBBQADCwAwCAIDAMqhAgER" ++ [10]
  ++ ascii_text "-----END PUBLIC KEY-----" ++ [10].

Example C92_case :
  (exists r s h, authenticate (traced script) flat_prims true (fun _ => true) false known_key_options
     (([mysql8_greeting; [1; 4]; [0; 0; 0]], []), []) =
     (r, (s, [Received mysql8_greeting; Sent h; Received [1; 4]; Sent [7]; Received [0; 0; 0]]))) /\
  (exists d s h, authenticate (traced script) flat_prims true (fun _ => true) false asking_options
     (([mysql8_greeting; [1; 4]; 1 :: key_file; [0; 0; 0]], []), []) =
     (Ok d, (s, [Received mysql8_greeting; Sent h; Received [1; 4]; Sent [2]; Received (1 :: key_file); Sent [7]; Received [0; 0; 0]]))
     /\ d_server_key d = Some (mkKey 51873 17)).
Proof.
  split.
  - eexists _, _, _. vm_compute. reflexivity.
  - eexists _, _, _. split; vm_compute; reflexivity.
Qed.
