(** Properties C103 and C104: exactly which exchanges authenticate, and how refusals are reported. *)
From Coq Require Import String ZArith List Bool Lia.
From Verif Require Import Base BaseFacts Types Utf8 ParseBuf BufMut Spec_Wire ParseBuf_proofs Conversion Conversion_proofs
  Packets Spec_Packets Packets_proofs Scramble Crypt Spec_Crypt Crypt_proofs Handshake Spec_Handshake Handshake_proofs
  Framing Framing_proofs Auth Spec_Auth Auth_proofs ValueText Spec_Text ValueText_proofs Rows Rows_proofs
  StmtPackets Conn Spec_Conn Conn_proofs Spec_Connect Greeting_proofs Properties_Rows Properties_Crypt Connect_proofs Spec_Accept
  Accept_proofs Properties_Handshake Properties_Auth Properties_Connect.
Import ListNotations.
Open Scope Z_scope.
Open Scope io_scope.

(** After an accepted greeting, and with a plugin the options allow: the client sends one packet [h], in
    which the server reads the user, the token of the plugin and the database; then authentication
    succeeds exactly if the rest of the conversation is one of the accepted exchanges. *)
Theorem C103_exactly : forall pr debug other secure o, hash_fun 20 (p_sha1 pr) -> hash_fun 32 (p_sha256 pr) ->
  forall id caps status len version part1 part2 plugin p g,
  loose_greeting debug id caps status len version part1 part2 plugin g -> ~ version_breaks other 3 version ->
  p = match o_auth_plugin o with Some f => f | None => match plugin with Some q => q | None => PNative end end ->
  allowed_by o p ->
  exists h,
    (sendable (o_user o) -> (forall x, o_db_name o = Some x -> sendable x) -> Z.testbit caps SECURE_CONNECTION_BIT = true ->
     p <> PClear -> exists hello, server_reads h = Some hello /\ ch_user hello = utf8_encode (o_user o) /\
       ch_auth hello = token (p_sha1 pr) (p_sha256 pr) (utf8_encode (o_password o)) p (challenge part1 part2) /\
       ch_plugin hello = Some (plugin_name p) /\ ch_db hello = option_map utf8_encode (o_db_name o)) /\
    forall S (t : transport S) s s1, reads_octets t -> t_read t s = (Ok g, s1) ->
    (forall s', (exists d, authenticate t pr debug other secure o s = (Ok d, s')) <->
       exists ev, plays t (Sent h :: ev) s1 s' /\
         accepted (p_sha1 pr) (p_sha256 pr) (fun n e m c => p_encrypt pr (mkKey n e) m = Ok c) secure (allowed_by o)
           (utf8_encode (o_password o)) (known_by o) p (challenge part1 part2) true ev) /\
    (forall d s', authenticate t pr debug other secure o s = (Ok d, s') -> d_id d = id /\
       forall i, Z.testbit (d_capabilities d) i = true <-> Z.testbit caps i = true /\ common_bit (is_some (o_db_name o)) i).
Proof.
  intros pr debug other secure o H1 H2 id caps status len version part1 part2 plugin p g Hg Hv Hp Ha.
  destruct (loose_data debug other o _ _ _ _ _ _ _ _ _ Hg Hv) as (m & v & Vo & E).
  match type of E with _ = Ok ?y => set (d0 := y) in * end.
  destruct (token_out pr o p (challenge part1 part2) H1 H2 Ha) as (x & G & _ & T).
  assert (Hcaps : 0 <= caps < 2 ^ 32) by (destruct Hg; assumption).
  assert (Cp : current_plugin o d0 = p) by (unfold current_plugin; rewrite Hp; reflexivity).
  assert (Er : exists h, make_handshake_response pr o d0 = Ok h /\
    h = response_serialize (response_new (match x with Some y => plugin_data_bytes y | None => [] end) v
          (utf8_encode (o_user o)) (option_map utf8_encode (o_db_name o)) (Some p) (Z.land caps (get_capabilities o)) None
          ((match o_max_allowed_packet o with Some n => n | None => 4194304 end) mod 2 ^ 32))).
  { eexists. split; [|reflexivity]. unfold make_handshake_response. cbv zeta. change (d_nonce d0) with (challenge part1 part2).
    unfold current_plugin in Cp. rewrite Cp, G. reflexivity. }
  destruct Er as (h & Er & Eh). exists h. split.
  - intros (Hu1 & Hu2) Hdb Hs Hc. specialize (T Hc).
    assert (Hrange : 0 <= Z.land caps (get_capabilities o) < 2 ^ 32).
    { split; [apply Z.land_nonneg; lia|]. apply bits_bound; [lia | apply Z.land_nonneg; lia |].
      intros i Hi. rewrite Z.land_spec, (high_bits caps 32 i) by lia. reflexivity. }
    eexists. split.
    { rewrite Eh. apply response_read.
      - exact Hrange.
      - apply Z.mod_pos_bound. lia.
      - exact Vo.
      - now apply utf8_nonul.
      - intros y Hy. destruct (o_db_name o) as [z|]; [|discriminate]. injection Hy as <-.
        destruct (Hdb z eq_refl). now apply utf8_nonul.
      - unfold carriable, bytes in *.
        assert (L : (length (match x with Some y => plugin_data_bytes y | None => [] end) <= 255)%nat).
        { unfold bytes in *. rewrite T. unfold token. destruct p; [contradiction| |].
          - unfold native_token. destruct (utf8_encode (o_password o)); [cbn; lia|]. unfold xor_all.
            rewrite map_length, combine_length, !(proj1 (H1 _)). cbn. lia.
          - unfold sha2_token. destruct (utf8_encode (o_password o)); [cbn; lia|]. unfold xor_all.
            rewrite map_length, combine_length, !(proj1 (H2 _)). cbn. lia. }
        destruct (Z.testbit _ LENENC_CLIENT_DATA_BIT); [lia|].
        replace (Z.testbit (Z.land caps (get_capabilities o)) SECURE_CONNECTION_BIT) with true; [exact L|].
        symmetry. apply common_caps. split; [exact Hs|]. left. cbn. tauto. }
    cbn [ch_user ch_auth ch_plugin ch_db option_map]. split; [reflexivity|]. split; [exact T|]. split; reflexivity.
  - intros S t s s1 Ht Eg.
    assert (A : authenticate t pr debug other secure o s = (t_write t h ;;;
      fun s => match continue_auth 2 t pr secure o (s, d0) with
               | (Ok _, (s', d')) => (Ok d', s')
               | (Err e, (s', _)) => (Err e, s')
               | (Panic, (s', _)) => (Panic, s')
               end) s1).
    { unfold authenticate. rewrite iob, Eg, iob. unfold iores at 1. rewrite E. cbn [of_protocol rmap_err].
      rewrite iob. unfold iores at 1. rewrite Er. reflexivity. }
    rewrite A, iob. split.
    + intros s'. split.
      * intros (d & H). destruct (t_write t h s1) as [[[]|e|] s2] eqn:Ew; try discriminate.
        destruct (continue_auth 2 t pr secure o (s2, d0)) as [[u|e|] [s3 d3]] eqn:Ec; try discriminate. injection H as <- <-.
        destruct (continue_only t pr secure o Ht H1 H2 true d0 s2 u s3 d3 eq_refl eq_refl Ec) as (_ & ev & P & K).
        exists ev. split; [cbn [plays]; eauto|]. rewrite Cp in K. exact K.
      * intros (ev & (s2 & Ew & P) & K). rewrite Ew.
        destruct (accepted_runs pr secure o H1 H2 _ _ _ _ K d0 Cp eq_refl eq_refl eq_refl) as (d & _ & R).
        specialize (R S t s2 s' Ht P). change (if true then 2%nat else 1%nat) with 2%nat in R. rewrite R. now exists d.
    + intros d s' H. destruct (t_write t h s1) as [[[]|e|] s2]; try discriminate.
      destruct (continue_auth 2 t pr secure o (s2, d0)) as [[u|e|] [s3 d3]] eqn:Ec; try discriminate. injection H as <- <-.
      destruct (continue_only t pr secure o Ht H1 H2 true d0 s2 u s3 d3 eq_refl eq_refl Ec) as ((D1 & _ & _ & D2 & _) & _).
      split; [exact D1|]. intros i. rewrite D2. apply common_caps.
Qed.
Print Assumptions C103_exactly.

(** And it succeeds after no other greeting, nor with a plugin the options do not allow. *)
Theorem C103_otherwise_never : forall pr debug other secure o S (t : transport S) s d s', reads_octets t ->
  authenticate t pr debug other secure o s = (Ok d, s') ->
  exists g s1 id caps status len version part1 part2 plugin, t_read t s = (Ok g, s1) /\
    loose_greeting debug id caps status len version part1 part2 plugin g /\ ~ version_breaks other 3 version /\
    allowed_by o (match o_auth_plugin o with Some f => f | None => match plugin with Some q => q | None => PNative end end).
Proof.
  intros pr debug other secure o S t s d s' Ht H. unfold authenticate in H. rewrite iob in H.
  destruct (t_read t s) as [[g|e|] s1] eqn:Eg; try discriminate. rewrite iob in H. unfold iores at 1 in H.
  destruct (handle_handshake debug other o g) as [d0|e|] eqn:Eh; try discriminate. cbn [of_protocol rmap_err] in H.
  destruct (greeting_parts debug other o g d0 (Ht _ _ _ Eg) Eh) as (id & caps & status & len & version & part1 & part2 & plugin & G & V).
  exists g, s1, id, caps, status, len, version, part1, part2, plugin. split; [reflexivity|]. split; [exact G|]. split; [exact V|].
  destruct (loose_data debug other o _ _ _ _ _ _ _ _ _ G V) as (m & v & _ & E). rewrite E in Eh. injection Eh as <-.
  rewrite iob in H. unfold iores at 1 in H. unfold make_handshake_response in H. cbv zeta in H. cbn [d_auth_plugin d_nonce] in H.
  match type of H with context [gen_data ?a ?b ?c ?e ?f] => destruct (gen_data a b c e f) as [y|er|] eqn:Gd end; cbn [rbind] in H; try discriminate.
  now apply gen_data_allowed in Gd.
Qed.
Print Assumptions C103_otherwise_never.

(** A script of bytes. *)
Definition byte_script : transport (list (list Z) * list (list Z)) :=
  mkTransport _ (fun s => match t_read script s with (Ok p, s') => (Ok (map (fun b => b mod 256) p), s') | r => r end) (t_write script).

(** A switch request without NUL is answered; "fast authentication succeeded" is followed by anything. *)
Example C103_case :
  reads_octets byte_script /\ allowed_by any_options PSha2 /\
  (exists d h, authenticate byte_script flat_prims true (fun _ => true) false any_options
     ([mysql8_greeting; [254] ++ s2l "mysql_native_password"; [0]], []) = (Ok d, ([], [h; repeat 0 20]))) /\
  (exists d h, authenticate byte_script flat_prims true (fun _ => true) false any_options
     ([mysql8_greeting; [1; 3]; [42]], []) = (Ok d, ([], [h]))) /\
  (exists e h, authenticate byte_script flat_prims true (fun _ => true) false any_options
     ([mysql8_greeting; [1; 5]; [0]], []) = (Err e, ([[0]], [h]))).
Proof.
  splits.
  - intros [i w] p s' H. cbn in H. destruct i as [|q i]; [discriminate|]. injection H as <- _. apply Forall_forall. intros b Hb.
    apply in_map_iff in Hb. destruct Hb as (x & <- & _). unfold byte_ok. lia.
  - split; [now left | discriminate].
  - eexists _, _. vm_compute. reflexivity.
  - eexists _, _. vm_compute. reflexivity.
  - eexists _, _. vm_compute. reflexivity.
Qed.

(** After an accepted greeting, and with a plugin the options allow: wherever the server may end the
    exchange, its error packet is reported as the error it carries, and a packet that belongs to no
    exchange as unexpected, with its bytes. *)
Theorem C104_refused : forall pr debug other secure o, hash_fun 20 (p_sha1 pr) -> hash_fun 32 (p_sha256 pr) ->
  forall id caps status len version part1 part2 plugin p g,
  loose_greeting debug id caps status len version part1 part2 plugin g -> ~ version_breaks other 3 version ->
  p = match o_auth_plugin o with Some f => f | None => match plugin with Some q => q | None => PNative end end ->
  allowed_by o p ->
  exists h, forall S (t : transport S) s s1 s' q e ev, reads_octets t -> t_read t s = (Ok g, s1) ->
    last_word (Z.testbit caps PROTOCOL_41_BIT) false q e ->
    refused (p_sha1 pr) (p_sha256 pr) (fun n e m c => p_encrypt pr (mkKey n e) m = Ok c) secure (allowed_by o)
      (utf8_encode (o_password o)) (known_by o) q p (challenge part1 part2) true ev ->
    plays t (Sent h :: ev) s1 s' ->
    authenticate t pr debug other secure o s = (Err e, s').
Proof.
  intros pr debug other secure o H1 H2 id caps status len version part1 part2 plugin p g Hg Hv Hp Ha.
  destruct (loose_data debug other o _ _ _ _ _ _ _ _ _ Hg Hv) as (m & v & Vo & E).
  match type of E with _ = Ok ?y => set (d0 := y) in * end.
  destruct (token_out pr o p (challenge part1 part2) H1 H2 Ha) as (x & G & _ & _).
  assert (Cp : current_plugin o d0 = p) by (unfold current_plugin; rewrite Hp; reflexivity).
  assert (Er : exists h, make_handshake_response pr o d0 = Ok h).
  { eexists. unfold make_handshake_response. cbv zeta. change (d_nonce d0) with (challenge part1 part2).
    unfold current_plugin in Cp. rewrite Cp, G. reflexivity. }
  destruct Er as (h & Er). exists h. intros S t s s1 s' q e ev Ht Eg Hw K (s2 & Ew & P).
  assert (C41 : Z.testbit (d_capabilities d0) PROTOCOL_41_BIT = Z.testbit caps PROTOCOL_41_BIT).
  { apply eq_true_iff_eq. change (d_capabilities d0) with (Z.land caps (get_capabilities o)). rewrite common_caps.
    split; [tauto|]. intros B. split; [exact B|]. left. cbn. tauto. }
  assert (Cpg : Z.testbit (d_capabilities d0) PROGRESS_BIT = false).
  { apply not_true_iff_false. change (d_capabilities d0) with (Z.land caps (get_capabilities o)). rewrite common_caps.
    intros (_ & [B | (_ & B)]); [|discriminate B]. cbn in B. repeat destruct B as [B | B]; try discriminate B. exact B. }
  rewrite <- C41, <- Cpg in Hw.
  destruct (refused_runs pr secure o q H1 H2 _ _ _ _ K d0 e Cp eq_refl eq_refl eq_refl Hw) as (d & R).
  unfold authenticate. rewrite iob, Eg, iob. unfold iores at 1. rewrite E. cbn [of_protocol rmap_err].
  rewrite iob. unfold iores at 1. rewrite Er. rewrite iob, Ew.
  specialize (R S t s2 s' Ht P). change (if true then 2%nat else 1%nat) with 2%nat in R. now rewrite R.
Qed.
Print Assumptions C104_refused.

(** If the server's key is no key, or encrypting the password for the key fails, nothing more is sent and
    the error says so. *)
Theorem C104_unusable_key : forall pr debug other secure o, hash_fun 20 (p_sha1 pr) -> hash_fun 32 (p_sha256 pr) ->
  forall id caps status len version part1 part2 plugin p g,
  loose_greeting debug id caps status len version part1 part2 plugin g -> ~ version_breaks other 3 version ->
  p = match o_auth_plugin o with Some f => f | None => match plugin with Some q => q | None => PNative end end ->
  allowed_by o p ->
  exists h, forall S (t : transport S) s s1 s' er ev, reads_octets t -> t_read t s = (Ok g, s1) ->
    unusable (p_sha1 pr) (p_sha256 pr) (fun n e m x => p_encrypt pr (mkKey n e) m = Err x) secure (allowed_by o)
      (utf8_encode (o_password o)) (known_by o) er p (challenge part1 part2) true ev ->
    plays t (Sent h :: ev) s1 s' ->
    authenticate t pr debug other secure o s = (Err (EProtocol (PSerialize (SEncryption er))), s').
Proof.
  intros pr debug other secure o H1 H2 id caps status len version part1 part2 plugin p g Hg Hv Hp Ha.
  destruct (loose_data debug other o _ _ _ _ _ _ _ _ _ Hg Hv) as (m & v & Vo & E).
  match type of E with _ = Ok ?y => set (d0 := y) in * end.
  destruct (token_out pr o p (challenge part1 part2) H1 H2 Ha) as (x & G & _ & _).
  assert (Cp : current_plugin o d0 = p) by (unfold current_plugin; rewrite Hp; reflexivity).
  assert (Er : exists h, make_handshake_response pr o d0 = Ok h).
  { eexists. unfold make_handshake_response. cbv zeta. change (d_nonce d0) with (challenge part1 part2).
    unfold current_plugin in Cp. rewrite Cp, G. reflexivity. }
  destruct Er as (h & Er). exists h. intros S t s s1 s' er ev Ht Eg K (s2 & Ew & P).
  destruct (unusable_runs pr secure o er H1 H2 _ _ _ _ K d0 Cp eq_refl eq_refl eq_refl S t s2 s' Ht P) as (d & R).
  unfold authenticate. rewrite iob, Eg, iob. unfold iores at 1. rewrite E. cbn [of_protocol rmap_err].
  rewrite iob. unfold iores at 1. rewrite Er. rewrite iob, Ew.
  change (if true then 2%nat else 1%nat) with 2%nat in R. now rewrite R.
Qed.
Print Assumptions C104_unusable_key.

(** A certificate instead of the key: the conversation is one of these, and is reported as said. *)
Example C104_unusable_key_case :
  let w := s2l "-----BEGIN CERTIFICATE-----" in
  (forall nonce, unusable (fun _ => []) (fun _ => []) (fun _ _ _ _ => False) false (fun _ => True) [] None InvalidPem PSha2 nonce true
     [Received [1; 4]; Sent [2]; Received (1 :: w)]) /\
  (exists h, authenticate byte_script flat_prims true (fun _ => true) false any_options
     ([mysql8_greeting; [1; 4]; 1 :: w], []) = (Err (EProtocol (PSerialize (SEncryption InvalidPem))), ([], [h; [2]]))).
Proof.
  cbv zeta. assert (O : octets (s2l "-----BEGIN CERTIFICATE-----")) by (vm_compute; repeat constructor; discriminate). split.
  - intros nonce. apply un_no_key; try reflexivity.
    + intros C. apply C41_panics in C; [|exact O]. vm_compute in C. discriminate.
    + intros n e L. apply C41_accepted_files in L; [|exact O]. vm_compute in L. discriminate.
  - eexists. vm_compute. reflexivity.
Qed.

(** Error 1045 at once, instead of the public key, and after a switch; and a packet of no exchange. *)
Example C104_case :
  let denied := 255 :: wire_uint 2 1045 ++ [35] ++ s2l "28000" ++ s2l "Access denied" in
  let e := EServer (ErrError 1045 (Some (s2l "28000")) (s2l "Access denied")) in
  last_word true false denied e /\
  (exists h, authenticate byte_script flat_prims true (fun _ => true) false any_options
     ([mysql8_greeting; denied], []) = (Err e, ([], [h]))) /\
  (exists h, authenticate byte_script flat_prims true (fun _ => true) false any_options
     ([mysql8_greeting; [1; 4]; denied], []) = (Err e, ([], [h; [2]]))) /\
  (exists h, authenticate byte_script flat_prims true (fun _ => true) false any_options
     ([mysql8_greeting; [254] ++ s2l "mysql_native_password"; denied], []) = (Err e, ([], [h; repeat 0 20]))) /\
  (exists h, authenticate byte_script flat_prims true (fun _ => true) false any_options
     ([mysql8_greeting; [42; 0]], []) = (Err (EProtocol (PUnexpectedPacket [42; 0])), ([], [h]))).
Proof.
  cbv zeta. splits.
  - apply lw_error. apply (err_state true false 1045 (s2l "28000") (s2l "28000") (s2l "Access denied") (s2l "Access denied"));
      try reflexivity; try lia; try (intros (K & _); discriminate K).
    + apply utf8_text_ascii. vm_compute. repeat constructor; discriminate.
    + apply utf8_text_ascii. vm_compute. repeat constructor; discriminate.
  - eexists. vm_compute. reflexivity.
  - eexists. vm_compute. reflexivity.
  - eexists. vm_compute. reflexivity.
  - eexists. vm_compute. reflexivity.
Qed.
