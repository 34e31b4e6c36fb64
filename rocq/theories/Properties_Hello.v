(** Properties C36 and C37: exactly when the server reads what was meant, and exactly when no capability
    is requested that it has not offered. *)
From Coq Require Import String ZArith List Bool Lia.
From Verif Require Import Base BaseFacts Types Utf8 ParseBuf BufMut Scramble Crypt Spec_Crypt Handshake Spec_Wire Spec_Handshake
  Handshake_proofs Properties_Handshake.
Import ListNotations.
Open Scope Z_scope.

Lemma srv_nul_inv : forall s a b, srv_nul s = Some (a, b) -> ~ In 0 a.
Proof.
  induction s as [|x s IH]; intros a b H; cbn [srv_nul] in H; [discriminate|]. destruct (Z.eqb_spec x 0).
  - injection H as <- _. intros [].
  - destruct (srv_nul s) as [[a' b']|]; [|discriminate]. cbn [obind] in H. injection H as <- _. intros [F | F]; [congruence|]. now apply (IH a' b').
Qed.

Lemma carried : forall scramble version user db plugin caps max hello,
  0 <= caps < 2 ^ 32 -> 0 <= max < 2 ^ 32 -> version_ok version -> Z.of_nat (length scramble) < 2 ^ 64 ->
  server_reads (response_serialize (response_new scramble version user db plugin caps None max)) = Some hello ->
  ch_user hello = user -> ch_auth hello = scramble -> ch_db hello = db ->
  ~ In 0 user /\ (forall x, db = Some x -> ~ In 0 x) /\ carriable caps scramble.
Proof.
  intros scramble [[va vb] vc] user db plugin caps max hello Hcaps Hmax (Hv1 & Hv2 & Hv3) Hl H Hu Ha Hd.
  unfold response_serialize, response_new in H. cbv zeta in H. cbn [hr_capabilities hr_max_packet_size hr_collation
    hr_scramble hr_encoding hr_user hr_db_name hr_auth_plugin hr_attributes] in H.
  change (@is_some (list (bytes * bytes)) None) with false in H. unfold bytes in *.
  fold (sent_caps caps (is_some db) (is_some plugin)) in H.
  rewrite utf8_collation_ok in H by lia.
  pose proof (sent_caps_range caps (is_some db) (is_some plugin) Hcaps) as Hr.
  unfold server_reads in H. rewrite (srv_uint_le 4) in H by exact Hr. cbn [obind] in H.
  rewrite (srv_uint_le 4) in H by exact Hmax. cbn [obind] in H.
  rewrite (srv_uint_le 1) in H by (unfold utf8_collation; destruct (_ <? _); cbn; lia). cbn [obind] in H.
  rewrite srv_bytes_app in H by reflexivity. cbn [obind] in H.
  match type of H with obind (srv_nul ?s) _ = _ => destruct (srv_nul s) as [[u s1]|] eqn:Eu end; [|discriminate]. cbn [obind] in H.
  match type of H with obind ?X _ = _ => destruct X as [[a s2]|] eqn:Ea end; [|discriminate]. cbn [obind] in H.
  match type of H with obind ?X _ = _ => destruct X as [[b s3]|] eqn:Eb end; [|discriminate]. cbn [obind] in H.
  match type of H with obind ?X _ = _ => destruct X as [[p s4]|] eqn:Ep end; [|discriminate]. cbn [obind] in H.
  match type of H with (if ?x then _ else _) = _ => destruct x end; [discriminate|]. destruct s4; [|discriminate]. injection H as <-.
  cbn [ch_user ch_auth ch_db] in Hu, Ha, Hd. subst u a b.
  pose proof (srv_nul_inv _ _ _ Eu) as Nu. rewrite srv_nul_app in Eu by exact Nu. injection Eu as <-.
  split; [exact Nu|]. split.
  { intros x ->. rewrite sent_caps_bit in Eb. cbn [Z.eqb CONNECT_ATTRS_BIT PLUGIN_AUTH_BIT CONNECT_WITH_DB_BIT Pos.eqb is_some] in Eb.
    destruct (srv_nul s2) as [[y s5]|] eqn:Ey; [|discriminate]. cbn [obind] in Eb. injection Eb as -> _. exact (srv_nul_inv _ _ _ Ey). }
  rewrite !sent_caps_bit in Ea. cbn [Z.eqb LENENC_CLIENT_DATA_BIT SECURE_CONNECTION_BIT CONNECT_ATTRS_BIT PLUGIN_AUTH_BIT
    CONNECT_WITH_DB_BIT Pos.eqb] in Ea. rewrite lenenc_flag, secure_flag in Ea. unfold carriable.
  unfold LENENC_CLIENT_DATA_BIT, SECURE_CONNECTION_BIT in *. destruct (Z.testbit caps 21); [exact Hl|].
  destruct (Z.testbit caps 15).
  - unfold put_u8_slice in Ea. cbv zeta in Ea. rewrite <- app_assoc in Ea.
    set (n := Z.min (lenZ scramble) 255) in *.
    assert (Hn : 0 <= n <= 255) by (unfold n, lenZ; lia).
    rewrite (srv_uint_le 1) in Ea by (change (256 ^ Z.of_nat 1) with 256; lia). cbn [obind] in Ea.
    unfold srv_bytes in Ea. destruct (Nat.leb _ _); [|discriminate]. injection Ea as Ea _.
    apply (f_equal (@length Z)) in Ea. rewrite firstn_length in Ea. lia.
  - exact (srv_nul_inv _ _ _ Ea).
Qed.

(** C36: the server reads the user, the authentication data and the database that were meant exactly if
    neither name has a NUL and the data can be carried. *)
Theorem C36_exactly : forall scramble version user db plugin caps max,
  0 <= caps < 2 ^ 32 -> 0 <= max < 2 ^ 32 -> version_ok version -> Z.of_nat (length scramble) < 2 ^ 64 ->
  ((exists hello, server_reads (response_serialize (response_new scramble version user db plugin caps None max)) = Some hello /\
      ch_user hello = user /\ ch_auth hello = scramble /\ ch_db hello = db) <->
   ~ In 0 user /\ (forall x, db = Some x -> ~ In 0 x) /\ carriable caps scramble).
Proof.
  intros scramble version user db plugin caps max Hc Hm Hv Hl. split.
  - intros (hello & H & A & B & C). eapply carried; eauto.
  - intros (A & B & C). destruct (C36_response_decoded_partial scramble version user db plugin caps max Hc Hm Hv A B C)
      as (hello & H & _ & _ & Hu & Ha & Hd & _). eauto.
Qed.
Print Assumptions C36_exactly.

(** C37: no capability is requested that the server has not offered, exactly if it offers PLUGIN_AUTH and,
    when a database is given, CONNECT_WITH_DB. *)
Theorem C37_exactly : forall debug other pr o greeting_pkt h d pkt hello,
  read_handshake debug greeting_pkt = Ok h ->
  handle_handshake debug other o greeting_pkt = Ok d ->
  make_handshake_response pr o d = Ok pkt ->
  server_reads pkt = Some hello ->
  0 <= hs_capabilities h < 2 ^ 32 ->
  (subset (ch_caps hello) (hs_capabilities h) <->
   Z.testbit (hs_capabilities h) PLUGIN_AUTH_BIT = true /\
   (o_db_name o <> None -> Z.testbit (hs_capabilities h) CONNECT_WITH_DB_BIT = true)).
Proof.
  intros debug other pr o g h d pkt hello Hr Hd Hp Hs Hc. split.
  2:{ intros (A & B). eapply C37_capabilities_subset_partial; eauto. }
  intros Sub.
  assert (Dc : d_capabilities d = Z.land (hs_capabilities h) (get_capabilities o)).
  { unfold handle_handshake in Hd. rewrite Hr in Hd.
    destruct (parse_server_version other (hs_server_version h)) as [v|e|]; try discriminate. cbn [rbind] in Hd.
    destruct (match v with Some x => x | None => (0, 0, 0, false) end) as [ver m]. injection Hd as <-. reflexivity. }
  assert (Ec : ch_caps hello = sent_caps (d_capabilities d) (is_some (o_db_name o)) true).
  { unfold make_handshake_response in Hp. cbv zeta in Hp. destruct (gen_data _ _ _ _ _) as [auth|e|]; try discriminate.
    cbn [rbind] in Hp. injection Hp as <-. apply server_reads_caps in Hs.
    rewrite Hs. rewrite Z.mod_small.
    - destruct (o_db_name o); reflexivity.
    - apply sent_caps_range. rewrite Dc. split; [apply Z.land_nonneg; lia|].
      apply bits_bound; [lia | apply Z.land_nonneg; lia|]. intros j Hj. rewrite Z.land_spec.
      now rewrite (high_bits (hs_capabilities h) 32 j) by lia. }
  split.
  - apply Sub. rewrite Ec, sent_caps_bit. reflexivity.
  - intros Db. apply Sub. rewrite Ec, sent_caps_bit. destruct (o_db_name o); [reflexivity | congruence].
Qed.
Print Assumptions C37_exactly.

(** 255 bytes of clear-text password can be carried, 256 cannot; the old greeting of C37. *)
Example C36_exactly_case :
  carriable 557568 (repeat 65 255) /\ ~ carriable 557568 (repeat 65 256) /\ carriable (557568 + 2 ^ 21) (repeat 65 256) /\
  (exists hello, server_reads (response_serialize (response_new (repeat 65 255) (8, 0, 36) [114] (Some [116]) (Some PClear) 557568 None 0)) = Some hello /\
     ch_user hello = [114] /\ ch_auth hello = repeat 65 255 /\ ch_db hello = Some [116]).
Proof.
  unfold carriable. change (Z.testbit 557568 LENENC_CLIENT_DATA_BIT) with false. change (Z.testbit 557568 SECURE_CONNECTION_BIT) with true.
  change (Z.testbit (557568 + 2 ^ 21) LENENC_CLIENT_DATA_BIT) with true. cbv iota. rewrite !repeat_length.
  split; [lia|]. split; [lia|]. split; [reflexivity|]. eexists. split; [vm_compute; reflexivity|]. repeat split.
Qed.
Example C37_exactly_case : exists h, read_handshake false old_greeting = Ok h /\ 0 <= hs_capabilities h < 2 ^ 32 /\
  Z.testbit (hs_capabilities h) PLUGIN_AUTH_BIT = false /\
  exists h', read_handshake true mysql8_greeting = Ok h' /\ Z.testbit (hs_capabilities h') PLUGIN_AUTH_BIT = true /\
    Z.testbit (hs_capabilities h') CONNECT_WITH_DB_BIT = true.
Proof. eexists. split; [vm_compute; reflexivity|]. split; [cbn; lia|]. split; [reflexivity|]. eexists. split; [vm_compute; reflexivity|]. split; reflexivity. Qed.
