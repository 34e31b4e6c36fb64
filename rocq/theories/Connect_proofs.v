(** Lemmas about connecting. *)
From Coq Require Import String ZArith List Bool Lia.
From Verif Require Import Base BaseFacts Types Utf8 ParseBuf BufMut Spec_Wire ParseBuf_proofs Conversion Conversion_proofs
  Packets Spec_Packets Packets_proofs Scramble Crypt Spec_Crypt Crypt_proofs Handshake Spec_Handshake Handshake_proofs
  Framing Framing_proofs Auth Spec_Auth Auth_proofs ValueText Spec_Text ValueText_proofs Rows Rows_proofs
  StmtPackets Conn Spec_Conn Conn_proofs Spec_Connect Properties_Rows Properties_Crypt.
Import ListNotations.
Open Scope Z_scope.
Open Scope io_scope.

(** ** Transports that play a conversation *)

(** From [s], the transport delivers the packets received and takes those sent, ending in [s']. *)
Fixpoint plays {S} (t : transport S) (ev : list event) (s s' : S) : Prop :=
  match ev with
  | [] => s' = s
  | Received p :: r => exists s1, t_read t s = (Ok p, s1) /\ plays t r s1 s'
  | Sent p :: r => exists s1, t_write t p s = (Ok tt, s1) /\ plays t r s1 s'
  end.

Lemma strip_zero_nonce : forall data nonce, switch_nonce data nonce -> strip_zero data = nonce.
Proof.
  intros data nonce [-> | (-> & H)]; unfold strip_zero.
  - rewrite rev_app_distr. cbn. apply rev_involutive.
  - destruct (rev nonce) as [|x r] eqn:E; [reflexivity|].
    destruct (Z.eq_dec x 0) as [-> | Hx].
    + exfalso. apply (H (rev r)). rewrite <- (rev_involutive nonce), E. reflexivity.
    + destruct x; congruence.
Qed.

(** The plugins the options allow. *)
Definition allowed_by (o : conn_options) (p : auth_plugin) : Prop :=
  (o_auth_plugin o = None \/ o_auth_plugin o = Some p) /\ (p = PClear -> o_allow_cleartext o = true).
Definition known_by (o : conn_options) : option (Z * Z) := option_map (fun k => (pk_modulus k, pk_exponent k)) (o_server_key o).

Lemma token_out : forall pr o p nonce, hash_fun 20 (p_sha1 pr) -> hash_fun 32 (p_sha256 pr) -> allowed_by o p ->
  exists x, gen_data pr p (utf8_encode (o_password o)) nonce o = Ok x /\
    match x with Some y => plugin_data_serialize y | None => [] end =
      token (p_sha1 pr) (p_sha256 pr) (utf8_encode (o_password o)) p nonce /\
    (p <> PClear -> match x with Some y => plugin_data_bytes y | None => [] end =
      token (p_sha1 pr) (p_sha256 pr) (utf8_encode (o_password o)) p nonce).
Proof.
  intros pr o p nonce H1 H2 (Hf & Hc). destruct p.
  - exists (Some (DClear (utf8_encode (o_password o)))). unfold gen_data.
    rewrite (Hc eq_refl). destruct Hf as [-> | ->]; cbn; (split; [reflexivity|]); split; [reflexivity | contradiction | reflexivity | contradiction].
  - pose proof (native_out pr o (utf8_encode (o_password o)) nonce H1 Hf) as E.
    destruct (gen_data pr PNative (utf8_encode (o_password o)) nonce o) as [x|e|]; try discriminate.
    exists x. split; [reflexivity|]. destruct x as [y|]; cbn in E |- *; injection E as E1 E2; split; intros; congruence.
  - pose proof (sha2_out pr o (utf8_encode (o_password o)) nonce H2 Hf) as E.
    destruct (gen_data pr PSha2 (utf8_encode (o_password o)) nonce o) as [x|e|]; try discriminate.
    exists x. split; [reflexivity|]. destruct x as [y|]; cbn in E |- *; injection E as E1 E2; split; intros; congruence.
Qed.

(** What authentication leaves alone. *)
Definition same_server (d d' : conn_data) : Prop :=
  d_id d' = d_id d /\ d_is_mariadb d' = d_is_mariadb d /\ d_version d' = d_version d /\
  d_capabilities d' = d_capabilities d /\ d_max_allowed_packet d' = d_max_allowed_packet d.
Lemma same_server_refl : forall d, same_server d d.
Proof. repeat split. Qed.

Lemma login_runs : forall pr secure o, hash_fun 20 (p_sha1 pr) -> hash_fun 32 (p_sha256 pr) ->
  forall p nonce sw ev,
  login (p_sha1 pr) (p_sha256 pr) (fun n e m c => p_encrypt pr (mkKey n e) m = Ok c) secure (allowed_by o)
    (utf8_encode (o_password o)) (known_by o) p nonce sw ev ->
  forall d, current_plugin o d = p -> d_nonce d = nonce -> d_server_key d = o_server_key o -> d_auth_switched d = negb sw ->
  exists d', same_server d d' /\ forall S (t : transport S) s s', plays t ev s s' ->
    continue_auth (if sw then 2 else 1) t pr secure o (s, d) = (Ok tt, (s', d')).
Proof.
  intros pr secure o H1 H2 p nonce sw ev HL.
  induction HL as [p nonce sw q (r & ->) | nonce sw f q (r & ->) (r' & ->)
    | nonce sw r q Hs (r' & ->) | nonce sw r q n e c Hs (r' & ->) Hn Hk He
    | nonce sw r q n e w c Hs (r' & ->) Hn Hk (der & Ho & Hkey) He
    | p nonce q data nonce' pkt ev Ha Hr Hn HL IH]; intros d Hp Hno Hsk Hsw.
  - exists d. split; [apply same_server_refl|]. intros S t s s' (s1 & E & ->).
    destruct sw; cbn [continue_auth]; rewrite iob; unfold on_stream at 1; rewrite E; reflexivity.
  - exists d. split; [apply same_server_refl|]. intros S t s s' (s1 & E1 & s2 & E2 & ->).
    destruct sw; cbn [continue_auth]; rewrite iob; unfold on_stream at 1; rewrite E1, Hp;
      cbn [first_is Z.eqb Pos.eqb andb second_is]; rewrite iob; unfold on_stream at 1; rewrite E2; reflexivity.
  - exists d. split; [apply same_server_refl|]. intros S t s s' (s1 & E1 & s2 & E2 & s3 & E3 & ->).
    assert (F : full_auth t pr secure o (s1, d) = (Ok tt, (s3, d))).
    { subst secure. unfold full_auth. cbv zeta. rewrite iob. unfold on_stream at 1. rewrite E2.
      rewrite iob. unfold on_stream. rewrite E3. reflexivity. }
    destruct sw; cbn [continue_auth]; rewrite iob; unfold on_stream at 1; rewrite E1, Hp;
      cbn [first_is Z.eqb Pos.eqb andb second_is]; exact F.
  - exists d. split; [apply same_server_refl|]. intros S t s s' (s1 & E1 & s2 & E2 & s3 & E3 & ->).
    assert (F : full_auth t pr secure o (s1, d) = (Ok tt, (s3, d))).
    { subst secure. unfold full_auth. cbv zeta. rewrite iob, iob. unfold get_server_key. rewrite Hsk.
      unfold known_by in Hk. destruct (o_server_key o) as [[kn ke]|]; [|discriminate]. cbn in Hk. injection Hk as -> ->.
      cbn [fst snd]. rewrite iob. unfold iores at 1. rewrite Hno, mask_password_xor by assumption. cbn [of_crypt rmap_err].
      rewrite iob. unfold iores at 1. rewrite He. cbn [of_crypt rmap_err]. unfold on_stream at 1. rewrite E2.
      rewrite iob. unfold on_stream. rewrite E3. reflexivity. }
    destruct sw; cbn [continue_auth]; rewrite iob; unfold on_stream at 1; rewrite E1, Hp;
      cbn [first_is Z.eqb Pos.eqb andb second_is]; exact F.
  - exists (with_key d (mkKey n e)). split; [repeat split|]. intros S t s s' (s1 & E1 & s2 & E2 & s3 & E3 & s4 & E4 & s5 & E5 & ->).
    assert (F : full_auth t pr secure o (s1, d) = (Ok tt, (s5, with_key d (mkKey n e)))).
    { subst secure. unfold full_auth. cbv zeta. rewrite iob, iob. unfold get_server_key. rewrite Hsk.
      unfold known_by in Hk. destruct (o_server_key o) as [|]; [discriminate|].
      rewrite iob. unfold on_stream at 1. rewrite E2. rewrite iob. unfold on_stream at 1. rewrite E3.
      cbn [first_is Z.eqb Pos.eqb tl]. rewrite iob. unfold iores at 1.
      rewrite (C41_public_key_parsed_partial n e der w Ho Hkey). cbn [of_crypt rmap_err].
      rewrite iob. unfold iores at 1. change (d_nonce (with_key d (mkKey n e))) with (d_nonce d).
      rewrite Hno, mask_password_xor by assumption. cbn [of_crypt rmap_err].
      rewrite iob. unfold iores at 1. rewrite He. cbn [of_crypt rmap_err]. unfold on_stream at 1. rewrite E4.
      rewrite iob. unfold on_stream. rewrite E5. reflexivity. }
    destruct sw; cbn [continue_auth]; rewrite iob; unfold on_stream at 1; rewrite E1, Hp;
      cbn [first_is Z.eqb Pos.eqb andb second_is]; exact F.
  - destruct (IH (switched d q nonce')) as (d' & Hd & R).
    + unfold current_plugin. cbn. destruct Ha as ([-> | ->] & _); reflexivity.
    + reflexivity.
    + exact Hsk.
    + reflexivity.
    + exists d'. split.
      { unfold same_server in *. cbn in Hd. intuition congruence. }
      intros S t s s' (s1 & E1 & s2 & E2 & HP).
      destruct (token_out pr o q nonce' H1 H2 Ha) as (x & G & T & _).
      pose proof (read_switch_request _ _ _ Hr) as Rd. rewrite (strip_zero_nonce _ _ Hn) in Rd.
      cbn [continue_auth]. rewrite iob; unfold on_stream at 1; rewrite E1.
      assert (Ep : exists r, pkt = 254 :: r) by (rewrite Hr; eexists; reflexivity). destruct Ep as (r & Ep).
      rewrite Hsw. rewrite Ep. cbn [first_is]. change (254 =? 0) with false. change (254 =? 1) with false. change (254 =? 254) with true.
      rewrite andb_false_r. cbn [andb negb]. rewrite <- Ep.
      rewrite iob. unfold iores at 1. rewrite Rd. cbn [of_protocol rmap_err].
      rewrite iob. rewrite Hsw. cbn [negb]. rewrite iob. unfold iores at 1. rewrite G. rewrite iob. unfold on_stream at 1.
      rewrite T, E2. specialize (R S t s2 s' HP). cbn [continue_auth] in R. exact R.
Qed.

Lemma common_caps : forall o caps i, Z.testbit (Z.land caps (get_capabilities o)) i = true <->
  Z.testbit caps i = true /\ common_bit (is_some (o_db_name o)) i.
Proof.
  intros o caps i. rewrite Z.land_spec, andb_true_iff.
  assert (E : Z.testbit (get_capabilities o) i = true <-> common_bit (is_some (o_db_name o)) i); [|rewrite E; tauto].
  assert (B : forall k, 0 <= k -> Z.testbit (2 ^ k) i = true <-> i = k).
  { intros k Hk. rewrite Z.pow2_bits_eqb by assumption. rewrite Z.eqb_eq. split; congruence. }
  unfold get_capabilities, common_bit.
  change CAP_PROTOCOL_41 with (2 ^ 9). change CAP_SECURE_CONNECTION with (2 ^ 15). change CAP_TRANSACTIONS with (2 ^ 13).
  change CAP_PS_MULTI_RESULTS with (2 ^ 18). change CAP_DEPRECATE_EOF with (2 ^ 24). change CAP_PLUGIN_AUTH with (2 ^ 19).
  change CAP_CONNECT_WITH_DB with (2 ^ 3).
  change PROTOCOL_41_BIT with 9. change SECURE_CONNECTION_BIT with 15. change PLUGIN_AUTH_BIT with 19.
  change DEPRECATE_EOF_BIT with 24. change CONNECT_WITH_DB_BIT with 3. cbn [In].
  destruct (o_db_name o); cbn [is_some]; rewrite !Z.lor_spec, !orb_true_iff, !B by lia; intuition congruence.
Qed.

(** The plugin named by a greeting. *)
Definition greeting_plugin (plugin : option (list Z)) (p : auth_plugin) : Prop :=
  match plugin with Some name => name = plugin_name p | None => p = PNative end.

Lemma greeting_data : forall debug other o id caps status len version part1 part2 plugin p g a b c suffix,
  greeting id caps status len version part1 part2 plugin g -> len <= 127 ->
  version_text a b c suffix version -> greeting_plugin plugin p ->
  exists m, handle_handshake debug other o g =
    Ok (mkData id m (a, b, c) (Z.land caps (get_capabilities o)) (challenge part1 part2) (o_server_key o) p false
          (match o_max_allowed_packet o with Some n => n | None => 4194304 end)).
Proof.
  intros debug other o id caps status len version part1 part2 plugin p g a b c suffix Hg Hl Hv Hp.
  destruct (greeting_read debug _ _ _ _ _ _ _ _ _ Hg Hl) as (coll & _ & E).
  unfold handle_handshake. rewrite E.
  destruct plugin as [name|]; cbn in Hp.
  - subst name. replace (plugin_of (plugin_name p)) with (@Ok protocol_error _ p) by (destruct p; reflexivity).
    cbn [rmap rbind hs_server_version]. rewrite (parse_version_text other _ _ _ _ _ Hv). cbn [rbind].
    eexists. reflexivity.
  - subst p. cbn [rbind hs_server_version]. rewrite (parse_version_text other _ _ _ _ _ Hv). cbn [rbind].
    eexists. reflexivity.
Qed.

Lemma number_range : forall n s, number_text n s -> 0 <= n < 65536.
Proof.
  intros n s (_ & Hd & -> & Hn). split; [|exact Hn].
  pose proof (fold_digits_le s 0 ltac:(lia) Hd). lia.
Qed.
Lemma version_text_ok : forall a b c suffix s, version_text a b c suffix s -> version_ok (a, b, c).
Proof.
  intros a b c suffix s H. destruct H as [? ? ? Ha Hb Hc | ? ? ? ? ? Ha Hb Hc _];
    apply number_range in Ha, Hb, Hc; unfold version_ok; lia.
Qed.

Lemma authenticate_login : forall pr debug other secure o, hash_fun 20 (p_sha1 pr) -> hash_fun 32 (p_sha256 pr) ->
  forall id caps status len version part1 part2 plugin p0 p g a b c suffix ev,
  greeting id caps status len version part1 part2 plugin g -> len <= 127 ->
  version_text a b c suffix version -> greeting_plugin plugin p0 ->
  p = match o_auth_plugin o with Some f => f | None => p0 end -> allowed_by o p ->
  login (p_sha1 pr) (p_sha256 pr) (fun n e m c => p_encrypt pr (mkKey n e) m = Ok c) secure (allowed_by o)
    (utf8_encode (o_password o)) (known_by o) p (challenge part1 part2) true ev ->
  exists h d x,
    gen_data pr p (utf8_encode (o_password o)) (challenge part1 part2) o = Ok x /\
    h = response_serialize (response_new (match x with Some y => plugin_data_bytes y | None => [] end) (a, b, c)
          (utf8_encode (o_user o)) (option_map utf8_encode (o_db_name o)) (Some p) (Z.land caps (get_capabilities o)) None
          ((match o_max_allowed_packet o with Some n => n | None => 4194304 end) mod 2 ^ 32)) /\
    d_id d = id /\ d_version d = (a, b, c) /\ d_capabilities d = Z.land caps (get_capabilities o) /\
    d_max_allowed_packet d = (match o_max_allowed_packet o with Some n => n | None => 4194304 end) /\
    forall S (t : transport S) s s', plays t (Received g :: Sent h :: ev) s s' ->
      authenticate t pr debug other secure o s = (Ok d, s').
Proof.
  intros pr debug other secure o H1 H2 id caps status len version part1 part2 plugin p0 p g a b c suffix ev Hg Hl Hv Hp0 Hp Ha HL.
  destruct (greeting_data debug other o _ _ _ _ _ _ _ _ _ _ _ _ _ _ Hg Hl Hv Hp0) as (m & E).
  destruct (token_out pr o p (challenge part1 part2) H1 H2 Ha) as (x & G & _).
  match type of E with _ = Ok ?y => set (d0 := y) in * end.
  destruct (login_runs pr secure o H1 H2 _ _ _ _ HL d0) as (d & Hd & R).
  { unfold current_plugin. rewrite Hp. reflexivity. } { reflexivity. } { reflexivity. } { reflexivity. }
  eexists _, d, x. split; [exact G|]. split; [reflexivity|]. destruct Hd as (D1 & _ & D2 & D3 & D4).
  do 4 (split; [assumption|]). intros S t s s' (s1 & E1 & s2 & E2 & HP).
  unfold authenticate. rewrite iob, E1, iob. unfold iores at 1. rewrite E. cbn [of_protocol rmap_err].
  rewrite iob. unfold iores at 1, make_handshake_response. cbv zeta.
  change (d_auth_plugin d0) with p0. rewrite <- Hp. change (d_nonce d0) with (challenge part1 part2). rewrite G.
  cbn [rbind]. rewrite iob.
  change (d_version d0) with (a, b, c). change (d_capabilities d0) with (Z.land caps (get_capabilities o)).
  change (d_max_allowed_packet d0) with (match o_max_allowed_packet o with Some n => n | None => 4194304 end).
  rewrite E2. rewrite (R S t s2 s' HP). reflexivity.
Qed.

(** ** On the wire *)

Lemma conversation_plays : forall q ev wi wo q', conversation q ev wi wo q' -> byte_ok q ->
  forall s rest, s_in s = wi ++ rest -> s_budget s = None ->
  byte_ok q' /\ plays wire_transport ev (s, q) (mkStream rest (s_end s) (s_out s ++ wo) None, q').
Proof.
  induction 1 as [q | q p w q1 ev wi wo q2 F C IH | q p w q1 ev wi wo q2 F C IH]; intros Hq s rest Hi Hb.
  - split; [assumption|]. cbn. rewrite app_nil_r. destruct s as [i e o' b]; cbn in *. subst. reflexivity.
  - pose proof (frames_seq_ok _ _ _ _ F Hq) as Hq1. rewrite <- app_assoc in Hi.
    destruct (IH Hq1 (with_in s (wi ++ rest)) rest eq_refl Hb) as (Hq2 & P).
    split; [assumption|]. eexists. split; [|exact P]. unfold wire_transport. cbn [t_read].
    rewrite (read_packet_frames _ _ _ _ _ (wi ++ rest) F Hq Hi). reflexivity.
  - pose proof (frames_seq_ok _ _ _ _ F Hq) as Hq1.
    destruct (write_follows_rules q p s Hq Hb) as (w' & q1' & F' & E).
    destruct (frames_det _ _ _ _ F _ _ F') as (<- & <-).
    destruct (IH Hq1 (mkStream (s_in s) (s_end s) (s_out s ++ w) None) rest Hi eq_refl) as (Hq2 & P).
    split; [assumption|]. eexists. split; [|cbn in P; rewrite <- app_assoc in P; exact P].
    unfold wire_transport. cbn [t_write]. rewrite E. reflexivity.
Qed.

(** ** Settings *)

Definition with_max (d : conn_data) (n : Z) : conn_data :=
  mkData (d_id d) (d_is_mariadb d) (d_version d) (d_capabilities d) (d_nonce d) (d_server_key d)
    (d_auth_plugin d) (d_auth_switched d) n.

Lemma settings_read : forall debug f32 f64 o c caps n w q0 pkts wi q rest,
  o_max_allowed_packet o = None -> c_caps c = caps -> Z.testbit caps DEPRECATE_EOF_BIT = true ->
  frames 0 (3 :: s2l "select @@max_allowed_packet") w q0 -> settings_answer caps n pkts -> framed q0 pkts wi q ->
  between c (wi ++ rest) ->
  exists c', read_settings debug f32 f64 o c = (Ok tt, c') /\ between c' rest /\ c_data c' = with_max (c_data c) n /\
    s_out (c_stream c') = s_out (c_stream c) ++ w.
Proof.
  intros debug f32 f64 o c caps n w q0 pkts wi q rest Ho Hc Hd Fw (col & row & Hn & Ht & Hfl & Hrow & Ha) Hf Hb.
  unfold read_settings. rewrite Ho. rewrite iob. unfold query. rewrite iob, execute_is_write.
  assert (Hd' : Z.testbit (c_caps c) DEPRECATE_EOF_BIT = true) by congruence.
  change (COM_QUERY :: s2l "select @@max_allowed_packet") with (3 :: s2l "select @@max_allowed_packet").
  destruct (write_command_between (3 :: s2l "select @@max_allowed_packet") c (wi ++ rest) Hd' Hb) as (w' & q' & F' & c1 & E & As).
  destruct (frames_det _ _ _ _ Fw _ _ F') as (<- & <-). rewrite E. clear E F'.
  assert (Hq0 : byte_ok q0) by (eapply frames_seq_ok; [exact Fw | unfold byte_ok; lia]).
  unfold asked in As.
  destruct (rs_read_opens caps c1 [col] [row] pkts wi q rest) as (c2 & E2 & O2 & D2 & S2); auto; try (rewrite As; auto; fail).
  rewrite E2.
  assert (Hd2 : Z.testbit (c_caps c2) DEPRECATE_EOF_BIT = true) by (unfold c_caps; rewrite D2, As; exact Hd').
  destruct (open_next _ (text_rows debug f32 f64) [col] row [] c2 rest Hd2 O2) as (c3 & E3 & O3 & (D3 & S3) & _).
  rewrite E3.
  assert (Er : read_text_row debug f32 f64 row [col] = Ok [VULong n]).
  { pose proof (C12_text_rows_partial (fun _ _ => False) (fun _ _ => False) f32 f64 debug [col] [VULong n] row []) as R.
    rewrite app_nil_r in R. apply R; try (intros ? ? []).
    - cbn [map]. rewrite Ht. replace (has_flag (col_flags col) UNSIGNED_FLAG) with true; [exact Hrow|].
      symmetry. unfold has_flag. change UNSIGNED_FLAG with (2 ^ 5). rewrite <- Hfl. clear.
      destruct (Z.testbit (col_flags col) 5) eqn:T.
      + apply Z.eqb_eq. apply Z.bits_inj'. intros i Hi. rewrite Z.land_spec, Z.pow2_bits_eqb by lia.
        destruct (Z.eqb_spec 5 i); [subst; now rewrite T | now rewrite andb_false_r].
      + apply Z.eqb_neq. intros F. apply (f_equal (fun x => Z.testbit x 5)) in F. rewrite Z.land_spec, T in F. discriminate.
    - constructor; [rewrite Ht; discriminate | constructor]. }
  unfold text_rows at 1. rewrite Er. cbn [of_protocol rmap_err rbind rs_columns find_column].
  rewrite Hn. replace (list_eqb (s2l "@@max_allowed_packet") (s2l "@@max_allowed_packet")) with true by (symmetry; vm_compute; reflexivity).
  cbn [nth_error]. rewrite iob. unfold iores. change (prim_try_into U64 (VULong n)) with (@Ok parse_error _ n). cbn [rmap_err].
  eexists. split; [reflexivity|]. split; [|split].
  - apply open_between in O3. exact O3.
  - cbn. rewrite D3, D2, As. reflexivity.
  - cbn. rewrite S3, S2, As. reflexivity.
Qed.
