(** C34-C37 and C67: greeting, handshake response, capabilities, server version. *)
From Coq Require Import String ZArith List Bool Lia.
From Verif Require Import Base BaseFacts Types Utf8 ParseBuf BufMut Spec_Wire ParseBuf_proofs Conversion
  Spec_Conv Conversion_proofs Packets Spec_Packets Packets_proofs Scramble Crypt Spec_Crypt Crypt_proofs Handshake Spec_Handshake
  Handshake_proofs Greeting_proofs.
Import ListNotations.
Open Scope Z_scope.

Lemma bytes_okb : forall l, forallb (fun b => (0 <=? b) && (b <? 256)) l = true -> bytes_ok l.
Proof.
  intros l H. apply Forall_forall. intros b Hb. rewrite forallb_forall in H. specialize (H b Hb). unfold byte_ok. lia.
Qed.

(** ** C34 *)

(** With an announced length of at most 127 (servers send 21 or 0), a greeting decodes to its
    fields; an unknown plugin name is an error. *)
Theorem C34_greeting_decoded_partial :
  forall debug id caps status len version part1 part2 plugin pkt,
  greeting id caps status len version part1 part2 plugin pkt -> len <= 127 ->
  (forall name, plugin = Some name -> forall p, name = plugin_name p ->
     exists h, read_handshake debug pkt = Ok h /\ hs_auth_plugin h = Some p /\
       hs_connection_id h = id /\ hs_capabilities h = caps /\ hs_nonce h = challenge part1 part2 /\
       hs_server_version h = version /\ hs_status h = status) /\
  (plugin = None ->
     exists h, read_handshake debug pkt = Ok h /\ hs_auth_plugin h = None /\
       hs_connection_id h = id /\ hs_capabilities h = caps /\ hs_nonce h = challenge part1 part2 /\
       hs_server_version h = version /\ hs_status h = status) /\
  (forall name, plugin = Some name -> (forall p, name <> plugin_name p) ->
     read_handshake debug pkt = Err (PUnknownAuthPlugin name)).
Proof.
  intros debug id caps status len version part1 part2 plugin pkt H Hl.
  destruct (greeting_read debug _ _ _ _ _ _ _ _ _ H Hl) as (coll & Hc & E). rewrite E. clear E.
  split; [|split].
  - intros name -> p ->. exists (mkHandshake 10 version id caps coll status len (challenge part1 part2) (Some p)).
    split; [|repeat split]. destruct p; reflexivity.
  - intros ->. eexists. split; [reflexivity | repeat split].
  - intros name -> Hn. unfold plugin_of.
    repeat match goal with |- context[list_eqb name ?x] =>
      replace (list_eqb name x) with false by (symmetry; apply list_eqb_neq; apply Hn) end.
    reflexivity.
Qed.
Print Assumptions C34_greeting_decoded_partial.

(** The halves of a 32-bit integer: written little-endian, and read back as the parts of the integer
    they were. *)
Theorem C34_halves : forall n rest, 0 <= n < 2 ^ 32 ->
  serialize_lower n = wire_uint 2 (n mod 2 ^ 16) /\ serialize_upper n = wire_uint 2 (n / 2 ^ 16) /\
  deserialize_lower (serialize_lower n ++ rest) = (Ok (n mod 2 ^ 16), rest) /\
  deserialize_upper (serialize_upper n ++ rest) = (Ok (n - n mod 2 ^ 16), rest).
Proof.
  intros n rest Hn. unfold serialize_lower, serialize_upper, deserialize_lower, deserialize_upper.
  rewrite Z.shiftr_div_pow2 by lia. change 65535 with (Z.ones 16). rewrite Z.land_ones by lia.
  split; [now rewrite wire_uint_le|]. split; [now rewrite wire_uint_le|].
  assert (U : unsigned_ok 2 (n mod 2 ^ 16) /\ unsigned_ok 2 (n / 2 ^ 16)).
  { unfold unsigned_ok. change (256 ^ Z.of_nat 2) with (2 ^ 16). change (2 ^ 32) with (2 ^ 16 * 2 ^ 16) in Hn.
    split; [apply Z.mod_pos_bound; lia|]. split; [apply Z.div_pos; lia | apply Z.div_lt_upper_bound; lia]. }
  destruct U as (U1 & U2). split; [now apply eat_uint_app|].
  rewrite (pbind_ok _ _ _ (n / 2 ^ 16) rest) by now apply eat_uint_app. unfold pret. rewrite Z.shiftl_mul_pow2 by lia.
  do 2 f_equal. pose proof (Z.div_mod n (2 ^ 16)). lia.
Qed.
Print Assumptions C34_halves.

Example C34_halves_case : serialize_lower 3758096383 = [255; 255] /\ serialize_upper 3758096383 = [255; 223].
Proof. split; reflexivity. Qed.

(** A MySQL 8 greeting. *)
Definition mysql8_greeting : list Z :=
  [10] ++ s2l "8.0.36" ++ [0] ++ [9; 0; 0; 0] ++ [1; 2; 3; 4; 5; 6; 7; 8] ++ [0] ++ [255; 255] ++ [255] ++ [2; 0] ++
  [255; 223] ++ [21] ++ repeat 0 10 ++ [9; 10; 11; 12; 13; 14; 15; 16; 17; 18; 19; 20; 0] ++
  s2l "caching_sha2_password" ++ [0].

Lemma mysql8_greeting_ok :
  greeting 9 3758096383 2 21 (s2l "8.0.36") [1; 2; 3; 4; 5; 6; 7; 8]
    [9; 10; 11; 12; 13; 14; 15; 16; 17; 18; 19; 20; 0] (Some (plugin_name PSha2)) mysql8_greeting.
Proof.
  apply greeting_intro with (wv := s2l "8.0.36") (filler := 0) (collation := 255) (reserved := repeat 0 10)
    (w2 := [9; 10; 11; 12; 13; 14; 15; 16; 17; 18; 19; 20; 0]) (wp := plugin_name PSha2 ++ [0]); try lia.
  - split; [lia|]. vm_compute. discriminate.
  - apply decode_text; [apply bytes_okb; reflexivity | reflexivity].
  - cbv. intuition discriminate.
  - reflexivity.
  - reflexivity.
  - cbn. split; reflexivity.
  - exists (plugin_name PSha2). split; [reflexivity|]. split; [apply plugin_name_nonul | now left].
  - vm_compute. reflexivity.
Qed.

Example C34_example : exists h, read_handshake true mysql8_greeting = Ok h /\
  hs_nonce h = [1; 2; 3; 4; 5; 6; 7; 8; 9; 10; 11; 12; 13; 14; 15; 16; 17; 18; 19; 20] /\
  hs_capabilities h = 3758096383.
Proof. eexists. split; [vm_compute; reflexivity | split; reflexivity]. Qed.

(** Longer plugin data: the length byte is taken as signed.  Data of 200 bytes cannot be decoded;
    data of 130 bytes panics with overflow checks. *)
Definition long_greeting (len : Z) : list Z :=
  [10] ++ s2l "8.0.36" ++ [0] ++ [9; 0; 0; 0] ++ repeat 1 8 ++ [0] ++ [255; 255] ++ [255] ++ [2; 0] ++
  [255; 223] ++ [len] ++ repeat 0 10 ++ repeat 1 (Z.to_nat (len - 8)) ++ s2l "caching_sha2_password" ++ [0].

Lemma long_greeting_ok : forall len, 21 <= len < 256 ->
  greeting 9 3758096383 2 len (s2l "8.0.36") (repeat 1 8) (repeat 1 (Z.to_nat (len - 8)))
    (Some (plugin_name PSha2)) (long_greeting len).
Proof.
  intros len Hl.
  apply greeting_intro with (wv := s2l "8.0.36") (filler := 0) (collation := 255) (reserved := repeat 0 10)
    (w2 := repeat 1 (Z.to_nat (len - 8))) (wp := plugin_name PSha2 ++ [0]); try lia.
  - split; [lia|]. vm_compute. discriminate.
  - apply decode_text; [apply bytes_okb; reflexivity | reflexivity].
  - cbv. intuition discriminate.
  - reflexivity.
  - reflexivity.
  - change (Z.testbit 3758096383 SECURE_CONNECTION_BIT) with true. cbn match. rewrite repeat_length. split; [lia | reflexivity].
  - exists (plugin_name PSha2). split; [reflexivity|]. split; [apply plugin_name_nonul | now left].
  - reflexivity.
Qed.

Theorem C34_greeting_decoded_refuted :
  (exists id caps status len version part1 part2 p pkt,
     greeting id caps status len version part1 part2 (Some (plugin_name p)) pkt /\
     forall debug h, read_handshake debug pkt <> Ok h) /\
  (exists id caps status len version part1 part2 p pkt,
     greeting id caps status len version part1 part2 (Some (plugin_name p)) pkt /\
     read_handshake true pkt = Panic).
Proof.
  split.
  - do 8 eexists. exists (long_greeting 200). split; [apply long_greeting_ok; lia|].
    intros debug h. destruct debug; vm_compute; discriminate.
  - do 8 eexists. exists (long_greeting 130). split; [apply long_greeting_ok; lia|].
    vm_compute. reflexivity.
Qed.
Print Assumptions C34_greeting_decoded_refuted.

(** Which packets are accepted, with overflow checks ([debug]) and without, and what is read from them. *)
Theorem C34_accepted : forall debug pkt id caps status len version nonce plugin, bytes_ok pkt ->
  (exists h, read_handshake debug pkt = Ok h /\ hs_connection_id h = id /\ hs_capabilities h = caps /\ hs_status h = status /\
     hs_auth_plugin_data_len h = len /\ hs_server_version h = version /\ hs_nonce h = nonce /\ hs_auth_plugin h = plugin) <->
  exists part1 part2, loose_greeting debug id caps status len version part1 part2 plugin pkt /\ nonce = challenge part1 part2.
Proof.
  intros debug pkt id caps status len version nonce plugin Hb. split.
  - intros (h & E & <- & <- & <- & <- & <- & <- & <-). now apply loose_read_inv.
  - intros (p1 & p2 & G & ->). apply loose_read in G. destruct G as (proto & coll & E). rewrite E. eexists. splits; reflexivity.
Qed.
Print Assumptions C34_accepted.

(** Protocol version 200 is accepted.  Of 255 announced bytes of plugin data 13 are taken for the second
    part, the others for the name of the plugin. *)
Example C34_accepted_case : exists h, read_handshake true (200 :: tl (long_greeting 255)) = Err (PUnknownAuthPlugin h) /\
  read_handshake true (200 :: tl (long_greeting 21)) =
    Ok (mkHandshake 200 (s2l "8.0.36") 9 3758096383 255 2 21 (repeat 1 20) (Some PSha2)).
Proof. eexists. split; vm_compute; reflexivity. Qed.

(** ** C35 *)

(** Reading a greeting never panics by itself (without overflow checks), and a greeting that
    decodes, with a version in ASCII, gives a connection state. *)
Theorem C35_connecting_never_panics_partial :
  (forall pkt, read_handshake false pkt <> Panic) /\
  (forall debug other o pkt h, read_handshake debug pkt = Ok h ->
     Forall (fun c => 0 <= c < 128) (hs_server_version h) ->
     exists d, handle_handshake debug other o pkt = Ok d) /\
  (forall debug other o id caps status len version part1 part2 plugin pkt,
     greeting id caps status len version part1 part2 plugin pkt -> len <= 127 ->
     Forall (fun c => 0 <= c < 128) version ->
     (forall name, plugin = Some name -> exists p, name = plugin_name p) ->
     exists d, handle_handshake debug other o pkt = Ok d /\
       d_id d = id /\ d_nonce d = challenge part1 part2 /\
       plugin = (if Z.testbit caps PLUGIN_AUTH_BIT then Some (plugin_name (d_auth_plugin d)) else None) /\
       d_auth_switched d = false /\ subset (d_capabilities d) caps).
Proof.
  assert (G : forall debug other o pkt h, read_handshake debug pkt = Ok h ->
     Forall (fun c => 0 <= c < 128) (hs_server_version h) ->
     exists d, handle_handshake debug other o pkt = Ok d /\ d_id d = hs_connection_id h /\
       d_nonce d = hs_nonce h /\ d_auth_plugin d = (match hs_auth_plugin h with Some p => p | None => PNative end) /\
       d_auth_switched d = false /\ subset (d_capabilities d) (hs_capabilities h)).
  { intros debug other o pkt h E A. unfold handle_handshake. rewrite E.
    destruct (version_ascii_ok other _ A) as (v & ->). cbn [rbind].
    destruct v as [[v m]|]; eexists; (split; [reflexivity|]); repeat split; cbn;
    intros i Hi; rewrite Z.land_spec in Hi; apply andb_true_iff in Hi; tauto. }
  split; [exact read_handshake_np|]. split.
  - intros debug other o pkt h E A. destruct (G debug other o pkt h E A) as (d & Hd & _). eauto.
  - intros debug other o id caps status len version part1 part2 plugin pkt H Hl A Hp.
    destruct (greeting_read debug _ _ _ _ _ _ _ _ _ H Hl) as (coll & Hc & E).
    assert (Hb : if Z.testbit caps PLUGIN_AUTH_BIT then exists name, plugin = Some name else plugin = None).
    { destruct H as [wv filler coll' reserved w2 wp _ _ _ _ _ _ _ _ _ _ Hw _].
      destruct (Z.testbit caps PLUGIN_AUTH_BIT); [|assumption]. destruct Hw as (n & -> & _). eauto. }
    destruct plugin as [name|].
    + destruct (Hp name eq_refl) as (p & ->).
      assert (Ep : plugin_of (plugin_name p) = Ok p) by (destruct p; reflexivity).
      rewrite Ep in E. unfold rmap, rbind in E. destruct (G debug other o pkt _ E A) as (d & Hd & A1 & A2 & A3 & A4 & A5).
      exists d. split; [exact Hd|]. split; [exact A1|]. split; [exact A2|].
      split; [|split; [exact A4 | exact A5]].
      rewrite A3. cbn [hs_auth_plugin]. destruct (Z.testbit caps PLUGIN_AUTH_BIT); [reflexivity | discriminate].
    + destruct (G debug other o pkt _ E A) as (d & Hd & A1 & A2 & A3 & A4 & A5).
      exists d. split; [exact Hd|]. split; [exact A1|]. split; [exact A2|].
      split; [|split; [exact A4 | exact A5]].
      destruct (Z.testbit caps PLUGIN_AUTH_BIT); [destruct Hb; discriminate | reflexivity].
Qed.
Print Assumptions C35_connecting_never_panics_partial.

Definition plain_options : conn_options :=
  mkOptions (s2l "root") (s2l "secret") (Some (s2l "test")) None false (Some PSha2) None.

Example C35_example : exists d, handle_handshake true (fun _ => true) plain_options mysql8_greeting = Ok d /\
  d_version d = (8, 0, 36) /\ d_auth_plugin d = PSha2.
Proof. eexists. split; [vm_compute; reflexivity | split; reflexivity]. Qed.

(** Every error packet (without a NUL byte) in place of the greeting - "Too many connections",
    "Host is blocked" - panics, and so does a version with a non-ASCII letter. *)
Theorem C35_connecting_never_panics_refuted :
  (forall debug other o code msg wire,
     err_layout false false (ErrError code None msg) wire -> ~ In 0 wire ->
     handle_handshake debug other o wire = Panic) /\
  (exists id caps status len version part1 part2 p pkt,
     greeting id caps status len version part1 part2 (Some (plugin_name p)) pkt /\ len = 21 /\
     handle_handshake false (fun _ => true) plain_options pkt = Panic).
Proof.
  split.
  - intros debug other o code msg wire H Hz. unfold handle_handshake.
    assert (E : exists e, read_handshake debug wire = Err e).
    { inversion H; subst; try discriminate. unfold read_handshake, handshake_p.
      rewrite (pbind_ok _ _ _ 255 (wire_uint 2 code ++ m)).
      2:{ apply (parse_uint_app 1 255). unfold unsigned_ok. lia. }
      set (b := wire_uint 2 code ++ m) in *.
      assert (Hb : ~ In 0 b) by (intros F; apply Hz; now right).
      assert (E : eat_null_slice b = (Ok b, [])).
      { unfold eat_null_slice. rewrite position_none by assumption. cbv zeta.
        rewrite <- (app_nil_r b) at 2. rewrite (pbind_ok _ _ _ _ _ (eat_app (lenZ b) b [] eq_refl)).
        unfold pret. now rewrite strip_zero_not. }
      unfold eat_null_str, pbind at 1. unfold pbind at 1. rewrite E. unfold plift at 1.
      destruct (from_utf8 b) as [t|e|] eqn:Eu; [|eexists; reflexivity|].
      - eexists. reflexivity.
      - exfalso. revert Eu. unfold from_utf8. destruct (utf8_decode b); discriminate. }
    destruct E as (e & ->). reflexivity.
  - exists 9, 3758096383, 2, 21, [8217 - 7984; 46; 48; 46; 48], [1; 2; 3; 4; 5; 6; 7; 8],
      [9; 10; 11; 12; 13; 14; 15; 16; 17; 18; 19; 20; 0], PSha2.
    exists ([10] ++ [195; 169; 46; 48; 46; 48] ++ [0] ++ [9; 0; 0; 0] ++ [1; 2; 3; 4; 5; 6; 7; 8] ++ [0] ++ [255; 255] ++ [255] ++ [2; 0] ++
      [255; 223] ++ [21] ++ repeat 0 10 ++ [9; 10; 11; 12; 13; 14; 15; 16; 17; 18; 19; 20; 0] ++
      s2l "caching_sha2_password" ++ [0]).
    split; [|split; [reflexivity | vm_compute; reflexivity]].
    apply greeting_intro with (wv := [195; 169; 46; 48; 46; 48]) (filler := 0) (collation := 255) (reserved := repeat 0 10)
      (w2 := [9; 10; 11; 12; 13; 14; 15; 16; 17; 18; 19; 20; 0]) (wp := plugin_name PSha2 ++ [0]); try lia.
    + split; [lia|]. vm_compute. discriminate.
    + apply decode_text; [apply bytes_okb; reflexivity | reflexivity].
    + cbv. intuition discriminate.
    + reflexivity.
    + reflexivity.
    + cbn. split; reflexivity.
    + exists (plugin_name PSha2). split; [reflexivity|]. split; [apply plugin_name_nonul | now left].
    + vm_compute. reflexivity.
Qed.
Print Assumptions C35_connecting_never_panics_refuted.

(** Exactly when the first packet makes connecting panic: it is no greeting the client accepts, or
    the version is cut inside a character.  There are no errors. *)
Theorem C35_outcome : forall debug other o pkt, bytes_ok pkt ->
  (handle_handshake debug other o pkt = Panic <->
   forall id caps status len version part1 part2 plugin,
     loose_greeting debug id caps status len version part1 part2 plugin pkt -> version_breaks other 3 version) /\
  (forall e, handle_handshake debug other o pkt <> Err e).
Proof. exact greeting_outcome. Qed.
Print Assumptions C35_outcome.

(** A letter of two bytes before the first dot: the text is cut inside the letter.  A version of ASCII
    characters never breaks. *)
Example C35_outcome_case : version_breaks (fun _ => true) 3 [233; 46; 48; 46; 48] /\ ~ version_breaks (fun _ => true) 3 (s2l "8.0.36").
Proof.
  split.
  - apply (version_panics (fun _ => true)); [|vm_compute; reflexivity]. repeat constructor; unfold scalar_ok; lia.
  - intros H. apply (version_panics (fun _ => true)) in H; [vm_compute in H; discriminate|]. repeat constructor; unfold scalar_ok; lia.
Qed.

(** ** C36 *)

(** User and database without NUL, authentication data that fits its encoding. *)
Theorem C36_response_decoded_partial :
  forall scramble version user db plugin caps max,
  0 <= caps < 2 ^ 32 -> 0 <= max < 2 ^ 32 -> version_ok version ->
  ~ In 0 user -> (forall x, db = Some x -> ~ In 0 x) -> carriable caps scramble ->
  exists hello,
    server_reads (response_serialize (response_new scramble version user db plugin caps None max)) = Some hello /\
    ch_max_packet hello = max /\ ch_charset hello = utf8_collation version /\ ch_user hello = user /\
    ch_auth hello = scramble /\ ch_db hello = db /\ ch_plugin hello = option_map plugin_name plugin /\
    (Z.testbit (ch_caps hello) CONNECT_WITH_DB_BIT = true <-> db <> None) /\
    (Z.testbit (ch_caps hello) PLUGIN_AUTH_BIT = true <-> plugin <> None) /\
    (forall i, i <> CONNECT_WITH_DB_BIT -> i <> PLUGIN_AUTH_BIT -> i <> CONNECT_ATTRS_BIT ->
       Z.testbit (ch_caps hello) i = Z.testbit caps i).
Proof.
  intros scramble version user db plugin caps max Hc Hm Hv Hu Hd Hs.
  eexists. split; [apply response_read; assumption|]. cbn [ch_max_packet ch_charset ch_user ch_auth ch_db ch_plugin ch_caps].
  do 6 (split; [reflexivity|]). rewrite !sent_caps_bit.
  split; [|split].
  - change (CONNECT_WITH_DB_BIT =? CONNECT_ATTRS_BIT) with false. change (CONNECT_WITH_DB_BIT =? PLUGIN_AUTH_BIT) with false.
    rewrite Z.eqb_refl. destruct db; cbn; split; congruence.
  - change (PLUGIN_AUTH_BIT =? CONNECT_ATTRS_BIT) with false. rewrite Z.eqb_refl. destruct plugin; cbn; split; congruence.
  - intros i H1 H2 H3. rewrite sent_caps_bit.
    apply Z.eqb_neq in H1, H2, H3. now rewrite H1, H2, H3.
Qed.
Print Assumptions C36_response_decoded_partial.

(** The packet written while connecting: with the hashes of the right length, user and database
    without NUL and, for clear text, a password of at most 255 bytes, the server reads the user,
    the authentication data of the plugin in use, the database and that plugin's name. *)
Theorem C36_connect_packet_partial :
  forall pr o d pkt, hash_fun 20 (p_sha1 pr) -> hash_fun 32 (p_sha256 pr) ->
  make_handshake_response pr o d = Ok pkt ->
  0 <= d_capabilities d < 2 ^ 32 -> Z.testbit (d_capabilities d) SECURE_CONNECTION_BIT = true ->
  version_ok (d_version d) -> octets (d_nonce d) ->
  str_ok (o_user o) -> ~ In 0 (o_user o) -> str_ok (o_password o) ->
  (forall x, o_db_name o = Some x -> str_ok x /\ ~ In 0 x) ->
  (length (utf8_encode (o_password o)) <= 255)%nat ->
  exists hello p auth, server_reads pkt = Some hello /\
    p = match o_auth_plugin o with Some p => p | None => d_auth_plugin d end /\
    ch_plugin hello = Some (plugin_name p) /\
    ch_user hello = utf8_encode (o_user o) /\
    ch_db hello = option_map utf8_encode (o_db_name o) /\
    ch_max_packet hello = d_max_allowed_packet d mod 2 ^ 32 /\
    gen_data pr p (utf8_encode (o_password o)) (d_nonce d) o = Ok auth /\
    ch_auth hello = match auth with Some x => plugin_data_bytes x | None => [] end.
Proof.
  intros pr o d pkt H1 H2 H Hc Hs Hv Hn Hu Hu0 Hp Hdb Hl. unfold make_handshake_response in H. cbv zeta in H.
  set (p := match o_auth_plugin o with Some p => p | None => d_auth_plugin d end) in *.
  destruct (gen_data pr p (utf8_encode (o_password o)) (d_nonce d) o) as [auth|e|] eqn:G; try discriminate.
  cbn [rbind] in H. injection H as <-.
  set (bytes_ := match auth with Some x => plugin_data_bytes x | None => [] end).
  assert (L : (length bytes_ <= 255)%nat).
  { subst bytes_. destruct auth as [a|]; [|cbn; lia]. unfold gen_data in G. cbv zeta in G.
    destruct (match o_auth_plugin o with Some f => if auth_plugin_eqb p f then None else Some (RAuthPluginMismatch f p) | None => None end); [discriminate|].
    destruct p.
    - destruct (o_allow_cleartext o); [|discriminate]. injection G as <-. cbn. exact Hl.
    - destruct (scramble_native _ _ _) as [x|] eqn:E; [|discriminate]. injection G as <-. cbn.
      apply scramble_native_len in E; [lia | intros y; apply (H1 y)].
    - destruct (scramble_sha256 _ _ _) as [x|] eqn:E; [|discriminate]. injection G as <-. cbn.
      apply scramble_sha256_len in E; [lia | intros y; apply (H2 y)]. }
  eexists _, p, auth. split.
  { apply response_read; try assumption.
    - apply Z.mod_pos_bound. lia.
    - now apply utf8_nonul.
    - intros x Hx. destruct (o_db_name o) as [y|]; [|discriminate]. injection Hx as <-.
      destruct (Hdb y eq_refl). now apply utf8_nonul.
    - unfold carriable. rewrite Hs. destruct (Z.testbit (d_capabilities d) LENENC_CLIENT_DATA_BIT); [lia | exact L]. }
  repeat split. exact G.
Qed.
Print Assumptions C36_connect_packet_partial.

Example C36_example :
  exists d pkt hello,
    handle_handshake true (fun _ => true) plain_options mysql8_greeting = Ok d /\
    make_handshake_response (mkPrims (fun _ => repeat 7 20) (fun _ => repeat 9 32) (fun _ _ => Err MessageTooLong))
      plain_options d = Ok pkt /\
    server_reads pkt = Some hello /\ ch_user hello = s2l "root" /\ ch_db hello = Some (s2l "test") /\
    ch_plugin hello = Some (s2l "caching_sha2_password") /\ ch_charset hello = 45 /\ length (ch_auth hello) = 32%nat.
Proof.
  eexists _, _, _. split; [vm_compute; reflexivity|]. split; [vm_compute; reflexivity|].
  split; [vm_compute; reflexivity|]. repeat split.
Qed.

(** A NUL in the user name ends it early and shifts the rest; a clear-text password of 256 bytes
    is cut. *)
Theorem C36_response_decoded_refuted :
  (exists scramble version user plugin caps max,
     0 <= caps < 2 ^ 32 /\ 0 <= max < 2 ^ 32 /\ version_ok version /\ carriable caps scramble /\
     ~ exists hello,
       server_reads (response_serialize (response_new scramble version user None plugin caps None max)) = Some hello /\
       ch_user hello = user) /\
  (exists scramble version user plugin caps max hello,
     0 <= caps < 2 ^ 32 /\ 0 <= max < 2 ^ 32 /\ version_ok version /\ ~ In 0 user /\
     server_reads (response_serialize (response_new scramble version user None plugin caps None max)) = Some hello /\
     ch_auth hello <> scramble).
Proof.
  split.
  - exists (repeat 7 20), (8, 0, 36), [114; 0], (Some PSha2), 557568, 0.
    split; [lia|]. split; [lia|]. split; [cbn; lia|]. split; [cbn; lia|].
    intros (hello & H & E). revert H. vm_compute. intros H; first [discriminate H | injection H as <-; discriminate E].
  - exists (repeat 65 300), (8, 0, 36), [114], (Some PClear), 557568, 0.
    let x := eval vm_compute in (server_reads (response_serialize (response_new (repeat 65 300) (8, 0, 36) [114] None (Some PClear) 557568 None 0))) in
    match x with Some ?h => exists h end.
    split; [lia|]. split; [lia|]. split; [cbn; lia|]. split; [cbv; intuition discriminate|]. split.
    + vm_compute. reflexivity.
    + cbn. discriminate.
Qed.
Print Assumptions C36_response_decoded_refuted.

(** ** C37 *)

(** The capabilities of the packet written while connecting are among those of the greeting, if
    the server offers PLUGIN_AUTH and, when a database is given, CONNECT_WITH_DB. *)
Theorem C37_capabilities_subset_partial :
  forall debug other pr o greeting_pkt h d pkt hello,
  read_handshake debug greeting_pkt = Ok h ->
  handle_handshake debug other o greeting_pkt = Ok d ->
  make_handshake_response pr o d = Ok pkt ->
  server_reads pkt = Some hello ->
  0 <= hs_capabilities h < 2 ^ 32 ->
  Z.testbit (hs_capabilities h) PLUGIN_AUTH_BIT = true ->
  (o_db_name o <> None -> Z.testbit (hs_capabilities h) CONNECT_WITH_DB_BIT = true) ->
  subset (ch_caps hello) (hs_capabilities h).
Proof.
  intros debug other pr o g h d pkt hello Hr Hd Hp Hs Hc P1 P2 i Hi.
  assert (Dc : d_capabilities d = Z.land (hs_capabilities h) (get_capabilities o)).
  { unfold handle_handshake in Hd. rewrite Hr in Hd.
    destruct (parse_server_version other (hs_server_version h)) as [v|e|]; try discriminate. cbn [rbind] in Hd.
    destruct (match v with Some x => x | None => (0, 0, 0, false) end) as [ver m]. injection Hd as <-. reflexivity. }
  assert (Ec : exists pl, ch_caps hello = sent_caps (d_capabilities d) (is_some (o_db_name o)) pl).
  { unfold make_handshake_response in Hp. cbv zeta in Hp. destruct (gen_data _ _ _ _ _) as [auth|e|]; try discriminate.
    cbn [rbind] in Hp. injection Hp as <-. apply server_reads_caps in Hs.
    exists true. rewrite Hs. rewrite Z.mod_small.
    - destruct (o_db_name o); reflexivity.
    - apply sent_caps_range. rewrite Dc. split; [apply Z.land_nonneg; lia|].
      apply bits_bound; [lia | apply Z.land_nonneg; lia|]. intros j Hj. rewrite Z.land_spec.
      now rewrite (high_bits (hs_capabilities h) 32 j) by lia. }
  destruct Ec as (pl & Ec). rewrite Ec, sent_caps_bit in Hi.
  destruct (Z.eqb_spec i CONNECT_ATTRS_BIT); [discriminate|].
  destruct (Z.eqb_spec i PLUGIN_AUTH_BIT); [now subst|].
  destruct (Z.eqb_spec i CONNECT_WITH_DB_BIT).
  - subst. apply P2. destruct (o_db_name o); discriminate.
  - rewrite Dc, Z.land_spec in Hi. apply andb_true_iff in Hi. tauto.
Qed.
Print Assumptions C37_capabilities_subset_partial.

Definition toy_prims : primitives :=
  mkPrims (fun _ => repeat 7 20) (fun _ => repeat 9 32) (fun _ _ => Err MessageTooLong).

Example C37_example : exists h d pkt hello,
  read_handshake true mysql8_greeting = Ok h /\
  handle_handshake true (fun _ => true) plain_options mysql8_greeting = Ok d /\
  make_handshake_response toy_prims plain_options d = Ok pkt /\
  server_reads pkt = Some hello /\ ch_caps hello = 17605128.
Proof.
  eexists _, _, _, _. split; [vm_compute; reflexivity|]. split; [vm_compute; reflexivity|].
  split; [vm_compute; reflexivity|]. split; [vm_compute; reflexivity|]. vm_compute. reflexivity.
Qed.

(** A greeting without PLUGIN_AUTH and CONNECT_WITH_DB. *)
Definition old_greeting : list Z :=
  [10] ++ s2l "5.1.73" ++ [0] ++ [9; 0; 0; 0] ++ [1; 2; 3; 4; 5; 6; 7; 8] ++ [0] ++ [0; 162] ++ [8] ++ [2; 0] ++
  [0; 0] ++ [21] ++ repeat 0 10 ++ [9; 10; 11; 12; 13; 14; 15; 16; 17; 18; 19; 20; 0].

Theorem C37_capabilities_subset_refuted :
  exists h d pkt hello,
  read_handshake false old_greeting = Ok h /\
  handle_handshake false (fun _ => true) plain_options old_greeting = Ok d /\
  make_handshake_response toy_prims plain_options d = Ok pkt /\
  server_reads pkt = Some hello /\
  Z.testbit (ch_caps hello) PLUGIN_AUTH_BIT = true /\ Z.testbit (hs_capabilities h) PLUGIN_AUTH_BIT = false /\
  Z.testbit (ch_caps hello) CONNECT_WITH_DB_BIT = true /\ Z.testbit (hs_capabilities h) CONNECT_WITH_DB_BIT = false.
Proof.
  eexists _, _, _, _. split; [vm_compute; reflexivity|]. split; [vm_compute; reflexivity|].
  split; [vm_compute; reflexivity|]. split; [vm_compute; reflexivity|]. vm_compute. repeat split.
Qed.
Print Assumptions C37_capabilities_subset_refuted.

(** ** C67 *)

(** A version major.minor.patch, alone or followed by a separator and a suffix, is recorded as
    these three numbers; the server is taken for MariaDB iff the suffix starts with that word
    right after the separator. *)
Theorem C67_server_version_partial :
  forall other a b c suffix s, version_text a b c suffix s ->
  exists m, parse_server_version other s = Ok (Some ((a, b, c), m)) /\
    (m = true <-> exists x r, suffix = x :: s2l "MariaDB" ++ r).
Proof.
  intros other a b c suffix s H. eexists. split; [apply parse_version_text; eassumption|].
  rewrite starts_with_spec. split.
  - intros (r & E). destruct H; [discriminate|]. cbn [tl] in E. subst. eauto.
  - intros (x & r & ->). now exists r.
Qed.
Print Assumptions C67_server_version_partial.

Lemma number_1 : forall n s, s <> [] -> forallb (fun c => (48 <=? c) && (c <=? 57)) s = true ->
  fold_left (fun acc c => acc * 10 + (c - 48)) s 0 = n -> n < 65536 -> number_text n s.
Proof.
  intros n s H1 H2 H3 H4. split; [assumption|]. split; [|split; [now symmetry | assumption]].
  apply Forall_forall. intros c Hc. rewrite forallb_forall in H2. specialize (H2 c Hc). lia.
Qed.

Example C67_example : version_text 10 6 12 (s2l "-MariaDB-1") (s2l "10.6.12-MariaDB-1").
Proof.
  apply (version_suffix 10 6 12 (s2l "10") (s2l "6") (s2l "12") 45 (s2l "MariaDB-1"));
    [apply number_1; [discriminate | reflexivity | reflexivity | lia] .. |].
  unfold separator. lia.
Qed.

(** The version string MariaDB 10 servers send is not recognised as MariaDB. *)
Theorem C67_server_version_refuted :
  exists a b c suffix s, version_text a b c suffix s /\ mentions suffix "MariaDB" /\
  forall other, parse_server_version other s = Ok (Some ((a, b, c), false)).
Proof.
  assert (V : version_text 5 5 5 (s2l "-10.6.12-MariaDB") (s2l "5.5.5-10.6.12-MariaDB")).
  { apply (version_suffix 5 5 5 (s2l "5") (s2l "5") (s2l "5") 45 (s2l "10.6.12-MariaDB"));
    [apply number_1; [discriminate | reflexivity | reflexivity | lia] .. |].
    unfold separator. lia. }
  exists 5, 5, 5, (s2l "-10.6.12-MariaDB"), (s2l "5.5.5-10.6.12-MariaDB").
  split; [exact V|]. split; [now exists (s2l "-10.6.12-"), []|].
  intros other. rewrite (parse_version_text other _ _ _ _ _ V). reflexivity.
Qed.
Print Assumptions C67_server_version_refuted.
