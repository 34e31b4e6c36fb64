(** Properties C73-C75: connecting. *)
From Coq Require Import String ZArith List Bool Lia.
From Verif Require Import Base BaseFacts Types Utf8 ParseBuf BufMut Spec_Wire ParseBuf_proofs Conversion Spec_Conv Conversion_proofs
  Packets Spec_Packets Packets_proofs Scramble Crypt Spec_Crypt Crypt_proofs Handshake Spec_Handshake Handshake_proofs
  Framing Framing_proofs Auth Spec_Auth Auth_proofs ValueText Spec_Text ValueText_proofs Rows Rows_proofs
  Spec_Stmt StmtPackets Options Conn Spec_Conn Conn_proofs Spec_Connect Connect_proofs Properties_Rows Properties_Crypt Properties_Handshake
  Properties_Auth Properties_Command.
Import ListNotations.
Open Scope Z_scope.

(** ** C74 *)

(** Text that can be sent as a NUL-terminated string. *)
Definition sendable (s : str) : Prop := str_ok s /\ ~ In 0 s.

(** Whatever documented exchange a server uses to accept the user - at once, by fast or full
    authentication, after switching to another allowed plugin - the client goes through with it, on
    any transport: the server reads the user, the right token and the database in the first packet,
    the later packets are the ones required, and authentication succeeds. *)
Theorem C74_documented_exchanges_succeed_partial :
  forall pr debug other secure o, hash_fun 20 (p_sha1 pr) -> hash_fun 32 (p_sha256 pr) ->
  sendable (o_user o) -> (forall x, o_db_name o = Some x -> sendable x) ->
  forall id caps status len version part1 part2 plugin p0 p g a b c suffix ev,
  greeting id caps status len version part1 part2 plugin g -> len <= 127 -> Z.testbit caps SECURE_CONNECTION_BIT = true ->
  version_text a b c suffix version -> greeting_plugin plugin p0 ->
  p = match o_auth_plugin o with Some f => f | None => p0 end -> allowed_by o p -> p <> PClear ->
  login (p_sha1 pr) (p_sha256 pr) (fun n e m c => p_encrypt pr (mkKey n e) m = Ok c) secure (allowed_by o)
    (utf8_encode (o_password o)) (known_by o) p (challenge part1 part2) true ev ->
  exists h hello d,
    server_reads h = Some hello /\ ch_user hello = utf8_encode (o_user o) /\
    ch_auth hello = token (p_sha1 pr) (p_sha256 pr) (utf8_encode (o_password o)) p (challenge part1 part2) /\
    ch_plugin hello = Some (plugin_name p) /\ ch_db hello = option_map utf8_encode (o_db_name o) /\
    ch_charset hello = utf8_collation (a, b, c) /\
    d_id d = id /\ d_version d = (a, b, c) /\
    (forall i, Z.testbit (d_capabilities d) i = true <-> Z.testbit caps i = true /\ common_bit (is_some (o_db_name o)) i) /\
    (forall n, o_max_allowed_packet o = Some n -> d_max_allowed_packet d = n) /\
    forall S (t : transport S) s s', plays t (Received g :: Sent h :: ev) s s' ->
      authenticate t pr debug other secure o s = (Ok d, s').
Proof.
  intros pr debug other secure o H1 H2 (Hu1 & Hu2) Hdb id caps status len version part1 part2 plugin p0 p g a b c suffix ev
    Hg Hl Hs Hv Hp0 Hp Ha Hc HL.
  destruct (authenticate_login pr debug other secure o H1 H2 _ _ _ _ _ _ _ _ _ _ _ _ _ _ _ _ Hg Hl Hv Hp0 Hp Ha HL)
    as (h & d & x & G & Eh & D1 & D2 & D3 & D4 & R).
  destruct (token_out pr o p (challenge part1 part2) H1 H2 Ha) as (x' & G' & _ & T). rewrite G in G'. injection G' as <-.
  specialize (T Hc).
  assert (Hcaps : 0 <= caps < 2 ^ 32) by (destruct Hg; assumption).
  assert (Hrange : 0 <= Z.land caps (get_capabilities o) < 2 ^ 32).
  { split; [apply Z.land_nonneg; lia|]. apply bits_bound; [lia | apply Z.land_nonneg; lia |].
    intros i Hi. rewrite Z.land_spec, (high_bits caps 32 i) by lia. reflexivity. }
  exists h. eexists. exists d. split.
  { rewrite Eh. apply response_read.
    - exact Hrange.
    - apply Z.mod_pos_bound. lia.
    - eapply version_text_ok; eassumption.
    - now apply utf8_nonul.
    - intros y Hy. destruct (o_db_name o) as [z|]; [|discriminate]. injection Hy as <-.
      destruct (Hdb z eq_refl). now apply utf8_nonul.
    - unfold carriable, bytes in *.
      assert (L : (length (match x with Some y => plugin_data_bytes y | None => [] end) <= 255)%nat).
      { unfold bytes in *. rewrite T. unfold token. destruct p; [contradiction| |].
        - unfold native_token. destruct (utf8_encode (o_password o)); [cbn; lia|]. unfold xor_all.
          rewrite map_length, combine_length, !(proj1 (H1 _)). cbn. lia.
        - unfold sha2_token. destruct (utf8_encode (o_password o)); [cbn; lia|]. unfold xor_all.
          rewrite map_length, combine_length, !(proj1 (H2 _)). cbn. lia. }
      destruct (Z.testbit _ LENENC_CLIENT_DATA_BIT); [lia|].
      replace (Z.testbit (Z.land caps (get_capabilities o)) SECURE_CONNECTION_BIT) with true; [exact L|].
      symmetry. apply common_caps. split; [exact Hs|]. left. cbn. tauto. }
  cbn [ch_user ch_auth ch_plugin ch_db ch_charset option_map].
  split; [reflexivity|]. split; [exact T|]. do 3 (split; [reflexivity|]).
  split; [exact D1|]. split; [exact D2|]. split; [intros i; rewrite D3; apply common_caps|].
  split; [intros n Hn; rewrite D4, Hn; reflexivity|]. exact R.
Qed.
Print Assumptions C74_documented_exchanges_succeed_partial.

(** The server behind a script of packets: what [plays] means there. *)
Lemma script_plays : forall ev i o, plays script ev (received ev ++ i, o) (i, o ++ sent ev).
Proof.
  induction ev as [|[p|p] ev IH]; intros i o; cbn [plays received sent flat_map app].
  - now rewrite app_nil_r.
  - eexists. split; [reflexivity|]. apply IH.
  - eexists. split; [reflexivity|]. specialize (IH i (o ++ [p])). rewrite <- app_assoc in IH. exact IH.
Qed.

(** Switch from caching_sha2_password to mysql_native_password; full authentication with a known
    key. *)
Example C74_case :
  let nonce := [1; 2; 3; 4; 5; 6; 7; 8; 9; 10; 11; 12; 13; 14; 15; 16; 17; 18; 19; 20] in
  let enc := fun n e m c => p_encrypt flat_prims (mkKey n e) m = Ok c in
  let pass := s2l "secret" in
  greeting_plugin (Some (plugin_name PSha2)) PSha2 /\ allowed_by any_options PSha2 /\
  version_text 8 0 36 [] (s2l "8.0.36") /\
  login (p_sha1 flat_prims) (p_sha256 flat_prims) enc false (allowed_by any_options) pass None PSha2 nonce true
    [Received ([254] ++ s2l "mysql_native_password" ++ [0] ++ nonce ++ [0]); Sent (repeat 0 20); Received [0; 0; 0; 2; 0; 0; 0]] /\
  login (p_sha1 flat_prims) (p_sha256 flat_prims) enc false (allowed_by known_key_options) pass (known_by known_key_options)
    PSha2 nonce true [Received [1; 4]; Sent [7]; Received [0; 0; 0; 2; 0; 0; 0]].
Proof.
  cbv zeta. splits.
  - reflexivity.
  - split; [now left | discriminate].
  - apply (version_plain 8 0 36 (s2l "8") (s2l "0") (s2l "36"));
      (apply number_1; [discriminate | reflexivity | reflexivity | lia]).
  - apply (login_switch (p_sha1 flat_prims) (p_sha256 flat_prims) _ false (allowed_by any_options) (s2l "secret") None PSha2 _ PNative
      ([1; 2; 3; 4; 5; 6; 7; 8; 9; 10; 11; 12; 13; 14; 15; 16; 17; 18; 19; 20] ++ [0])
      [1; 2; 3; 4; 5; 6; 7; 8; 9; 10; 11; 12; 13; 14; 15; 16; 17; 18; 19; 20]).
    + split; [now left | discriminate].
    + reflexivity.
    + now left.
    + apply login_ok. eexists. reflexivity.
  - apply (login_full_known _ _ _ _ _ _ _ _ _ [] _ 3233 17).
    + reflexivity.
    + eexists. reflexivity.
    + discriminate.
    + reflexivity.
    + reflexivity.
Qed.

(** With mysql_clear_password from the start, the password is sent without its final NUL, which the
    data of that plugin has. *)
Theorem C74_documented_exchanges_succeed_refuted :
  exists o g h hello, o_auth_plugin o = Some PClear /\ allowed_by o PClear /\
  (exists i d, authenticate script flat_prims true (fun _ => true) true o (g :: i, []) = (Ok d, ([], [h]))) /\
  server_reads h = Some hello /\ ch_plugin hello = Some (plugin_name PClear) /\
  token (p_sha1 flat_prims) (p_sha256 flat_prims) (utf8_encode (o_password o)) PClear [] = s2l "secret" ++ [0] /\
  ch_auth hello = s2l "secret".
Proof.
  exists (mkOptions (s2l "root") (s2l "secret") None None true (Some PClear) None), mysql8_greeting.
  eexists _, _. split; [reflexivity|]. split; [split; [now right | reflexivity]|].
  split; [exists [[0; 0; 0; 2; 0; 0; 0]]; eexists; vm_compute; reflexivity|].
  split; [vm_compute; reflexivity|]. splits; vm_compute; reflexivity.
Qed.
Print Assumptions C74_documented_exchanges_succeed_refuted.

(** ** C73 *)

(** A server accepts the user by a documented exchange (C74) and answers the question for its
    packet limit, unless the options give one; then connecting succeeds: the connection has the
    server's id, version, capabilities and limit, nothing of what the server has sent is left over
    except [rest], and exactly the packets of the exchange and the question have been sent.  By
    C46, every later command then sees its own answer.  Missing: plugin data of more than 127 bytes
    (C34), clear text passwords (C74) and servers without DEPRECATE_EOF (refuted below). *)
Theorem C73_connect_partial :
  forall pr debug other f32 f64 secure o, hash_fun 20 (p_sha1 pr) -> hash_fun 32 (p_sha256 pr) ->
  sendable (o_user o) -> (forall x, o_db_name o = Some x -> sendable x) ->
  forall id caps status len version part1 part2 plugin p0 p g a b c suffix ev,
  greeting id caps status len version part1 part2 plugin g -> len <= 127 ->
  Z.testbit caps SECURE_CONNECTION_BIT = true -> Z.testbit caps DEPRECATE_EOF_BIT = true ->
  version_text a b c suffix version -> greeting_plugin plugin p0 ->
  p = match o_auth_plugin o with Some f => f | None => p0 end -> allowed_by o p -> p <> PClear ->
  login (p_sha1 pr) (p_sha256 pr) (fun n e m c => p_encrypt pr (mkKey n e) m = Ok c) secure (allowed_by o)
    (utf8_encode (o_password o)) (known_by o) p (challenge part1 part2) true ev ->
  exists h hello common,
    server_reads h = Some hello /\ ch_user hello = utf8_encode (o_user o) /\
    ch_auth hello = token (p_sha1 pr) (p_sha256 pr) (utf8_encode (o_password o)) p (challenge part1 part2) /\
    ch_plugin hello = Some (plugin_name p) /\ ch_db hello = option_map utf8_encode (o_db_name o) /\
    (forall i, Z.testbit common i = true <-> Z.testbit caps i = true /\ common_bit (is_some (o_db_name o)) i) /\
    forall wi wo q s rest, conversation 0 (Received g :: Sent h :: ev) wi wo q -> s_budget s = None ->
    (forall n, o_max_allowed_packet o = Some n -> s_in s = wi ++ rest ->
       exists conn, connect pr debug other f32 f64 secure o s = (Ok conn, c_stream conn) /\ between conn rest /\
         d_id (c_data conn) = id /\ d_version (c_data conn) = (a, b, c) /\ c_caps conn = common /\
         d_max_allowed_packet (c_data conn) = n /\ s_out (c_stream conn) = s_out s ++ wo) /\
    (forall n w q0 pkts wi2 q1, o_max_allowed_packet o = None ->
       frames 0 (3 :: s2l "select @@max_allowed_packet") w q0 -> settings_answer common n pkts -> framed q0 pkts wi2 q1 ->
       s_in s = wi ++ wi2 ++ rest ->
       exists conn, connect pr debug other f32 f64 secure o s = (Ok conn, c_stream conn) /\ between conn rest /\
         d_id (c_data conn) = id /\ d_version (c_data conn) = (a, b, c) /\ c_caps conn = common /\
         d_max_allowed_packet (c_data conn) = n /\ s_out (c_stream conn) = s_out s ++ wo ++ w).
Proof.
  intros pr debug other f32 f64 secure o H1 H2 Hu Hdb id caps status len version part1 part2 plugin p0 p g a b c suffix ev
    Hg Hl Hs Hd Hv Hp0 Hp Ha Hc HL.
  destruct (C74_documented_exchanges_succeed_partial pr debug other secure o H1 H2 Hu Hdb _ _ _ _ _ _ _ _ _ _ _ _ _ _ _ _
    Hg Hl Hs Hv Hp0 Hp Ha Hc HL) as (h & hello & d & S1 & S2 & S3 & S4 & S5 & _ & D1 & D2 & D3 & D4 & R).
  exists h, hello, (d_capabilities d). do 6 (split; [assumption|]).
  assert (Hdep : Z.testbit (d_capabilities d) DEPRECATE_EOF_BIT = true).
  { apply D3. split; [exact Hd|]. left. cbn. tauto. }
  intros wi wo q s rest HC Hb. split.
  - intros n Hn Hi.
    destruct (conversation_plays _ _ _ _ _ HC ltac:(unfold byte_ok; lia) s rest Hi Hb) as (Hq & P).
    unfold connect. rewrite (R _ _ _ _ P). unfold read_settings. rewrite Hn. cbn [ioret].
    eexists. split; [reflexivity|]. split; [|splits; auto; reflexivity].
    split; [exact Hq|]. split; [reflexivity|]. left. split; reflexivity.
  - intros n w q0 pkts wi2 q1 Hn Fw Hset Hf Hi.
    destruct (conversation_plays _ _ _ _ _ HC ltac:(unfold byte_ok; lia) s (wi2 ++ rest) Hi Hb) as (Hq & P).
    unfold connect. rewrite (R _ _ _ _ P).
    match goal with |- context [read_settings _ _ _ _ ?x] => set (c0 := x) end.
    destruct (settings_read debug f32 f64 o c0 (d_capabilities d) n w q0 pkts wi2 q1 rest) as (c' & E & B & Dc & So); auto.
    { split; [exact Hq|]. split; [reflexivity|]. left. split; reflexivity. }
    rewrite E. exists c'. split; [reflexivity|]. split; [exact B|]. unfold c_caps. rewrite Dc.
    splits; auto. rewrite So. cbn. now rewrite app_assoc.
Qed.
Print Assumptions C73_connect_partial.

(** Full authentication with a known key, then the packet limit, on the wire. *)
Definition limit_column : bytes :=
  [3; 100; 101; 102; 0; 0; 0; 20] ++ s2l "@@max_allowed_packet" ++ [0; 12; 63; 0; 21; 0; 0; 0; 8; 160; 0; 0; 0; 0].
Definition c73_answer : list bytes := [[1]; limit_column; 8 :: s2l "67108864"; [254; 0; 0; 2; 0; 0; 0]].
Definition c73_input : bytes :=
  frame 0 mysql8_greeting ++ frame 2 [1; 4] ++ frame 4 ok_packet_bytes ++
  frame 1 [1] ++ frame 2 limit_column ++ frame 3 (8 :: s2l "67108864") ++ frame 4 [254; 0; 0; 2; 0; 0; 0] ++
  frame 1 ok_packet_bytes.
Example C73_case :
  settings_answer some_caps 67108864 c73_answer /\
  match connect flat_prims true (fun _ => true) (fun _ => None) (fun _ => None) false known_key_options
          (mkStream c73_input IoUnexpectedEof [] None) with
  | (Ok conn, s) =>
    d_id (c_data conn) = 9 /\ c_caps conn = some_caps /\ d_max_allowed_packet (c_data conn) = 67108864 /\
    (exists h, s_out s = frame 1 h ++ frame 3 [7] ++ frame 0 (3 :: s2l "select @@max_allowed_packet")) /\
    fst (run_use (fun _ p => Ok p) (UExecute (s2l "e")) conn) = SDone (A := list Z) 0 0 2 0 None None
  | _ => False
  end.
Proof.
  split.
  - assert (N : short_name_text [] [0]).
    { split; [|cbn; lia]. exists []. split; [constructor | reflexivity]. }
    exists (mkColumn [] (s2l "@@max_allowed_packet") [] [] CLongLong 160), (8 :: s2l "67108864"). splits.
    + reflexivity.
    + reflexivity.
    + reflexivity.
    + apply (tr_val _ _ CLongLong true [] (VULong 67108864) [] (s2l "67108864") [8] []).
      * apply te_longlong_u; [unfold u64; lia|]. unfold nat_text. splits; [discriminate | | reflexivity].
        change (s2l "67108864") with [54; 55; 49; 48; 56; 56; 54; 52]. repeat constructor; unfold digit; lia.
      * constructor. cbn. lia.
      * constructor.
    + apply (ap_rows some_caps [mkColumn [] (s2l "@@max_allowed_packet") [] [] CLongLong 160] [limit_column] [8 :: s2l "67108864"] 2 0
        [254; 0; 0; 2; 0; 0; 0]).
      * discriminate.
      * constructor; [|constructor].
        exists [], [0], [0], [0], (20 :: s2l "@@max_allowed_packet"), [0], 63, 21, 8, 0, [0; 0]. splits; try exact N; try lia; try reflexivity.
        -- split; [|cbn; lia]. exists (s2l "@@max_allowed_packet"). split; [|reflexivity]. apply utf8_text_ascii. repeat constructor; lia.
        -- cbn. tauto.
        -- cbn. lia.
      * repeat constructor. eexists _, _. split; [reflexivity|]. split; intros; lia.
      * split; [split; [lia | intros H; discriminate] | split; [lia | reflexivity]].
      * reflexivity.
      * reflexivity.
  - match goal with |- match ?x with _ => _ end => destruct x as [r s] eqn:E end.
    vm_compute in E. injection E as <- <-.
    split; [reflexivity|]. split; [reflexivity|]. split; [reflexivity|]. split; [|vm_compute; reflexivity].
    match goal with |- exists h, ?o = _ => exists (firstn (length o - 41) (skipn 4 o)) end. vm_compute. reflexivity.
Qed.

(** A server without DEPRECATE_EOF - MySQL before 5.7.5, MariaDB before 10.2 - ends the column
    definitions and the rows with EOF packets.  The client accepts its greeting, logs in, asks for the
    packet limit and is answered as the protocol says; it takes the first EOF packet for the end of
    the rows and connecting fails.  The login is that of [C73_case]. *)
Definition old_server_greeting : list Z :=
  [10] ++ s2l "5.6.51" ++ [0] ++ [9; 0; 0; 0] ++ [1; 2; 3; 4; 5; 6; 7; 8] ++ [0] ++ [255; 255] ++ [255] ++ [2; 0] ++
  [255; 222] ++ [21] ++ repeat 0 10 ++ [9; 10; 11; 12; 13; 14; 15; 16; 17; 18; 19; 20; 0] ++
  s2l "caching_sha2_password" ++ [0].
Definition old_server_input : bytes :=
  frame 0 old_server_greeting ++ frame 2 [1; 4] ++ frame 4 ok_packet_bytes ++
  frame 1 [1] ++ frame 2 limit_column ++ frame 3 [254; 0; 0; 2; 0] ++ frame 4 (8 :: s2l "67108864") ++ frame 5 [254; 0; 0; 2; 0].
Theorem C73_connect_refuted :
  (exists caps, Z.testbit caps DEPRECATE_EOF_BIT = false /\ Z.testbit caps SECURE_CONNECTION_BIT = true /\
    greeting 9 caps 2 21 (s2l "5.6.51") [1; 2; 3; 4; 5; 6; 7; 8]
      [9; 10; 11; 12; 13; 14; 15; 16; 17; 18; 19; 20; 0] (Some (plugin_name PSha2)) old_server_greeting) /\
  old_eof 2 0 [254; 0; 0; 2; 0] /\
  (exists d s q, authenticate wire_transport flat_prims true (fun _ => true) false known_key_options
     (mkStream old_server_input IoUnexpectedEof [] None, 0) = (Ok d, (s, q)) /\
     d_version d = (5, 6, 51) /\ s_in s = frame 1 [1] ++ frame 2 limit_column ++ frame 3 [254; 0; 0; 2; 0] ++
       frame 4 (8 :: s2l "67108864") ++ frame 5 [254; 0; 0; 2; 0]) /\
  exists e s, connect flat_prims true (fun _ => true) (fun _ => None) (fun _ => None) false known_key_options
     (mkStream old_server_input IoUnexpectedEof [] None) = (Err e, s).
Proof.
  split; [|split; [|split]].
  - exists 3741319167. split; [reflexivity|]. split; [reflexivity|].
    apply greeting_intro with (wv := s2l "5.6.51") (filler := 0) (collation := 255) (reserved := repeat 0 10)
      (w2 := [9; 10; 11; 12; 13; 14; 15; 16; 17; 18; 19; 20; 0]) (wp := plugin_name PSha2 ++ [0]); try lia.
    + split; [lia|]. vm_compute. discriminate.
    + apply decode_text; [apply bytes_okb; reflexivity | reflexivity].
    + cbv. intuition discriminate.
    + reflexivity.
    + reflexivity.
    + cbn. split; reflexivity.
    + exists (plugin_name PSha2). split; [reflexivity|]. split; [apply plugin_name_nonul | now left].
    + vm_compute. reflexivity.
  - split; [lia|]. split; [lia|reflexivity].
  - eexists _, _, _. split; [vm_compute; reflexivity|]. split; vm_compute; reflexivity.
  - eexists _, _. vm_compute. reflexivity.
Qed.
Print Assumptions C73_connect_refuted.

(** ** C75 *)

(** With the default options, users of caching_sha2_password get in, whatever plugin the greeting
    names.  Missing: other plugins (refuted below). *)
Theorem C75_default_options_partial :
  forall pr debug other f32 f64 secure user password, hash_fun 20 (p_sha1 pr) -> hash_fun 32 (p_sha256 pr) -> sendable user ->
  forall id caps status len version part1 part2 plugin p0 g a b c suffix ev,
  greeting id caps status len version part1 part2 plugin g -> len <= 127 ->
  Z.testbit caps SECURE_CONNECTION_BIT = true -> Z.testbit caps DEPRECATE_EOF_BIT = true ->
  version_text a b c suffix version -> greeting_plugin plugin p0 ->
  login (p_sha1 pr) (p_sha256 pr) (fun n e m c => p_encrypt pr (mkKey n e) m = Ok c) secure (eq PSha2)
    (utf8_encode password) None PSha2 (challenge part1 part2) true ev ->
  exists h hello common,
    server_reads h = Some hello /\ ch_user hello = utf8_encode user /\
    ch_auth hello = sha2_token (p_sha256 pr) (challenge part1 part2) (utf8_encode password) /\
    ch_plugin hello = Some (plugin_name PSha2) /\
    forall wi wo q s rest n w q0 pkts wi2 q1, conversation 0 (Received g :: Sent h :: ev) wi wo q -> s_budget s = None ->
       frames 0 (3 :: s2l "select @@max_allowed_packet") w q0 -> settings_answer common n pkts -> framed q0 pkts wi2 q1 ->
       s_in s = wi ++ wi2 ++ rest ->
       exists conn, connect pr debug other f32 f64 secure (default_options user password) s = (Ok conn, c_stream conn) /\
         between conn rest.
Proof.
  intros pr debug other f32 f64 secure user password H1 H2 Hu id caps status len version part1 part2 plugin p0 g a b c suffix ev
    Hg Hl Hs Hd Hv Hp0 HL.
  assert (Al : forall p, eq PSha2 p -> allowed_by (default_options user password) p).
  { intros p <-. split; [now right | discriminate]. }
  destruct (C73_connect_partial pr debug other f32 f64 secure (default_options user password) H1 H2 Hu ltac:(discriminate)
    id caps status len version part1 part2 plugin p0 PSha2 g a b c suffix ev Hg Hl Hs Hd Hv Hp0 eq_refl (Al _ eq_refl) ltac:(discriminate))
    as (h & hello & common & S1 & S2 & S3 & S4 & _ & _ & R).
  { change (known_by (default_options user password)) with (@None (Z * Z)).
    clear - HL Al. revert HL. generalize true (challenge part1 part2). generalize PSha2 at 2 3.
    intros p bo nonce HL. induction HL; try (econstructor; eauto; fail). }
  exists h, hello, common. do 4 (split; [assumption|]).
  intros wi wo q s rest n w q0 pkts wi2 q1 HC Hb Fw Hset Hf Hi.
  destruct (R wi wo q s rest HC Hb) as (_ & R2).
  destruct (R2 n w q0 pkts wi2 q1 eq_refl Fw Hset Hf Hi) as (conn & E & B & _). eauto.
Qed.
Print Assumptions C75_default_options_partial.

Example C75_case :
  login (p_sha1 flat_prims) (p_sha256 flat_prims) (fun n e m c => p_encrypt flat_prims (mkKey n e) m = Ok c) true (eq PSha2)
    (s2l "secret") None PSha2 (challenge [1; 2; 3; 4; 5; 6; 7; 8] [9; 10; 11; 12; 13; 14; 15; 16; 17; 18; 19; 20; 0]) true
    [Received [1; 4]; Sent (s2l "secret" ++ [0]); Received ok_packet_bytes] /\
  exists h d, authenticate script flat_prims true (fun _ => true) true (default_options (s2l "root") (s2l "secret"))
    ([native_greeting; [1; 4]; ok_packet_bytes], []) = (Ok d, ([], [h; s2l "secret" ++ [0]])).
Proof.
  split.
  - apply login_full_secure; [reflexivity | eexists; reflexivity].
  - eexists _, _. vm_compute. reflexivity.
Qed.

(** With the default options the password is never sent as it is over a transport that is not secure. *)
Theorem C75_password_kept : forall S (t : transport S) pr debug other user password s,
  hash_fun 20 (p_sha1 pr) -> hash_fun 32 (p_sha256 pr) ->
  let pass := utf8_encode password in
  forall h rest, sent (snd (snd (authenticate (traced t) pr debug other false (default_options user password) (s, [])))) = h :: rest ->
  Forall (fun p =>
    (exists nonce, p = sha2_token (p_sha256 pr) nonce pass) \/ (exists nonce, p = native_token (p_sha1 pr) nonce pass) \/
    p = [2] \/ (exists key nonce, nonce <> [] /\ p_encrypt pr key (xor_nonce nonce (pass ++ [0])) = Ok p)) rest.
Proof.
  intros S t pr debug other user password s H1 H2 pass h rest E.
  eapply Forall_impl; [|exact (C42_packets_written S t pr debug other (default_options user password) s eq_refl H1 H2 h rest E)].
  cbv beta. intros p [H|[H|[H|H]]]; auto.
Qed.
Print Assumptions C75_password_kept.

(** A user of mysql_native_password - a documented exchange, without clear text - does not get in:
    the server asks for that plugin, the client refuses because another one is set by default. *)
Theorem C75_default_options_refuted :
  exists ev nonce i,
  login (p_sha1 flat_prims) (p_sha256 flat_prims) (fun n e m c => p_encrypt flat_prims (mkKey n e) m = Ok c) false
    (fun p => p <> PClear) (s2l "secret") None PSha2 nonce true ev /\
  i = mysql8_greeting :: received ev /\ nonce = challenge [1; 2; 3; 4; 5; 6; 7; 8] [9; 10; 11; 12; 13; 14; 15; 16; 17; 18; 19; 20; 0] /\
  fst (authenticate script flat_prims true (fun _ => true) false (default_options (s2l "root") (s2l "secret")) (i, [])) =
    Err (ERuntime (RAuthPluginMismatch PSha2 PNative)).
Proof.
  eexists [Received ([254] ++ plugin_name PNative ++ [0] ++ repeat 1 20 ++ [0]); Sent _; Received ok_packet_bytes], _, _.
  split; [|split; [reflexivity|split; [reflexivity|vm_compute; reflexivity]]].
  apply (login_switch _ _ _ _ _ _ _ PSha2 _ PNative (repeat 1 20 ++ [0]) (repeat 1 20)).
  - discriminate.
  - reflexivity.
  - now left.
  - apply login_ok. eexists. reflexivity.
Qed.
Print Assumptions C75_default_options_refuted.
