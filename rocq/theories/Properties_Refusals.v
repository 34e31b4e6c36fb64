(** Properties C45, C74 and C75: what was shown of single exchanges, for all of them. *)
From Coq Require Import String ZArith List Bool Lia.
From Verif Require Import Base BaseFacts Types Utf8 ParseBuf BufMut Spec_Wire ParseBuf_proofs Conversion Spec_Conv Conversion_proofs
  Packets Spec_Packets Packets_proofs Scramble Crypt Spec_Crypt Crypt_proofs Handshake Spec_Handshake Handshake_proofs
  Framing Framing_proofs Auth Spec_Auth Auth_proofs ValueText Spec_Text ValueText_proofs Rows Rows_proofs
  Spec_Stmt StmtPackets Options Conn Spec_Conn Conn_proofs Spec_Connect Connect_proofs Properties_Rows Properties_Crypt Properties_Handshake
  Properties_Auth Properties_Command Properties_Connect.
Import ListNotations.
Open Scope Z_scope.

(** ** C45 *)

(** Whenever caching_sha2_password is in use and the server says that fast authentication has
    succeeded, connecting succeeds with whatever packet comes next, every error included. *)
Theorem C45_after_marker_refuted :
  forall S (t : transport S) pr debug other secure o g d h q refusal s s',
  handle_handshake debug other o g = Ok d -> make_handshake_response pr o d = Ok h ->
  match o_auth_plugin o with Some p => p | None => d_auth_plugin d end = PSha2 ->
  fast_auth_ok q -> plays t [Received g; Sent h; Received q; Received refusal] s s' ->
  authenticate t pr debug other secure o s = (Ok d, s').
Proof.
  intros S t pr debug other secure o g d h q refusal s s' Hd Hh Hp (r & ->) (s1 & E1 & s2 & E2 & s3 & E3 & s4 & E4 & ->).
  unfold authenticate. rewrite iob, E1, iob. unfold iores at 1. rewrite Hd. cbn [of_protocol rmap_err].
  rewrite iob. unfold iores at 1. rewrite Hh, iob, E2. cbn [continue_auth]. rewrite iob. unfold on_stream at 1. rewrite E3. cbv beta iota.
  unfold current_plugin. rewrite Hp. cbn [first_is second_is andb Z.eqb Pos.eqb]. rewrite iob. unfold on_stream. rewrite E4. reflexivity.
Qed.
Print Assumptions C45_after_marker_refuted.

(** "Access denied" after the marker. *)
Example C45_after_marker_case : exists d h,
  handle_handshake true (fun _ => true) any_options mysql8_greeting = Ok d /\
  make_handshake_response flat_prims any_options d = Ok h /\
  match o_auth_plugin any_options with Some p => p | None => d_auth_plugin d end = PSha2 /\
  authenticate script flat_prims true (fun _ => true) false any_options
    ([mysql8_greeting; [1; 3]; 255 :: [21; 4] ++ s2l "#28000Access denied"], []) = (Ok d, ([], [h])).
Proof. eexists _, _. split; [vm_compute; reflexivity|]. split; [vm_compute; reflexivity|]. split; vm_compute; reflexivity. Qed.

(** ** C74 *)

(** With mysql_clear_password from the start, whatever the password is: the authentication data in
    the first packet are the password without the NUL, never what the plugin is documented to send. *)
Theorem C74_clear_from_start_refuted :
  forall pr o d pkt nonce, hash_fun 20 (p_sha1 pr) -> hash_fun 32 (p_sha256 pr) ->
  make_handshake_response pr o d = Ok pkt -> o_auth_plugin o = Some PClear ->
  0 <= d_capabilities d < 2 ^ 32 -> Z.testbit (d_capabilities d) SECURE_CONNECTION_BIT = true ->
  version_ok (d_version d) -> octets (d_nonce d) ->
  sendable (o_user o) -> str_ok (o_password o) -> (forall x, o_db_name o = Some x -> sendable x) ->
  (length (utf8_encode (o_password o)) <= 255)%nat ->
  exists hello, server_reads pkt = Some hello /\ ch_plugin hello = Some (plugin_name PClear) /\
    ch_auth hello = utf8_encode (o_password o) /\
    ch_auth hello <> token (p_sha1 pr) (p_sha256 pr) (utf8_encode (o_password o)) PClear nonce.
Proof.
  intros pr o d pkt nonce H1 H2 Hm Ho Hc Hs Hv Hn (Hu1 & Hu2) Hp Hd Hl.
  destruct (C36_connect_packet_partial pr o d pkt H1 H2 Hm Hc Hs Hv Hn Hu1 Hu2 Hp) as (hello & p & auth & R & Ep & Pl & _ & _ & _ & G & A);
    [intros x Hx; destruct (Hd x Hx); split; assumption | exact Hl |].
  rewrite Ho in Ep. subst p. unfold gen_data in G. rewrite Ho in G. cbn [auth_plugin_eqb] in G.
  destruct (o_allow_cleartext o); [|discriminate]. injection G as <-. cbn [plugin_data_bytes] in A.
  exists hello. split; [exact R|]. split; [exact Pl|]. split; [exact A|]. rewrite A. unfold token.
  intros F. apply (f_equal (@length Z)) in F. rewrite app_length in F. cbn [length] in F. lia.
Qed.
Print Assumptions C74_clear_from_start_refuted.

Definition clear_options : conn_options := mkOptions (s2l "root") (s2l "secret") None None true (Some PClear) None.

Example C74_clear_from_start_case : exists d h hello,
  handle_handshake true (fun _ => true) clear_options mysql8_greeting = Ok d /\
  make_handshake_response flat_prims clear_options d = Ok h /\
  Z.testbit (d_capabilities d) SECURE_CONNECTION_BIT = true /\
  server_reads h = Some hello /\ ch_auth hello = s2l "secret".
Proof. eexists _, _, _. split; [vm_compute; reflexivity|]. split; [vm_compute; reflexivity|]. split; [vm_compute; reflexivity|].
  split; vm_compute; reflexivity. Qed.

(** ** C75 *)

(** With the default options, every server that asks for mysql_native_password is refused: nothing is
    sent, and connecting fails. *)
Theorem C75_native_users_refuted :
  forall S (t : transport S) pr debug other secure user password s data g h pkt rest,
  switch_request PNative data pkt ->
  snd (snd (authenticate (traced t) pr debug other secure (default_options user password) (s, []))) =
    Received g :: Sent h :: Received pkt :: rest ->
  rest = [] /\
  fst (authenticate t pr debug other secure (default_options user password) s) = Err (ERuntime (RAuthPluginMismatch PSha2 PNative)).
Proof.
  intros S t pr debug other secure user password s data g h pkt rest Hq Ht.
  apply (C43_switch_to_another_plugin S t pr debug other secure _ s PSha2 PNative data g h pkt rest); auto. discriminate.
Qed.
Print Assumptions C75_native_users_refuted.

Example C75_native_users_case : exists h,
  switch_request PNative (repeat 1 20 ++ [0]) ([254] ++ plugin_name PNative ++ [0] ++ repeat 1 20 ++ [0]) /\
  snd (snd (authenticate (traced script) flat_prims true (fun _ => true) false (default_options (s2l "ann") (s2l "secret"))
     (([mysql8_greeting; [254] ++ plugin_name PNative ++ [0] ++ repeat 1 20 ++ [0]], []), []))) =
  [Received mysql8_greeting; Sent h; Received ([254] ++ plugin_name PNative ++ [0] ++ repeat 1 20 ++ [0])].
Proof. eexists. split; [reflexivity|]. vm_compute. reflexivity. Qed.
