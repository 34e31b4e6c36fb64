(** Property C124: what a connection tells about itself. *)
From Coq Require Import String ZArith List Bool Lia.
From Verif Require Import Base BaseFacts Types Utf8 ParseBuf BufMut Spec_Wire Conversion Packets Spec_Packets Scramble Crypt Spec_Crypt Handshake
  Spec_Handshake Handshake_proofs Framing Auth Spec_Auth Auth_proofs Conn Spec_Conn Conn_proofs Spec_Connect Greeting_proofs Connect_proofs Spec_Accept Accept_proofs
  Fault_proofs ConnData Spec_Data Data_proofs Properties_Handshake Properties_Auth Properties_Accept.
Import ListNotations.
Open Scope Z_scope.
Open Scope io_scope.

(** After authentication, whatever the server has sent: the id, the version, whether it is MariaDB (C67),
    the common capabilities and the limit are those of the greeting and of the options; the plugin is
    the one of the greeting, or the one the server has switched to. *)
Theorem C124_told : forall pr debug other secure o S (t : transport S) s d s',
  hash_fun 20 (p_sha1 pr) -> hash_fun 32 (p_sha256 pr) -> reads_octets t ->
  authenticate t pr debug other secure o s = (Ok d, s') ->
  exists g h ev id caps status len version part1 part2 plugin p,
    plays t (Received g :: Sent h :: ev) s s' /\
    loose_greeting debug id caps status len version part1 part2 plugin g /\
    p = match plugin with Some q => q | None => PNative end /\
    accepted (p_sha1 pr) (p_sha256 pr) (fun n e m c => p_encrypt pr (mkKey n e) m = Ok c) secure (allowed_by o)
      (utf8_encode (o_password o)) (known_by o) (match o_auth_plugin o with Some f => f | None => p end) (challenge part1 part2) true ev /\
    data_id d = id /\
    (forall i, Z.testbit (data_capabilities d) i = true <-> Z.testbit caps i = true /\ common_bit (is_some (o_db_name o)) i) /\
    (forall a b c suffix, version_text a b c suffix version ->
       data_version d = (a, b, c) /\ (data_is_mariadb d = true <-> exists x r, suffix = x :: s2l "MariaDB" ++ r)) /\
    data_max_allowed_packet d = match o_max_allowed_packet o with Some n => n | None => 4194304 end /\
    authenticated_by p ev (data_auth_plugin d).
Proof.
  intros pr debug other secure o S t s d s' H1 H2 Ht H. unfold authenticate in H. rewrite iob in H.
  destruct (t_read t s) as [[g|e|] s1] eqn:Eg; try discriminate. rewrite iob in H. unfold iores at 1 in H.
  destruct (handle_handshake debug other o g) as [d0|e|] eqn:Eh; try discriminate. cbn [of_protocol rmap_err] in H.
  destruct (greeting_parts debug other o g d0 (Ht _ _ _ Eg) Eh) as (id & caps & status & len & version & part1 & part2 & plugin & G & V).
  destruct (loose_data debug other o _ _ _ _ _ _ _ _ _ G V) as (m & v & _ & E).
  assert (Vt : forall a b c suffix, version_text a b c suffix version -> v = (a, b, c) /\ (m = true <-> exists x r, suffix = x :: s2l "MariaDB" ++ r)).
  { intros a b c suffix T. destruct (C67_server_version_partial other _ _ _ _ _ T) as (m' & P & I).
    unfold handle_handshake in E. destruct (loose_read _ _ _ _ _ _ _ _ _ _ G) as (proto & coll & R). rewrite R in E.
    cbn [hs_server_version] in E. rewrite P in E. cbn [rbind] in E. injection E as E1 E2. subst. split; [reflexivity | exact I]. }
  rewrite E in Eh. injection Eh as <-.
  match type of E with _ = Ok ?y => set (d0 := y) in * end.
  rewrite iob in H. unfold iores at 1 in H. destruct (make_handshake_response pr o d0) as [h|e|]; try discriminate.
  rewrite iob in H. destruct (t_write t h s1) as [[[]|e|] s2] eqn:Ew; try discriminate.
  destruct (continue_auth 2 t pr secure o (s2, d0)) as [[u|e|] [s3 d3]] eqn:Ec; try discriminate. injection H as <- <-.
  destruct (continue_only t pr secure o Ht H1 H2 true d0 s2 u s3 d3 eq_refl eq_refl Ec) as ((D1 & D2 & D3 & D4 & D5) & ev & P & K).
  exists g, h, ev, id, caps, status, len, version, part1, part2, plugin, (match plugin with Some q => q | None => PNative end).
  splits.
  - cbn [plays]. eauto 8.
  - exact G.
  - reflexivity.
  - exact K.
  - exact D1.
  - intros i. unfold data_capabilities. rewrite D4. apply common_caps.
  - intros a b c suffix T. unfold data_version, data_is_mariadb. rewrite D2, D3. now apply Vt.
  - exact D5.
  - apply (plugin_told t pr secure o d0 s2 u s3 d3 eq_refl Ec ev s3 P).
    + intros ->. inversion K.
    + intros p r ->. inversion K.
Qed.
Print Assumptions C124_told.

(** So the plugin told is the one by which the user was authenticated, if none was forced, or the one of the
    greeting was, or the server has switched.  Missing: another one was forced, and the server accepted
    that at once (refuted below). *)
Theorem C124_plugin_partial : forall pr debug other secure o S (t : transport S) s d s',
  hash_fun 20 (p_sha1 pr) -> hash_fun 32 (p_sha256 pr) -> reads_octets t ->
  authenticate t pr debug other secure o s = (Ok d, s') ->
  exists g h ev id caps status len version part1 part2 plugin p,
    plays t (Received g :: Sent h :: ev) s s' /\
    loose_greeting debug id caps status len version part1 part2 plugin g /\
    p = match o_auth_plugin o with Some f => f | None => match plugin with Some q => q | None => PNative end end /\
    (o_auth_plugin o = None \/ p = (match plugin with Some q => q | None => PNative end) \/ has_switch ev ->
     authenticated_by p ev (data_auth_plugin d)).
Proof.
  intros pr debug other secure o S t s d s' H1 H2 Ht H.
  destruct (C124_told pr debug other secure o S t s d s' H1 H2 Ht H)
    as (g & h & ev & id & caps & status & len & version & part1 & part2 & plugin & p & P & G & -> & _ & _ & _ & _ & _ & A).
  exists g, h, ev, id, caps, status, len, version, part1, part2, plugin. eexists. splits; [exact P | exact G | reflexivity |].
  intros [N | [N | N]].
  - rewrite N. exact A.
  - rewrite N. exact A.
  - destruct N as (q & data & pkt & r & -> & L). inversion A as [x r' ev' X | q' data' pkt' ev' L']; subst.
    + exfalso. destruct L as [L | (_ & L)]; [unfold switch_request in L|]; cbn [app] in L; injection L as L _; now apply X.
    + eapply by_switch. exact L'.
Qed.
Print Assumptions C124_plugin_partial.

(** A MySQL 8 server with caching_sha2_password as its default, mysql_native_password forced by the options and
    accepted: the connection says that the user was authenticated by caching_sha2_password. *)
Theorem C124_plugin_refuted : exists o d h ev,
  o_auth_plugin o = Some PNative /\
  authenticate byte_script flat_prims true (fun _ => true) false o (mysql8_greeting :: [[0; 0; 0; 2; 0; 0; 0]], []) = (Ok d, ([], [h])) /\
  plays byte_script (Received mysql8_greeting :: Sent h :: ev) (mysql8_greeting :: [[0; 0; 0; 2; 0; 0; 0]], []) ([], [h]) /\
  (exists hello, server_reads h = Some hello /\ ch_plugin hello = Some (plugin_name PNative)) /\
  authenticated_by PNative ev PNative /\ (forall p, authenticated_by PNative ev p -> p = PNative) /\
  data_auth_plugin d = PSha2.
Proof.
  exists (mkOptions (s2l "root") (s2l "secret") None None false (Some PNative) None).
  eexists _, _, [Received [0; 0; 0; 2; 0; 0; 0]]. splits.
  - reflexivity.
  - vm_compute. reflexivity.
  - cbn [plays]. do 3 (eexists; split; [vm_compute; reflexivity|]). reflexivity.
  - eexists. split; vm_compute; reflexivity.
  - now apply by_first.
  - intros p H. inversion H as [|q data pkt ev L]; subst; [reflexivity|]. destruct L as [L | (_ & L)]; discriminate L.
  - reflexivity.
Qed.
Print Assumptions C124_plugin_refuted.

(** The connection has what authentication told; only the limit is asked for, and only if the options give
    none. *)
Theorem C124_connected : forall pr debug other f32 f64 secure o s c s',
  connect pr debug other f32 f64 secure o s = (Ok c, s') ->
  exists d s1 q, authenticate wire_transport pr debug other secure o (s, 0) = (Ok d, (s1, q)) /\
    data_id (conn_data_of c) = data_id d /\ data_is_mariadb (conn_data_of c) = data_is_mariadb d /\
    data_version (conn_data_of c) = data_version d /\ data_capabilities (conn_data_of c) = data_capabilities d /\
    data_auth_plugin (conn_data_of c) = data_auth_plugin d /\
    (o_max_allowed_packet o <> None -> data_max_allowed_packet (conn_data_of c) = data_max_allowed_packet d).
Proof.
  intros pr debug other f32 f64 secure o s c s' H. unfold connect in H.
  destruct (authenticate wire_transport pr debug other secure o (s, 0)) as [[d|e|] [s1 q]] eqn:Ea; try discriminate.
  exists d, s1, q. split; [reflexivity|].
  destruct (read_settings debug f32 f64 o (mkConn s1 q d false)) as [[u|e|] c1] eqn:Es; try discriminate. injection H as <- _.
  unfold read_settings in Es. destruct (o_max_allowed_packet o) as [n|].
  - injection Es as _ <-. splits; reflexivity.
  - unfold conn_data_of, data_id, data_is_mariadb, data_version, data_capabilities, data_auth_plugin.
    assert (X : c_data c1 = d \/ exists n, c_data c1 = with_max d n).
    { rewrite iob in Es. pose proof (run_use_keeps _ (text_rows debug f32 f64) (UQuery (s2l "select @@max_allowed_packet") 1) (mkConn s1 q d false)) as K.
      cbn [run_use] in K. destruct (query (s2l "select @@max_allowed_packet") (mkConn s1 q d false)) as [[rs|e|] c2] eqn:Eq; try discriminate.
      cbn [use_rows nexts] in K. destruct (rs_next (text_rows debug f32 f64) (c2, rs)) as [[[row|]|e|] [c3 rs']]; try discriminate.
      2:{ injection Es as _ <-. left. destruct K as (_ & K). exact K. }
      assert (K' : c_data c3 = d) by (destruct K as (_ & K); exact K). clear K.
      destruct (find_column _ _) as [i|]; [|injection Es as _ <-; now left].
      destruct (nth_error row i) as [v|]; [|discriminate]. rewrite iob in Es. unfold iores in Es.
      destruct (prim_try_into U64 v) as [n|e|]; try discriminate. cbn [rmap_err] in Es. unfold set_max_allowed_packet in Es. injection Es as _ <-.
      right. exists n. cbn [c_data]. rewrite K'. reflexivity. }
    destruct X as [-> | (n & ->)]; splits; try reflexivity; intros N; exfalso; now apply N.
Qed.
Print Assumptions C124_connected.

(** Nothing done with the connection later changes what it tells. *)
Theorem C124_kept : forall A (decode : list column -> list Z -> res error A) us c,
  conn_data_of (snd (run_uses decode us c)) = conn_data_of c.
Proof. intros A decode us c. apply run_uses_keeps. Qed.
Print Assumptions C124_kept.

(** A server that switches to mysql_native_password, and one that does not switch. *)
Example C124_case : exists d d' h h',
  authenticate byte_script flat_prims true (fun _ => true) false any_options
    ([mysql8_greeting; [254] ++ s2l "mysql_native_password" ++ [0]; [0]], []) = (Ok d, ([], [h; repeat 0 20])) /\
  data_id d = 9 /\ data_version d = (8, 0, 36) /\ data_is_mariadb d = false /\ data_max_allowed_packet d = 4194304 /\
  data_auth_plugin d = PNative /\
  authenticate byte_script flat_prims true (fun _ => true) false any_options ([mysql8_greeting; [1; 3]; [0]], []) = (Ok d', ([], [h'])) /\
  data_auth_plugin d' = PSha2.
Proof. eexists _, _, _, _. splits; vm_compute; reflexivity. Qed.
