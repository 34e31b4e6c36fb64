(** Property C101: builds without the optional features. *)
From Coq Require Import String ZArith List Bool Lia.
From Verif Require Import Base BaseFacts Types Utf8 ParseBuf BufMut Spec_Wire ParseBuf_proofs Conversion Spec_Conv Conversion_proofs
  Packets Spec_Packets Packets_proofs Scramble Crypt Spec_Crypt Crypt_proofs Handshake Spec_Handshake Handshake_proofs
  Framing Framing_proofs Auth Spec_Auth Auth_proofs Options Spec_Conn Spec_Connect Connect_proofs Properties_Crypt Properties_Handshake
  Properties_Auth Properties_Command Properties_Connect Features Spec_Features Features_proofs.
Import ListNotations.
Open Scope Z_scope.

(** With the plugin and a function to sleep with, the build connects as the default one does. *)
Theorem C101_default_build : forall f sleep S (t : transport S) pr debug other secure o s,
  f_sha2 f = true -> f_time f || sleep = true ->
  authenticate_with f sleep t pr debug other secure o s = authenticate t pr debug other secure o s /\
  forall user password, default_options_with f user password = default_options user password.
Proof.
  intros f sleep S t pr debug other secure o s H1 H2. split; [|intros; unfold default_options_with; now rewrite H1].
  unfold authenticate_with, authenticate. rewrite iob. unfold sleep_with. rewrite H2. rewrite !iob.
  destruct (t_read t s) as [[g|e|] s1]; try reflexivity.
  rewrite !iob. rewrite handshake_data_all by exact H1. unfold iores at 1 4.
  destruct (of_protocol (handle_handshake debug other o g)) as [d|e|]; try reflexivity.
  rewrite !iob. unfold iores. destruct (make_handshake_response pr o d) as [h|e|]; try reflexivity.
  rewrite !iob. destruct (t_write t h s1) as [[u|e|] s2]; try reflexivity. now rewrite auth_all.
Qed.
Print Assumptions C101_default_build.

(** Without the plugin: as long as no packet from the server names it, everything is as in the default
    build, packet by packet.  Missing: servers that do name it (below). *)
Theorem C101_without_plugin_partial : forall f sleep S (t : transport S) pr debug other secure o s,
  f_sha2 f = false -> f_time f || sleep = true -> without_sha2 (o_auth_plugin o) -> o_server_key o = None ->
  Forall (fun p => octets p /\ ~ names_sha2 p) (received (snd (snd (authenticate (traced t) pr debug other secure o (s, []))))) ->
  authenticate_with f sleep (traced t) pr debug other secure o (s, []) = authenticate (traced t) pr debug other secure o (s, []).
Proof.
  intros f sleep S t pr debug other secure o s H1 H2 Ho Hk HF.
  assert (HR : forall p, In (Received p) (snd (snd (authenticate (traced t) pr debug other secure o (s, [])))) -> octets p /\ ~ names_sha2 p).
  { intros p Hp. rewrite Forall_forall in HF. apply HF. unfold received. apply in_flat_map. exists (Received p). split; [exact Hp | now left]. }
  clear HF. unfold authenticate_with, authenticate in *. rewrite iob. unfold sleep_with. rewrite H2. rewrite !iob in *.
  rewrite traced_read in *. destruct (t_read t s) as [[g|e|] s1]; try reflexivity.
  rewrite !iob in *. rewrite handshake_data_less by assumption. unfold iores in *.
  assert (E : match read_handshake debug g with
     | Ok h => match hs_auth_plugin h with Some PSha2 => Panic | _ => handle_handshake debug other o g end
     | _ => handle_handshake debug other o g end = handle_handshake debug other o g /\
     (forall d, handle_handshake debug other o g = Ok d -> d_auth_plugin d <> PSha2)).
  { assert (Hg : octets g /\ ~ names_sha2 g).
    { apply HR. destruct (of_protocol (handle_handshake debug other o g)) as [d|e|] eqn:Eh; try (now left).
      rewrite !iob in *. destruct (make_handshake_response pr o d) as [h|e|]; try (now left).
      rewrite !iob. rewrite traced_write. destruct (t_write t h s1) as [[u|e|] s2]; try (now left).
      match goal with |- context [continue_auth 2 (traced t) pr secure o ?x] =>
        pose proof (in_grows S t 2 pr secure o s2 (([] ++ [Received g]) ++ [Sent h]) d (Received g)) as G;
        destruct (continue_auth 2 (traced t) pr secure o x) as [[u'|e|] [[s3 tr3] d3]] end;
        apply G; try (now left); destruct (d_auth_switched d); lia. }
    destruct Hg as (Hb & Hg). unfold handle_handshake. destruct (read_handshake debug g) as [h|e|] eqn:Eh; [|split; [reflexivity | discriminate]..].
    assert (N : hs_auth_plugin h <> Some PSha2) by (intros F; apply Hg; eapply greeting_names; eassumption).
    split; [destruct (hs_auth_plugin h) as [[| |]|]; congruence|].
    intros d. destruct (parse_server_version other (hs_server_version h)) as [[[v m]|]|e|]; cbn [rbind]; try discriminate;
      intros Ed; injection Ed as <-; cbn [d_auth_plugin]; destruct (hs_auth_plugin h) as [[| |]|]; congruence. }
  destruct E as (-> & Hd).
  destruct (handle_handshake debug other o g) as [d|e|] eqn:Eh; try reflexivity. cbn [of_protocol rmap_err] in *.
  rewrite !iob in *. destruct (make_handshake_response pr o d) as [h|e|]; try reflexivity.
  rewrite !iob in *. rewrite traced_write in *. destruct (t_write t h s1) as [[u|e|] s2]; try reflexivity.
  rewrite auth_less; [reflexivity|assumption|exact Ho|now rewrite (handshake_unswitched _ _ _ _ _ Eh)| |].
  - unfold current_plugin. unfold without_sha2 in Ho. destruct (o_auth_plugin o) as [p|]; [congruence|]. now apply Hd.
  - intros p Hp. apply HR.
    destruct (continue_auth 2 (traced t) pr secure o _) as [[u'|e|] [[s3 tr3] d3]]; exact Hp.
Qed.
Print Assumptions C101_without_plugin_partial.

(** A build with neither feature, given a function to sleep with; the user is asked to switch plugins. *)
Definition bare : features := mkFeatures false false.
Definition switch_to_native : list Z := [254] ++ plugin_name PNative ++ [0] ++ repeat 1 20 ++ [0].

Example C101_case : exists d h tr,
  authenticate (traced script) flat_prims true (fun _ => true) false (default_options_with bare (s2l "root") (s2l "secret"))
    ([native_greeting; switch_to_native; ok_packet_bytes], [], []) = (Ok d, ([], [h; repeat 0 20], tr)) /\
  received tr = [native_greeting; switch_to_native; ok_packet_bytes] /\
  Forall (fun p => octets p /\ ~ names_sha2 p) (received tr) /\
  authenticate_with bare true (traced script) flat_prims true (fun _ => true) false (default_options_with bare (s2l "root") (s2l "secret"))
    ([native_greeting; switch_to_native; ok_packet_bytes], [], []) = (Ok d, ([], [h; repeat 0 20], tr)).
Proof.
  eexists _, _, _. split; [vm_compute; reflexivity|]. split; [reflexivity|]. split; [|vm_compute; reflexivity].
  assert (No : forall p : list Z, (forall a : list Z, rev p <> rev (plugin_name PSha2) ++ a) -> (forall a, rev p <> 0 :: rev (plugin_name PSha2) ++ a) ->
     (forall d : list Z, p <> 254 :: plugin_name PSha2 ++ 0 :: d) -> ~ names_sha2 p).
  { intros p A B C [(a & [-> | ->]) | (d & E)].
    - apply (A (rev a)). now rewrite rev_app_distr.
    - apply (B (rev a)). rewrite !rev_app_distr. reflexivity.
    - apply (C d). unfold switch_request, wire_nul_str in E. rewrite E, <- app_assoc. reflexivity. }
  cbn [received flat_map app]. repeat (apply Forall_cons || apply Forall_nil); (split; [repeat constructor; unfold byte_ok; cbn; lia|];
    apply No; intros ? F; vm_compute in F; discriminate).
Qed.

(** A peer that insists on a conversation. *)
Definition strict : transport (list event) :=
  mkTransport _
    (fun ev => match ev with Received p :: r => (Ok p, r) | _ => (Panic, ev) end)
    (fun b ev => match ev with
                 | Sent p :: r => if list_eq_dec Z.eq_dec b p then (Ok tt, r) else (Panic, ev)
                 | _ => (Panic, ev)
                 end).
Lemma strict_plays : forall ev rest, plays strict ev (ev ++ rest) rest.
Proof.
  induction ev as [|[p|p] ev IH]; intros rest; cbn [plays app]; [reflexivity | |]; eexists; (split; [|apply IH]); [reflexivity|].
  cbn. destruct (list_eq_dec Z.eq_dec p p); [reflexivity | contradiction].
Qed.

Lemma native_login_switch : forall sha1 sha256 enc secure pass known nonce ev S (t : transport S) s s' q s1,
  login sha1 sha256 enc secure (eq PNative) pass known PNative nonce true ev -> plays t ev s s' ->
  t_read t s = (Ok q, s1) -> is_switch_packet q -> exists data, switch_request PNative data q.
Proof.
  intros sha1 sha256 enc secure pass known nonce ev S t s s' q s1 HL HP E (r & Hq).
  inversion HL as [p n b k Hk | | | | | p n k data n' pkt ev' Ak Rk Nk Lk]; subst ev; destruct HP as (s2 & E2 & _);
    rewrite E in E2; injection E2 as E2 _.
  - destruct Hk as (r' & Hk). congruence.
  - exists data. rewrite E2, Ak. exact Rk.
Qed.

(** A user of mysql_native_password gets in when the greeting names that plugin or none, at once or
    after a switch request.  Missing: greetings that name caching_sha2_password (below). *)
Theorem C101_native_users_partial :
  forall f sleep pr debug other secure o, f_sha2 f = false -> f_time f || sleep = true ->
  hash_fun 20 (p_sha1 pr) -> hash_fun 32 (p_sha256 pr) ->
  sendable (o_user o) -> (forall x, o_db_name o = Some x -> sendable x) ->
  o_auth_plugin o = None \/ o_auth_plugin o = Some PNative -> o_server_key o = None ->
  forall id caps status len version part1 part2 plugin g a b c suffix ev,
  greeting id caps status len version part1 part2 plugin g -> len <= 127 -> Z.testbit caps SECURE_CONNECTION_BIT = true ->
  version_text a b c suffix version -> plugin = None \/ plugin = Some (plugin_name PNative) ->
  login (p_sha1 pr) (p_sha256 pr) (fun n e m c => p_encrypt pr (mkKey n e) m = Ok c) secure (eq PNative)
    (utf8_encode (o_password o)) None PNative (challenge part1 part2) true ev ->
  exists h hello d,
    server_reads h = Some hello /\ ch_user hello = utf8_encode (o_user o) /\
    ch_auth hello = native_token (p_sha1 pr) (challenge part1 part2) (utf8_encode (o_password o)) /\
    ch_plugin hello = Some (plugin_name PNative) /\ ch_db hello = option_map utf8_encode (o_db_name o) /\
    d_id d = id /\ d_version d = (a, b, c) /\
    forall S (t : transport S) s s', plays t (Received g :: Sent h :: ev) s s' ->
      authenticate_with f sleep t pr debug other secure o s = (Ok d, s').
Proof.
  intros f sleep pr debug other secure o F1 F2 H1 H2 Hu Hdb Ho Hk id caps status len version part1 part2 plugin g a b c suffix ev
    Hg Hl Hs Hv Hp HL.
  assert (Al : forall p, eq PNative p -> allowed_by o p) by (intros p <-; split; [exact Ho | discriminate]).
  assert (Gp : greeting_plugin plugin PNative) by (destruct Hp as [-> | ->]; reflexivity).
  destruct (C74_documented_exchanges_succeed_partial pr debug other secure o H1 H2 Hu Hdb id caps status len version part1 part2 plugin
    PNative PNative g a b c suffix ev Hg Hl Hs Hv Gp) as (h & hello & d & S1 & S2 & S3 & S4 & S5 & _ & D1 & D2 & _ & _ & R).
  - destruct Ho as [-> | ->]; reflexivity.
  - now apply Al.
  - discriminate.
  - unfold known_by. rewrite Hk. cbn [option_map]. clear - HL Al.
    revert HL. generalize true (challenge part1 part2). generalize PNative at 2 3.
    intros p bo nonce HL. induction HL; try (econstructor; eauto; fail).
  - exists h, hello, d. do 7 (split; [assumption|]). intros S t s s' HP. rewrite <- (R S t s s' HP).
    destruct HP as (s1 & E1 & s2 & E2 & HP).
    unfold authenticate_with, authenticate. rewrite iob. unfold sleep_with. rewrite F2. rewrite !iob, E1, !iob.
    rewrite handshake_data_less by assumption.
    destruct (greeting_read debug _ _ _ _ _ _ _ _ _ Hg Hl) as (coll & _ & E).
    assert (E' : match read_handshake debug g with
       | Ok h => match hs_auth_plugin h with Some PSha2 => Panic | _ => handle_handshake debug other o g end
       | _ => handle_handshake debug other o g end = handle_handshake debug other o g).
    { rewrite E. destruct Hp as [-> | ->]; reflexivity. }
    rewrite E'. clear E'. destruct (greeting_data debug other o _ _ _ _ _ _ _ _ _ _ _ _ _ _ Hg Hl Hv Gp) as (m & Ed). rewrite Ed.
    unfold iores at 1 4. cbn [of_protocol rmap_err]. rewrite !iob. unfold iores.
    match goal with |- context [make_handshake_response pr o ?x] => remember x as d0 eqn:Ed0 end.
    assert (EH : make_handshake_response pr o d0 = Ok h).
    { specialize (R (list event) strict (Received g :: Sent h :: ev) []). unfold authenticate in R.
      rewrite iob in R. cbn [strict t_read] in R. rewrite iob in R. unfold iores at 1 in R. rewrite Ed in R. cbn [of_protocol rmap_err] in R.
      rewrite iob in R. unfold iores at 1 in R.
      pose proof (strict_plays (Received g :: Sent h :: ev) []) as Pl. rewrite app_nil_r in Pl. specialize (R Pl).
      destruct (make_handshake_response pr o d0) as [h'|e|]; try discriminate. rewrite iob in R. cbn [strict t_write] in R.
      destruct (list_eq_dec Z.eq_dec h' h) as [->|]; [reflexivity | discriminate]. }
    rewrite EH, !iob, E2.
    assert (C : current_plugin o d0 <> PSha2).
    { unfold current_plugin. rewrite Ed0. destruct Ho as [-> | ->]; discriminate. }
    rewrite round_less, round_all by assumption. unfold native_round.
    destruct (t_read t s2) as [[q|e|] s4] eqn:Eq; try reflexivity. destruct (first_is 0 q); [reflexivity|].
    destruct (first_is 254 q && negb (d_auth_switched d0)) eqn:Sw; [|reflexivity].
    apply andb_true_iff in Sw. destruct Sw as (Sw & _). apply first_is_iff in Sw. 
    destruct (native_login_switch _ _ _ _ _ _ _ ev S t s2 s' q s4 HL HP Eq Sw) as (data & Rq).
    rewrite switch_less by exact F1. rewrite (read_switch_request _ _ _ Rq). cbv iota beta.
    destruct (gen_data pr PNative (utf8_encode (o_password o)) (strip_zero data) o) as [x|e|]; try reflexivity.
    destruct (t_write t _ s4) as [[u|e|] s5]; try reflexivity.
    assert (C' : current_plugin o (switched d0 PNative (strip_zero data)) <> PSha2).
    { unfold current_plugin. cbn [switched d_auth_plugin]. destruct Ho as [-> | ->]; discriminate. }
    rewrite round_less, round_all by assumption. unfold native_round. cbn [switched d_auth_switched negb].
    destruct (t_read t s5) as [[k|e|] s6]; try reflexivity. rewrite andb_false_r. reflexivity.
Qed.
Print Assumptions C101_native_users_partial.

Example C101_native_users_case :
  greeting_plugin (Some (plugin_name PNative)) PNative /\
  login (p_sha1 flat_prims) (p_sha256 flat_prims) (fun n e m c => p_encrypt flat_prims (mkKey n e) m = Ok c) false (eq PNative)
    (s2l "secret") None PNative (challenge [1; 2; 3; 4; 5; 6; 7; 8] [9; 10; 11; 12; 13; 14; 15; 16; 17; 18; 19; 20; 0]) true
    [Received switch_to_native; Sent (repeat 0 20); Received ok_packet_bytes] /\
  exists h d, authenticate_with bare true script flat_prims true (fun _ => true) false (default_options_with bare (s2l "root") (s2l "secret"))
    ([native_greeting; switch_to_native; ok_packet_bytes], []) = (Ok d, ([], [h; repeat 0 20])).
Proof.
  split; [reflexivity|]. split; [|eexists _, _; vm_compute; reflexivity].
  apply (login_switch (p_sha1 flat_prims) (p_sha256 flat_prims) _ false (eq PNative) (s2l "secret") None PNative _ PNative
    (repeat 1 20 ++ [0]) (repeat 1 20)).
  - reflexivity.
  - reflexivity.
  - now left.
  - apply login_ok. eexists. reflexivity.
Qed.

(** A server that asks for the plugin that is not there is answered with an error, and nothing is sent. *)
Theorem C101_switch_refused : forall f sleep S (t : transport S) pr debug other secure o g d h q data s s',
  f_sha2 f = false -> f_time f || sleep = true ->
  handle_handshake_with f debug other o g = Ok d -> make_handshake_response pr o d = Ok h ->
  switch_request PSha2 data q -> plays t [Received g; Sent h; Received q] s s' ->
  authenticate_with f sleep t pr debug other secure o s = (Err (EProtocol (PUnknownAuthPlugin (plugin_name PSha2))), s').
Proof.
  intros f sleep S t pr debug other secure o g d h q data s s' F1 F2 Ed Eh Hq (s1 & E1 & s2 & E2 & s3 & E3 & ->).
  unfold authenticate_with. rewrite iob. unfold sleep_with. rewrite F2. rewrite iob, E1, iob. unfold iores at 1. rewrite Ed.
  cbn [of_protocol rmap_err]. rewrite iob. unfold iores at 1. rewrite Eh, iob, E2.
  rewrite (switch_refused f 1 S t pr secure o s2 d q data s3 F1); auto.
  unfold handle_handshake_with in Ed. destruct (fst (handshake_with f debug g)) as [x|e|]; try discriminate.
  destruct (parse_server_version other (hs_server_version x)) as [[[v m]|]|e|]; cbn [rbind] in Ed; try discriminate;
    injection Ed as <-; reflexivity.
Qed.
Print Assumptions C101_switch_refused.

Example C101_switch_refused_case : exists h,
  authenticate_with bare true script flat_prims true (fun _ => true) false (default_options_with bare (s2l "root") (s2l "secret"))
    ([native_greeting; [254] ++ plugin_name PSha2 ++ [0] ++ repeat 1 20 ++ [0]; ok_packet_bytes], []) =
  (Err (EProtocol (PUnknownAuthPlugin (plugin_name PSha2))), ([ok_packet_bytes], [h])).
Proof. eexists. vm_compute. reflexivity. Qed.

(** Every greeting that names caching_sha2_password - the default of servers since 8.0 - makes a build
    without the plugin panic, whatever plugin the user has and the options force. *)
Theorem C101_new_servers : forall f sleep S (t : transport S) pr debug other secure o,
  f_sha2 f = false -> f_time f || sleep = true ->
  forall id caps status len version part1 part2 g s s',
  greeting id caps status len version part1 part2 (Some (plugin_name PSha2)) g -> len <= 127 ->
  t_read t s = (Ok g, s') ->
  authenticate_with f sleep t pr debug other secure o s = (Panic, s').
Proof.
  intros f sleep S t pr debug other secure o F1 F2 id caps status len version part1 part2 g s s' Hg Hl E.
  unfold authenticate_with. rewrite iob. unfold sleep_with. rewrite F2, iob, E, iob. unfold iores at 1.
  destruct (greeting_read debug _ _ _ _ _ _ _ _ _ Hg Hl) as (coll & _ & R). unfold read_handshake in R.
  unfold handle_handshake_with. rewrite handshake_less by exact F1.
  destruct (handshake_p debug g) as [r b]. cbn [fst] in R. subst r. reflexivity.
Qed.
Print Assumptions C101_new_servers.

(** So a user of mysql_native_password, whom the default build lets in, does not get in. *)
Theorem C101_without_plugin_refuted : exists o i d d',
  without_sha2 (o_auth_plugin o) /\ o_server_key o = None /\
  i = [mysql8_greeting; switch_to_native; ok_packet_bytes] /\
  fst (authenticate script flat_prims true (fun _ => true) false o (i, [])) = Ok d /\ d_auth_plugin d = PNative /\
  fst (authenticate_with bare true script flat_prims true (fun _ => true) false o (i, [])) = Panic /\
  fst (authenticate_with bare true script flat_prims true (fun _ => true) false o (native_greeting :: tl i, [])) = Ok d'.
Proof.
  exists any_options. eexists _, _, _. split; [discriminate|]. split; [reflexivity|]. split; [reflexivity|].
  split; [vm_compute; reflexivity|]. splits; vm_compute; reflexivity.
Qed.
Print Assumptions C101_without_plugin_refuted.

(** Without the feature time, the default options have no function to sleep with, and connecting
    panics before anything is read. *)
Theorem C101_sleep : forall f S (t : transport S) pr debug other secure o s, f_time f = false ->
  authenticate_with f default_sleep t pr debug other secure o s = (Panic, s) /\
  forall debug' f', f_time f' = true -> f_sha2 f' = f_sha2 f -> forall sleep,
  authenticate_with f true t pr debug' other secure o s = authenticate_with f' sleep t pr debug' other secure o s.
Proof.
  intros f S t pr debug other secure o s H. split.
  - unfold authenticate_with. rewrite iob. unfold sleep_with. rewrite H. reflexivity.
  - intros debug' [a b] Hb Ha sleep. destruct f as [a' b']. cbn in *. subst. reflexivity.
Qed.
Print Assumptions C101_sleep.

Theorem C101_sleep_refuted : exists o i d,
  fst (authenticate script flat_prims true (fun _ => true) true o (i, [])) = Ok d /\
  authenticate_with (mkFeatures true false) default_sleep script flat_prims true (fun _ => true) true o (i, []) = (Panic, (i, [])) /\
  fst (authenticate_with (mkFeatures true false) true script flat_prims true (fun _ => true) true o (i, [])) = Ok d.
Proof.
  exists (default_options (s2l "root") (s2l "secret")), [mysql8_greeting; [1; 4]; ok_packet_bytes]. eexists.
  split; [vm_compute; reflexivity|]. splits; vm_compute; reflexivity.
Qed.
Print Assumptions C101_sleep_refuted.
