(** C42-C45: authentication. *)
From Coq Require Import String ZArith List Bool Lia.
From Verif Require Import Base BaseFacts Types Utf8 ParseBuf ParseBuf_proofs Packets Packets_proofs
  Scramble Crypt Spec_Crypt Crypt_proofs Handshake Spec_Wire Spec_Handshake Handshake_proofs Framing
  Properties_Crypt Properties_Handshake Auth Spec_Auth Auth_proofs.
Import ListNotations.
Open Scope Z_scope.

(** A server that sends given packets whatever it receives; what is sent to it is kept. *)
Definition script : transport (list (list Z) * list (list Z)) :=
  mkTransport _
    (fun '(i, w) => match i with p :: i' => (Ok p, (i', w)) | [] => (Err (EProtocol peof), ([], w)) end)
    (fun b '(i, w) => (Ok tt, (i, w ++ [b]))).

(** ** C42 *)

(** Without a secure transport and without permission for clear-text passwords, the run depends
    on the password through the two hash tokens and the RSA encryption (of the password masked
    with the server's nonce) only: if those agree for two passwords, whatever the server does and
    whatever the transport is, everything - the packets written included - is the same. *)
Theorem C42_password_not_disclosed :
  forall S (t : transport S) pr1 pr2 debug other o pw s,
  o_allow_cleartext o = false ->
  hash_fun 20 (p_sha1 pr1) -> hash_fun 32 (p_sha256 pr1) ->
  hash_fun 20 (p_sha1 pr2) -> hash_fun 32 (p_sha256 pr2) ->
  (forall nonce, native_token (p_sha1 pr1) nonce (utf8_encode (o_password o)) =
                 native_token (p_sha1 pr2) nonce (utf8_encode pw)) ->
  (forall nonce, sha2_token (p_sha256 pr1) nonce (utf8_encode (o_password o)) =
                 sha2_token (p_sha256 pr2) nonce (utf8_encode pw)) ->
  (forall key nonce, nonce <> [] ->
     p_encrypt pr1 key (xor_nonce nonce (utf8_encode (o_password o) ++ [0])) =
     p_encrypt pr2 key (xor_nonce nonce (utf8_encode pw ++ [0]))) ->
  authenticate t pr1 debug other false o s =
  authenticate t pr2 debug other false (with_password o pw) s.
Proof.
  intros S t pr1 pr2 debug other o pw s Hc H1 H2 H3 H4 Hn Hs He. apply worlds_authenticate.
  - intros p nonce.
    assert (D : (exists f, o_auth_plugin o = Some f /\ p <> f) \/ (o_auth_plugin o = None \/ o_auth_plugin o = Some p)).
    { destruct (o_auth_plugin o) as [f|]; [|auto]. destruct p, f; auto; left; eexists; (split; [reflexivity | discriminate]). }
    destruct D as [(f & D & Dn) | D].
    { rewrite !(forced_other _ _ f) by assumption. reflexivity. }
    destruct p.
    + unfold gen_data. cbn [with_password o_auth_plugin o_allow_cleartext]. rewrite Hc.
      destruct D as [-> | ->]; reflexivity.
    + rewrite !native_out by assumption. rewrite Hn. reflexivity.
    + rewrite !sha2_out by assumption. rewrite Hs. reflexivity.
  - intros _. apply encrypted_xor. exact He.
Qed.

(** After the handshake response, each packet written is a hash token, the request for the
    server's key or the encrypted password. *)
Theorem C42_packets_written :
  forall S (t : transport S) pr debug other o s,
  o_allow_cleartext o = false -> hash_fun 20 (p_sha1 pr) -> hash_fun 32 (p_sha256 pr) ->
  let pass := utf8_encode (o_password o) in
  forall h rest, sent (snd (snd (authenticate (traced t) pr debug other false o (s, [])))) = h :: rest ->
  Forall (fun p =>
    (exists nonce, p = native_token (p_sha1 pr) nonce pass) \/
    (exists nonce, p = sha2_token (p_sha256 pr) nonce pass) \/
    p = [2] \/
    (exists key nonce, nonce <> [] /\ p_encrypt pr key (xor_nonce nonce (pass ++ [0])) = Ok p)) rest.
Proof.
  intros S t pr debug other o s Hc H1 H2 pass h rest.
  destruct (authenticate_shape S t pr debug other false o s []) as (ev & E & Q). rewrite E. cbn [app].
  assert (Gen : forall pl nonce x, gen_data pr pl (utf8_encode (o_password o)) nonce o = Ok x ->
    (exists nonce, match x with Some y => plugin_data_serialize y | None => [] end = native_token (p_sha1 pr) nonce pass) \/
    (exists nonce, match x with Some y => plugin_data_serialize y | None => [] end = sha2_token (p_sha256 pr) nonce pass)).
  { intros pl nonce x G. fold pass in G.
    assert (D : o_auth_plugin o = None \/ o_auth_plugin o = Some pl).
    { destruct (o_auth_plugin o) as [f|] eqn:Ef; [|auto]. right. destruct (auth_plugin_eqb pl f) eqn:Ep.
      - destruct pl, f; try discriminate; reflexivity.
      - rewrite (forced_other pr o f) in G; [discriminate | assumption | intros ->; destruct f; discriminate]. }
    pose proof (f_equal data_out G) as G'.
    destruct pl.
    - exfalso. unfold gen_data in G. destruct D as [D|D]; rewrite D in G; cbn in G; rewrite Hc in G; discriminate.
    - left. exists nonce. rewrite native_out in G' by assumption. destruct x as [y|]; cbn in G'; injection G' as G' G''; congruence.
    - right. exists nonce. rewrite sha2_out in G' by assumption. destruct x as [y|]; cbn in G'; injection G' as G' G''; congruence. }
  assert (Full : forall ev r, full_shape pr false o ev r -> Forall (fun p => p = [2] \/
    (exists key nonce, nonce <> [] /\ p_encrypt pr key (xor_nonce nonce (pass ++ [0])) = Ok p)) (sent ev)).
  { assert (Pp : forall p, pass_packet pr false o p ->
      exists key nonce, nonce <> [] /\ p_encrypt pr key (xor_nonce nonce (pass ++ [0])) = Ok p).
    { intros p (key & nonce & m & Em & Ep). exists key, nonce. destruct nonce as [|x nonce].
      - exfalso. unfold mask_password in Em. destruct (utf8_encode (o_password o)); discriminate.
      - split; [discriminate|]. rewrite mask_password_xor in Em by discriminate. injection Em as <-. exact Ep. }
    intros ev' r F. inversion F; subst; cbn; auto;
      match goal with Hp : ?x = [] \/ _ |- _ => destruct Hp as [-> | (_ & k & ->)] end; cbn; auto. }
  assert (Auth : forall sw sha2 ev r, auth_shape pr false o sw sha2 ev r -> Forall (fun p =>
    (exists nonce, p = native_token (p_sha1 pr) nonce pass) \/
    (exists nonce, p = sha2_token (p_sha256 pr) nonce pass) \/
    p = [2] \/
    (exists key nonce, nonce <> [] /\ p_encrypt pr key (xor_nonce nonce (pass ++ [0])) = Ok p)) (sent ev)).
  { intros sw sha2 ev' r A. induction A; cbn [sent flat_map app]; auto.
    - eapply Forall_impl; [|eapply Full; eassumption]. cbn. intros a [?|?]; auto.
    - constructor; [|constructor]. destruct (Gen pl nonce x); auto.
    - constructor; [|exact IHA]. destruct (Gen pl nonce x); auto. }
  intros Hs. inversion Q; subst; cbn in Hs; try discriminate.
  - injection Hs as <- <-. constructor.
  - injection Hs as <- <-. eapply Auth; eassumption.
Qed.

(** The record of packets does not change the run. *)
Theorem C42_record_is_faithful :
  forall S (t : transport S) pr debug other secure o s tr,
  let '(r, (s', _)) := authenticate (traced t) pr debug other secure o (s, tr) in
  authenticate t pr debug other secure o s = (r, s').
Proof.
  intros S t pr debug other secure o s tr. rewrite <- (erase_authenticate S t pr debug other secure o s tr).
  destruct (authenticate (traced t) pr debug other secure o (s, tr)) as [r [s' tr']]. reflexivity.
Qed.

(** Two different passwords that look the same, through full authentication with a known key. *)
Definition flat_prims : primitives :=
  mkPrims (fun _ => repeat 7 20) (fun _ => repeat 9 32) (fun _ m => Ok [lenZ m]).
Definition some_key : public_key := mkKey 3233 17.
Definition known_key_options : conn_options :=
  mkOptions (s2l "root") (s2l "secret") None None false (Some PSha2) (Some some_key).

Example C42_example :
  authenticate script flat_prims true (fun _ => true) false known_key_options ([mysql8_greeting; [1; 4]; [0; 0; 0]], []) =
  authenticate script flat_prims true (fun _ => true) false (with_password known_key_options (s2l "public"))
    ([mysql8_greeting; [1; 4]; [0; 0; 0]], []) /\
  exists d h, authenticate script flat_prims true (fun _ => true) false known_key_options
    ([mysql8_greeting; [1; 4]; [0; 0; 0]], []) = (Ok d, ([], [h; [7]])).
Proof.
  split.
  - assert (T : forall n b, 0 <= b < 256 -> hash_fun n (fun _ => repeat b n)).
    { intros n b Hb x. split; [apply repeat_length|]. apply Forall_forall. intros y Hy. apply repeat_spec in Hy. lia. }
    apply (C42_password_not_disclosed _ script flat_prims flat_prims true (fun _ => true) known_key_options (s2l "public"));
      try reflexivity; try (apply T; lia).
  - eexists _, _. vm_compute. reflexivity.
Qed.

(** ** C43 *)

(** With a plugin forced in the options, the run depends on the password through that plugin's
    data only: nothing for mysql_clear_password unless allowed, the hash token for
    mysql_native_password, the hash token and full authentication for caching_sha2_password. *)
Definition same_data (f : auth_plugin) (secure allow : bool) (pr1 pr2 : primitives) (pw1 pw2 : str) : Prop :=
  match f with
  | PClear => allow = true -> pw1 = pw2
  | PNative => forall nonce, native_token (p_sha1 pr1) nonce (utf8_encode pw1) =
                             native_token (p_sha1 pr2) nonce (utf8_encode pw2)
  | PSha2 => (forall nonce, sha2_token (p_sha256 pr1) nonce (utf8_encode pw1) =
                            sha2_token (p_sha256 pr2) nonce (utf8_encode pw2)) /\
             (if secure then pw1 = pw2
              else forall key nonce, nonce <> [] ->
                p_encrypt pr1 key (xor_nonce nonce (utf8_encode pw1 ++ [0])) =
                p_encrypt pr2 key (xor_nonce nonce (utf8_encode pw2 ++ [0])))
  end.

Theorem C43_forced_plugin_data :
  forall S (t : transport S) pr1 pr2 debug other secure o pw f s,
  o_auth_plugin o = Some f ->
  hash_fun 20 (p_sha1 pr1) -> hash_fun 32 (p_sha256 pr1) ->
  hash_fun 20 (p_sha1 pr2) -> hash_fun 32 (p_sha256 pr2) ->
  same_data f secure (o_allow_cleartext o) pr1 pr2 (o_password o) pw ->
  authenticate t pr1 debug other secure o s =
  authenticate t pr2 debug other secure (with_password o pw) s.
Proof.
  intros S t pr1 pr2 debug other secure o pw f s Hf H1 H2 H3 H4 Hd. apply worlds_authenticate.
  - intros p nonce. destruct (auth_plugin_eqb p f) eqn:Ep.
    2:{ rewrite !(forced_other _ _ f); [reflexivity| | | |]; try assumption; intros ->; destruct f; discriminate. }
    assert (p = f) by (destruct p, f; try discriminate; reflexivity). subst p.
    destruct f; cbn in Hd.
    + unfold gen_data. cbn [with_password o_auth_plugin o_allow_cleartext]. rewrite Hf. cbn.
      destruct (o_allow_cleartext o); [rewrite Hd by reflexivity|]; reflexivity.
    + rewrite !native_out by auto. rewrite Hd. reflexivity.
    + rewrite !sha2_out by auto. rewrite (proj1 Hd). reflexivity.
  - intros [F|F]; rewrite Hf in F; [discriminate|]. injection F as ->. cbn in Hd. destruct Hd as (_ & Hd).
    destruct secure; [exact Hd|]. now apply encrypted_xor.
Qed.

(** A server answering the handshake response with a request to switch to another plugin gets
    no data; connecting fails with the mismatch error. *)
Theorem C43_switch_to_another_plugin :
  forall S (t : transport S) pr debug other secure o s f q data g h pkt rest,
  o_auth_plugin o = Some f -> q <> f -> switch_request q data pkt ->
  snd (snd (authenticate (traced t) pr debug other secure o (s, []))) = Received g :: Sent h :: Received pkt :: rest ->
  rest = [] /\
  fst (authenticate t pr debug other secure o s) = Err (ERuntime (RAuthPluginMismatch f q)).
Proof.
  intros S t pr debug other secure o s f q data g h pkt rest Hf Hq Hs Htr.
  pose proof (read_switch_request _ _ _ Hs) as Hr.
  assert (Hsw : is_switch_packet pkt) by (rewrite Hs; eexists; reflexivity).
  destruct (authenticate_shape S t pr debug other secure o s []) as (ev & E & Q). rewrite Htr in E. cbn [app] in E. subst ev.
  assert (R : forall p n x, read_auth_switch pkt = Ok (p, n) -> gen_data pr p (utf8_encode (o_password o)) n o <> Ok x).
  { intros p n x F. rewrite Hr in F. injection F as <- <-. rewrite (forced_other pr o f q) by assumption. discriminate. }
  inversion Q as [| | |? d ? ? ? Hm A]; subst. inversion A; subst; try (exfalso; eapply R; eassumption).
  - split; [reflexivity|].
    match goal with Hsp : forall pl nonce e, _ |- _ => specialize (Hsp q (strip_zero data) _ eq_refl Hsw Hr (forced_other pr o f q _ _ Hf Hq)) end.
    rewrite <- (erase_authenticate S t pr debug other secure o s []). unfold erase. cbn [fst].
    destruct (fst (authenticate (traced t) pr debug other secure o (s, []))) as [a|e|]; cbn in *; congruence.
  - exfalso. destruct Hsw as (a & F). match goal with Hx : fast_auth_ok pkt |- _ => destruct Hx as (b & G) end. congruence.
  - exfalso. destruct Hsw as (a & F). discriminate.
Qed.

Example C43_example :
  exists h, authenticate script flat_prims true (fun _ => true) false known_key_options
    ([mysql8_greeting; [254] ++ s2l "mysql_clear_password" ++ [0]; [0]], []) =
  (Err (ERuntime (RAuthPluginMismatch PSha2 PClear)), ([[0]], [h])).
Proof. eexists. vm_compute. reflexivity. Qed.

(** ** C44 *)

(** Greeting included, authentication reads at most five packets, writes at most four and
    answers at most one switch request. *)
Theorem C44_authentication_bounded :
  forall S (t : transport S) pr debug other secure o s,
  let tr := snd (snd (authenticate (traced t) pr debug other secure o (s, []))) in
  (length (received tr) <= 5)%nat /\ (length (sent tr) <= 4)%nat /\ (switches (skipn 2 tr) <= 1)%nat.
Proof.
  intros S t pr debug other secure o s tr. subst tr.
  destruct (authenticate_shape S t pr debug other secure o s []) as (ev & E & Q). rewrite E. cbn [app].
  inversion Q; subst; cbn [received sent flat_map app length skipn switches]; try (repeat split; lia).
  match goal with A : auth_shape _ _ _ _ _ _ _ |- _ => destruct (auth_counts _ _ _ _ _ _ _ A) as (A1 & A2 & A3) end.
  unfold received, sent in *. repeat split; lia.
Qed.

(** The recursion of the source (continue_auth -> perform_auth_switch -> continue_auth) needs two
    levels: the model's bound on it is never met. *)
Theorem C44_recursion_depth :
  forall n S (t : transport S) pr secure o s,
  continue_auth (2 + n) t pr secure o s = continue_auth 2 t pr secure o s.
Proof. intros. apply fuel_enough. Qed.

(** The bounds are met: a switch from mysql_native_password to caching_sha2_password, then full
    authentication with a key sent by the server. *)
Definition native_greeting : list Z :=
  [10] ++ s2l "8.0.36" ++ [0] ++ [9; 0; 0; 0] ++ [1; 2; 3; 4; 5; 6; 7; 8] ++ [0] ++ [255; 255] ++ [255] ++ [2; 0] ++
  [255; 223] ++ [21] ++ repeat 0 10 ++ [9; 10; 11; 12; 13; 14; 15; 16; 17; 18; 19; 20; 0] ++
  s2l "mysql_native_password" ++ [0].
Definition any_options : conn_options := mkOptions (s2l "root") (s2l "secret") None None false None None.

Example C44_example :
  let tr := snd (snd (authenticate (traced script) flat_prims true (fun _ => true) true any_options
    ([native_greeting; [254] ++ s2l "caching_sha2_password" ++ [0; 1; 2; 3; 0]; [1; 4]; [0; 0; 0]], [], []))) in
  length (received tr) = 4%nat /\ length (sent tr) = 3%nat /\ switches (skipn 2 tr) = 1%nat.
Proof. vm_compute. repeat split. Qed.

(** ** C45 *)

(** A successful run ends with an OK packet, or with whatever packet follows "fast authentication
    succeeded"; so an error packet ends a run with failure in every other case. *)
Theorem C45_failure_reported_partial :
  forall S (t : transport S) pr debug other secure o s d,
  let tr := snd (snd (authenticate (traced t) pr debug other secure o (s, []))) in
  fst (authenticate t pr debug other secure o s) = Ok d ->
  (exists before q, tr = before ++ [Received q] /\ is_ok_packet q) \/
  (exists before q q2, tr = before ++ [Received q; Received q2] /\ fast_auth_ok q).
Proof.
  intros S t pr debug other secure o s d tr H. subst tr.
  destruct (authenticate_shape S t pr debug other secure o s []) as (ev & E & Q). rewrite E. cbn [app].
  rewrite <- (erase_authenticate S t pr debug other secure o s []) in H. unfold erase in H. cbn [fst] in H.
  rewrite H in Q. cbn [done rbind] in Q.
  assert (Full : forall ev r, full_shape pr secure o ev r -> r = Ok tt ->
    exists before q, ev = before ++ [Received q] /\ is_ok_packet q).
  { intros ev' r F Er. inversion F; subst; try (match goal with Hx : failed _ |- _ => destruct (Hx tt eq_refl) end).
    match goal with Hx : _ <-> _ |- _ => pose proof (proj1 Hx eq_refl) as Hok end.
    exists (pre ++ [Sent p]), q. split; [rewrite <- app_assoc; reflexivity | assumption]. }
  assert (Auth : forall sw sha2 ev r, auth_shape pr secure o sw sha2 ev r -> r = Ok tt ->
    (exists before q, ev = before ++ [Received q] /\ is_ok_packet q) \/
    (exists before q q2, ev = before ++ [Received q; Received q2] /\ fast_auth_ok q)).
  { intros sw sha2 ev' r A Er. induction A; subst; try (match goal with Hx : failed _ |- _ => destruct (Hx tt eq_refl) end).
    - left. exists [], q. split; [reflexivity|]. tauto.
    - right. exists [], q, q2. auto.
    - left. destruct (Full _ (Ok tt) ltac:(eassumption) eq_refl) as (b & q' & -> & Hq).
      exists (Received (1 :: 4 :: q) :: b), q'. auto.
    - destruct (IHA eq_refl) as [(b & q' & -> & Hq) | (b & q' & q2 & -> & Hq)].
      + left. eexists (Received q :: Sent _ :: b), q'. split; [reflexivity | assumption].
      + right. eexists (Received q :: Sent _ :: b), q', q2. split; [reflexivity | assumption]. }
  inversion Q; subst; try (match goal with Hx : failed _ |- _ => destruct (Hx tt eq_refl) end).
  destruct (Auth _ _ _ _ ltac:(eassumption) eq_refl) as [(b & q' & -> & Hq) | (b & q' & q2 & -> & Hq)].
  - left. eexists (Received g :: Sent h :: b), q'. split; [reflexivity | assumption].
  - right. eexists (Received g :: Sent h :: b), q', q2. split; [reflexivity | assumption].
Qed.

(** Hence: with an error packet last, and not after "fast authentication succeeded", connecting
    fails. *)
Theorem C45_error_packet_fails_partial :
  forall S (t : transport S) pr debug other secure o s before q,
  snd (snd (authenticate (traced t) pr debug other secure o (s, []))) = before ++ [Received q] -> is_err_packet q ->
  (forall b q', before = b ++ [Received q'] -> ~ fast_auth_ok q') ->
  failed (fst (authenticate t pr debug other secure o s)).
Proof.
  intros S t pr debug other secure o s before q Htr (e & ->) Hb d Hd.
  destruct (C45_failure_reported_partial S t pr debug other secure o s d Hd) as [(b & q' & E & (r & ->)) | (b & q' & q2 & E & F)].
  - rewrite Htr in E. apply app_inj_tail in E. destruct E as (_ & E). discriminate.
  - rewrite Htr in E. replace (b ++ [Received q'; Received q2]) with ((b ++ [Received q']) ++ [Received q2]) in E
      by (rewrite <- app_assoc; reflexivity).
    apply app_inj_tail in E. destruct E as (E & _). now apply (Hb b q').
Qed.

(** After "fast authentication succeeded", an error packet is taken for success. *)
Theorem C45_failure_reported_refuted :
  exists o i d w,
    authenticate script flat_prims true (fun _ => true) false o (i, []) = (Ok d, ([], w)) /\
    exists before, i = before ++ [[255; 21; 4; 35; 50; 56; 48; 48; 48; 68; 101; 110; 105; 101; 100]].
Proof.
  eexists known_key_options, (mysql8_greeting :: [1; 3] :: [[255; 21; 4; 35; 50; 56; 48; 48; 48; 68; 101; 110; 105; 101; 100]]), _, _.
  split; [vm_compute; reflexivity|]. exists [mysql8_greeting; [1; 3]]. reflexivity.
Qed.

Example C45_example :
  exists e w, authenticate script flat_prims true (fun _ => true) false known_key_options
    ([mysql8_greeting; [255; 21; 4; 35; 50; 56; 48; 48; 48; 68; 101; 110; 105; 101; 100]], []) = (Err (EServer e), ([], w)).
Proof. eexists _, _. vm_compute. reflexivity. Qed.

Print Assumptions C42_password_not_disclosed.
Print Assumptions C42_packets_written.
Print Assumptions C42_record_is_faithful.
Print Assumptions C43_forced_plugin_data.
Print Assumptions C43_switch_to_another_plugin.
Print Assumptions C44_authentication_bounded.
Print Assumptions C44_recursion_depth.
Print Assumptions C45_failure_reported_partial.
Print Assumptions C45_error_packet_fails_partial.
Print Assumptions C45_failure_reported_refuted.
