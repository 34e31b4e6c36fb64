(** Lemmas for C103 and C104: exactly which exchanges authenticate, and how refusals are reported. *)
From Coq Require Import String ZArith List Bool Lia.
From Verif Require Import Base BaseFacts Types Utf8 ParseBuf BufMut Spec_Wire ParseBuf_proofs Conversion Conversion_proofs
  Packets Spec_Packets Packets_proofs Scramble Crypt Spec_Crypt Crypt_proofs Handshake Spec_Handshake Handshake_proofs
  Framing Framing_proofs Auth Spec_Auth Auth_proofs ValueText Spec_Text ValueText_proofs Rows Rows_proofs
  StmtPackets Conn Spec_Conn Conn_proofs Spec_Connect Greeting_proofs Properties_Rows Properties_Crypt Connect_proofs Spec_Accept.
Import ListNotations.
Open Scope Z_scope.
Open Scope io_scope.

(** The transport delivers bytes. *)
Definition reads_octets {S} (t : transport S) : Prop := forall s p s', t_read t s = (Ok p, s') -> octets p.

(** ** Switch requests *)

Lemma strip_zero_switch : forall data, switch_nonce data (strip_zero data).
Proof.
  intros data. unfold strip_zero, switch_nonce. destruct (rev data) as [|x r] eqn:E.
  - right. apply (f_equal (@rev Z)) in E. rewrite rev_involutive in E. cbn in E. subst data. split; [reflexivity|].
    intros a H. destruct a; discriminate.
  - apply (f_equal (@rev Z)) in E. rewrite rev_involutive in E. cbn [rev] in E.
    destruct (Z.eq_dec x 0) as [-> | Hx]; [left; exact E|].
    assert (N : forall a, data <> a ++ [0]).
    { intros a H. rewrite H in E. apply app_inj_tail in E. destruct E as (_ & E). now apply Hx. }
    right. destruct x; [congruence | auto | auto].
Qed.

Lemma nul_split_unique : forall a b c d : list Z, a ++ 0 :: b = c ++ 0 :: d -> ~ In 0 a -> ~ In 0 c -> a = c /\ b = d.
Proof.
  induction a as [|x a IH]; intros b [|y c] d H Ha Hc; cbn [app] in H.
  - injection H as <-. auto.
  - exfalso. apply Hc. injection H as <- _. now left.
  - exfalso. apply Ha. injection H as -> _. now left.
  - injection H as -> H. destruct (IH b c d H) as (-> & ->); [intros I; apply Ha; now right | intros I; apply Hc; now right | auto].
Qed.

Lemma from_bytes_name : forall n p, ~ In 0 n -> plugin_from_bytes n = Ok p <-> n = plugin_name p.
Proof.
  intros n p Hn. unfold plugin_from_bytes. cbv zeta. rewrite strip_zero_not by exact Hn. split.
  - destruct (list_eqb n (plugin_bytes PClear)) eqn:E1; [apply list_eqb_eq in E1; intros H; injection H as <-; exact E1|].
    destruct (list_eqb n (plugin_bytes PNative)) eqn:E2; [apply list_eqb_eq in E2; intros H; injection H as <-; exact E2|].
    destruct (list_eqb n (plugin_bytes PSha2)) eqn:E3; [apply list_eqb_eq in E3; intros H; injection H as <-; exact E3|]. discriminate.
  - intros ->. destruct p; reflexivity.
Qed.

Lemma switch_exact : forall q pkt nonce r, pkt = 254 :: r ->
  (read_auth_switch pkt = Ok (q, nonce) <-> exists data, loose_switch q data pkt /\ switch_nonce data nonce).
Proof.
  intros q pkt nonce r ->. unfold read_auth_switch.
  rewrite (pbind_ok _ _ _ tt r) by (apply (skip_app 1 [254]); reflexivity).
  unfold plugin_p. destruct (in_dec Z.eq_dec 0 r) as [I|I].
  - destruct (split_nul r I) as (w & r' & -> & Hw).
    pose proof (eat_null_slice_general w r' [] Hw) as E. rewrite app_nil_r in E.
    unfold pbind. change (w ++ [0] ++ r') with (w ++ 0 :: r'). rewrite E. unfold plift, eat_all, pret. split.
    + destruct (plugin_from_bytes w) as [p|e|] eqn:F; try discriminate. cbn [fst]. intros H. injection H as -> <-.
      apply from_bytes_name in F; [|exact Hw]. exists r'. split; [|apply strip_zero_switch]. left. rewrite F.
      unfold switch_request, wire_nul_str. rewrite <- app_assoc. reflexivity.
    + intros (data & [H | (_ & H)] & N).
      * unfold switch_request, wire_nul_str in H. cbn [app] in H. injection H as H. rewrite <- app_assoc in H. cbn [app] in H.
        apply nul_split_unique in H; [|exact Hw | apply plugin_name_nonul]. destruct H as (-> & ->).
        rewrite (proj2 (from_bytes_name (plugin_name q) q (plugin_name_nonul q)) eq_refl). cbn [fst].
        now rewrite (strip_zero_nonce _ _ N).
      * exfalso. cbn [app] in H. injection H as H. apply (plugin_name_nonul q). rewrite <- H. apply in_or_app. right. now left.
  - assert (E : eat_null_slice r = (Ok r, [])).
    { unfold eat_null_slice. rewrite position_none by exact I. cbv zeta. unfold pbind, eat.
      rewrite (proj2 (Z.ltb_ge _ _) (Z.le_refl _)). unfold pret.
      rewrite takeZ_firstn, dropZ_skipn. unfold lenZ. rewrite Nat2Z.id, firstn_all, skipn_all.
      now rewrite strip_zero_not by exact I. }
    unfold pbind. rewrite E. unfold plift, eat_all, pret. split.
    + destruct (plugin_from_bytes r) as [p|e|] eqn:F; try discriminate. cbn [fst]. intros H. injection H as -> <-.
      apply from_bytes_name in F; [|exact I]. exists []. split; [right; now rewrite F | apply strip_zero_switch].
    + intros (data & [H | (-> & H)] & N).
      * exfalso. apply I. unfold switch_request, wire_nul_str in H. cbn [app] in H. injection H as ->.
        rewrite <- app_assoc. apply in_or_app. right. now left.
      * cbn [app] in H. injection H as ->. rewrite (proj2 (from_bytes_name (plugin_name q) q I) eq_refl). cbn [fst].
        now rewrite (strip_zero_nonce _ _ N).
Qed.

(** ** Accepted exchanges run through *)

Lemma accepted_runs : forall pr secure o, hash_fun 20 (p_sha1 pr) -> hash_fun 32 (p_sha256 pr) ->
  forall p nonce sw ev,
  accepted (p_sha1 pr) (p_sha256 pr) (fun n e m c => p_encrypt pr (mkKey n e) m = Ok c) secure (allowed_by o)
    (utf8_encode (o_password o)) (known_by o) p nonce sw ev ->
  forall d, current_plugin o d = p -> d_nonce d = nonce -> d_server_key d = o_server_key o -> d_auth_switched d = negb sw ->
  exists d', same_server d d' /\ forall S (t : transport S) s s', reads_octets t -> plays t ev s s' ->
    continue_auth (if sw then 2 else 1) t pr secure o (s, d) = (Ok tt, (s', d')).
Proof.
  intros pr secure o H1 H2 p nonce sw ev HL.
  induction HL as [p nonce sw q (r & ->) | nonce sw f q (r & ->)
    | nonce sw r q Hs (r' & ->) | nonce sw r q n e c Hs (r' & ->) Hn Hk He
    | nonce sw r q n e w c Hs (r' & ->) Hn Hk Hkey He
    | p nonce q data nonce' pkt ev Ha Hr Hn HL IH]; intros d Hp Hno Hsk Hsw.
  - exists d. split; [apply same_server_refl|]. intros S t s s' Ht (s1 & E & ->).
    destruct sw; cbn [continue_auth]; rewrite iob; unfold on_stream at 1; rewrite E; reflexivity.
  - exists d. split; [apply same_server_refl|]. intros S t s s' Ht (s1 & E1 & s2 & E2 & ->).
    destruct sw; cbn [continue_auth]; rewrite iob; unfold on_stream at 1; rewrite E1, Hp;
      cbn [first_is Z.eqb Pos.eqb andb second_is]; rewrite iob; unfold on_stream at 1; rewrite E2; reflexivity.
  - exists d. split; [apply same_server_refl|]. intros S t s s' Ht (s1 & E1 & s2 & E2 & s3 & E3 & ->).
    assert (F : full_auth t pr secure o (s1, d) = (Ok tt, (s3, d))).
    { subst secure. unfold full_auth. cbv zeta. rewrite iob. unfold on_stream at 1. rewrite E2.
      rewrite iob. unfold on_stream. rewrite E3. reflexivity. }
    destruct sw; cbn [continue_auth]; rewrite iob; unfold on_stream at 1; rewrite E1, Hp;
      cbn [first_is Z.eqb Pos.eqb andb second_is]; exact F.
  - exists d. split; [apply same_server_refl|]. intros S t s s' Ht (s1 & E1 & s2 & E2 & s3 & E3 & ->).
    assert (F : full_auth t pr secure o (s1, d) = (Ok tt, (s3, d))).
    { subst secure. unfold full_auth. cbv zeta. rewrite iob, iob. unfold get_server_key. rewrite Hsk.
      unfold known_by in Hk. destruct (o_server_key o) as [[kn ke]|]; [|discriminate]. cbn in Hk. injection Hk as -> ->.
      cbn [fst snd]. rewrite iob. unfold iores at 1. rewrite Hno, mask_password_xor by assumption. cbn [of_crypt rmap_err].
      rewrite iob. unfold iores at 1. rewrite He. cbn [of_crypt rmap_err]. unfold on_stream at 1. rewrite E2.
      rewrite iob. unfold on_stream. rewrite E3. reflexivity. }
    destruct sw; cbn [continue_auth]; rewrite iob; unfold on_stream at 1; rewrite E1, Hp;
      cbn [first_is Z.eqb Pos.eqb andb second_is]; exact F.
  - exists (with_key d (mkKey n e)). split; [repeat split|]. intros S t s s' Ht (s1 & E1 & s2 & E2 & s3 & E3 & s4 & E4 & s5 & E5 & ->).
    assert (F : full_auth t pr secure o (s1, d) = (Ok tt, (s5, with_key d (mkKey n e)))).
    { subst secure. unfold full_auth. cbv zeta. rewrite iob, iob. unfold get_server_key. rewrite Hsk.
      unfold known_by in Hk. destruct (o_server_key o) as [|]; [discriminate|].
      rewrite iob. unfold on_stream at 1. rewrite E2. rewrite iob. unfold on_stream at 1. rewrite E3.
      cbn [first_is Z.eqb Pos.eqb tl]. rewrite iob. unfold iores at 1.
      rewrite (proj2 (C41_accepted_files n e w ltac:(apply Ht in E3; now inversion E3)) Hkey). cbn [of_crypt rmap_err].
      rewrite iob. unfold iores at 1. change (d_nonce (with_key d (mkKey n e))) with (d_nonce d).
      rewrite Hno, mask_password_xor by assumption. cbn [of_crypt rmap_err].
      rewrite iob. unfold iores at 1. rewrite He. cbn [of_crypt rmap_err]. unfold on_stream at 1. rewrite E4.
      rewrite iob. unfold on_stream. rewrite E5. reflexivity. }
    destruct sw; cbn [continue_auth]; rewrite iob; unfold on_stream at 1; rewrite E1, Hp;
      cbn [first_is Z.eqb Pos.eqb andb second_is]; exact F.
  - destruct (IH (switched d q nonce')) as (d' & Hd & R).
    + unfold current_plugin. cbn. destruct Ha as ([-> | ->] & _); reflexivity.
    + reflexivity.
    + exact Hsk.
    + reflexivity.
    + exists d'. split.
      { unfold same_server in *. cbn in Hd. intuition congruence. }
      intros S t s s' Ht (s1 & E1 & s2 & E2 & HP).
      destruct (token_out pr o q nonce' H1 H2 Ha) as (x & G & T & _).
      cbn [continue_auth]. rewrite iob; unfold on_stream at 1; rewrite E1.
      assert (Ep : exists r, pkt = 254 :: r) by (destruct Hr as [-> | (_ & ->)]; eexists; reflexivity). destruct Ep as (r & Ep).
      assert (Rd : read_auth_switch pkt = Ok (q, nonce')) by (apply (switch_exact q pkt nonce' r Ep); eauto).
      rewrite Hsw. rewrite Ep. cbn [first_is]. change (254 =? 0) with false. change (254 =? 1) with false. change (254 =? 254) with true.
      rewrite andb_false_r. cbn [andb negb]. rewrite <- Ep.
      rewrite iob. unfold iores at 1. rewrite Rd. cbn [of_protocol rmap_err].
      rewrite iob. rewrite Hsw. cbn [negb]. rewrite iob. unfold iores at 1. rewrite G. rewrite iob. unfold on_stream at 1.
      rewrite T, E2. specialize (R S t s2 s' Ht HP). cbn [continue_auth] in R. exact R.
Qed.

(** ** Only these do *)

Lemma gen_data_allowed : forall pr p pass nonce o x, gen_data pr p pass nonce o = Ok x -> allowed_by o p.
Proof.
  intros pr p pass nonce o x H. unfold gen_data in H. cbv zeta in H. unfold allowed_by. split.
  - destruct (o_auth_plugin o) as [f|]; [|auto]. right. destruct p, f; (reflexivity || discriminate).
  - intros ->. destruct (o_allow_cleartext o); [reflexivity|]. destruct (o_auth_plugin o) as [[| |]|]; discriminate.
Qed.

Section Only.
  Context {St : Type} (t : transport St) (pr : primitives) (secure : bool) (o : conn_options).
  Hypothesis Ht : reads_octets t.
  Hypothesis H1 : hash_fun 20 (p_sha1 pr).
  Hypothesis H2 : hash_fun 32 (p_sha256 pr).

  Let fine := accepted (p_sha1 pr) (p_sha256 pr) (fun n e m c => p_encrypt pr (mkKey n e) m = Ok c) secure (allowed_by o)
    (utf8_encode (o_password o)) (known_by o).

  Lemma answer_only : forall d s r s' d',
    (res <- on_stream (t_read t) ;;
     fun '(s, d) =>
       if first_is 0 res then (Ok tt, (s, d))
       else if first_is 255 res then (server_error res (d_capabilities d), (s, d))
       else (Err (EProtocol (PUnexpectedPacket res)), (s, d))) (s, d) = (Ok r, (s', d')) ->
    d' = d /\ exists q, is_ok_packet q /\ plays t [Received q] s s'.
  Proof.
    intros d s r s' d' H. rewrite iob in H. unfold on_stream in H. destruct (t_read t s) as [[q|e|] s1] eqn:E; try discriminate.
    destruct (first_is 0 q) eqn:F.
    - injection H as <- <- <-. split; [reflexivity|]. exists q. destruct q as [|x q]; [discriminate|]. cbn in F. apply Z.eqb_eq in F.
      subst x. split; [eexists; reflexivity | cbn [plays]; eauto].
    - exfalso. destruct (first_is 255 q); [|discriminate]. unfold server_error in H.
      destruct (read_err q (d_capabilities d)); cbn in H; discriminate.
  Qed.

  Lemma full_only : forall d s u s' d', d_server_key d = o_server_key o ->
    full_auth t pr secure o (s, d) = (Ok u, (s', d')) ->
    same_server d d' /\ exists ev, plays t ev s s' /\ forall r sw, fine PSha2 (d_nonce d) sw (Received (1 :: 4 :: r) :: ev).
  Proof.
    intros d s u s' d' Hk H. unfold full_auth in H. cbv zeta in H. rewrite iob in H. unfold fine. destruct secure eqn:Hs.
    - unfold on_stream at 1 in H. destruct (t_write t _ s) as [[[]|e|] s1] eqn:E; try discriminate.
      apply answer_only in H. destruct H as (-> & q & Hq & s2 & E2 & ->).
      split; [apply same_server_refl|]. exists [Sent (utf8_encode (o_password o) ++ [0]); Received q]. split; [cbn [plays]; eauto 8|].
      intros r sw. now apply ac_secure.
    - rewrite iob in H. unfold get_server_key in H. rewrite Hk in H. destruct (o_server_key o) as [[n e]|] eqn:Ok.
      + rewrite iob in H. unfold iores at 1 in H. destruct (d_nonce d) as [|n0 nonce] eqn:Hn; [destruct (utf8_encode (o_password o)); discriminate|].
        rewrite mask_password_xor in H by discriminate. cbn [of_crypt rmap_err] in H. rewrite iob in H. unfold iores at 1 in H.
        destruct (p_encrypt pr (mkKey n e) _) as [c|er|] eqn:Ec; try discriminate. cbn [of_crypt rmap_err] in H.
        unfold on_stream at 1 in H. destruct (t_write t c s) as [[[]|er|] s1] eqn:E; try discriminate.
        apply answer_only in H. destruct H as (-> & q & Hq & s2 & E2 & ->).
        split; [apply same_server_refl|]. exists [Sent c; Received q]. split; [cbn [plays]; eauto 8|].
        intros r sw. eapply ac_known; eauto; [discriminate|]. unfold known_by. rewrite Ok. reflexivity.
      + rewrite iob in H. unfold on_stream at 1 in H. destruct (t_write t [2] s) as [[[]|er|] s1] eqn:E; try discriminate.
        rewrite iob in H. unfold on_stream at 1 in H. destruct (t_read t s1) as [[k|er|] s2] eqn:E1; try discriminate.
        destruct k as [|k0 k]; [discriminate|]. cbn [first_is tl] in H.
        destruct (Z.eqb_spec k0 1) as [->|].
        2:{ exfalso. destruct (k0 =? 255); [|discriminate]. unfold iores, server_error in H.
            destruct (read_err (k0 :: k) (d_capabilities d)); cbn in H; discriminate. }
        rewrite iob in H. unfold iores at 1 in H. destruct (try_from_pem k) as [[n e]|er|] eqn:Ek; try discriminate. cbn [of_crypt rmap_err] in H.
        apply C41_accepted_files in Ek. 2:{ apply Ht in E1. now inversion E1. }
        rewrite iob in H. unfold iores at 1 in H. change (d_nonce (with_key d (mkKey n e))) with (d_nonce d) in H.
        destruct (d_nonce d) as [|n0 nonce] eqn:Hn; [destruct (utf8_encode (o_password o)); discriminate|].
        rewrite mask_password_xor in H by discriminate. cbn [of_crypt rmap_err] in H. rewrite iob in H. unfold iores at 1 in H.
        destruct (p_encrypt pr (mkKey n e) _) as [c|er|] eqn:Ec; try discriminate. cbn [of_crypt rmap_err] in H.
        unfold on_stream at 1 in H. destruct (t_write t c s2) as [[[]|er|] s3] eqn:E3; try discriminate.
        apply answer_only in H. destruct H as (-> & q & Hq & s4 & E4 & ->).
        split; [repeat split|]. exists [Sent [2]; Received (1 :: k); Sent c; Received q]. split; [cbn [plays]; eauto 12|].
        intros r sw. eapply ac_asked; eauto; [discriminate|]. unfold known_by. rewrite Ok. reflexivity.
  Qed.

  Lemma continue_only : forall sw d s u s' d', d_server_key d = o_server_key o -> d_auth_switched d = negb sw ->
    continue_auth (if sw then 2 else 1) t pr secure o (s, d) = (Ok u, (s', d')) ->
    same_server d d' /\ exists ev, plays t ev s s' /\ fine (current_plugin o d) (d_nonce d) sw ev.
  Proof.
    assert (Step : forall (fuel : nat) sw d s u s' d', d_server_key d = o_server_key o -> d_auth_switched d = negb sw ->
      (forall d s u s' d', d_server_key d = o_server_key o -> d_auth_switched d = true ->
         continue_auth fuel t pr secure o (s, d) = (Ok u, (s', d')) -> sw = true ->
         same_server d d' /\ exists ev, plays t ev s s' /\ fine (current_plugin o d) (d_nonce d) false ev) ->
      continue_auth (S fuel) t pr secure o (s, d) = (Ok u, (s', d')) ->
      same_server d d' /\ exists ev, plays t ev s s' /\ fine (current_plugin o d) (d_nonce d) sw ev).
    { intros fuel sw d s u s' d' Hk Hsw IH H. cbn [continue_auth] in H. rewrite iob in H. unfold on_stream at 1 in H.
      destruct (t_read t s) as [[p|e|] s1] eqn:E; try discriminate.
      destruct p as [|x p].
      { exfalso. cbn [first_is] in H. rewrite andb_false_r in H. cbn [andb] in H. unfold iores, err_or_unexpected in H.
        destruct (read_err [] (d_capabilities d)); discriminate. }
      cbn [first_is] in H. destruct (Z.eqb_spec x 0) as [->|N0].
      { injection H as <- <- <-. split; [apply same_server_refl|]. exists [Received (0 :: p)]. split; [cbn [plays]; eauto|].
        apply ac_ok. eexists; reflexivity. }
      destruct (match current_plugin o d with PSha2 => true | _ => false end && (x =? 1)) eqn:F1.
      { apply andb_true_iff in F1. destruct F1 as (Fp & Fx). apply Z.eqb_eq in Fx. subst x.
        assert (Hp : current_plugin o d = PSha2) by (destruct (current_plugin o d); easy). rewrite Hp.
        destruct p as [|y p]; [discriminate|]. cbn [second_is] in H. destruct (Z.eqb_spec y 3) as [->|N3].
        - rewrite iob in H. unfold on_stream in H. destruct (t_read t s1) as [[q|e|] s2] eqn:E2; try discriminate.
          injection H as <- <- <-. split; [apply same_server_refl|]. exists [Received (1 :: 3 :: p); Received q].
          split; [cbn [plays]; eauto 8|]. apply ac_fast. eexists; reflexivity.
        - destruct (Z.eqb_spec y 4) as [->|N4]; [|discriminate].
          apply full_only in H; [|exact Hk]. destruct H as (Sm & ev & P & K). split; [exact Sm|].
          exists (Received (1 :: 4 :: p) :: ev). split; [cbn [plays]; eauto | apply K]. }
      destruct (Z.eqb_spec x 254) as [->|N254]; cbn [andb] in H.
      2:{ exfalso. unfold iores, err_or_unexpected in H. destruct (read_err (x :: p) (d_capabilities d)); discriminate. }
      rewrite Hsw in H. rewrite negb_involutive in H. destruct sw.
      2:{ exfalso. unfold iores, err_or_unexpected in H. destruct (read_err (254 :: p) (d_capabilities d)); discriminate. }
      rewrite iob in H. unfold iores at 1 in H. destruct (read_auth_switch (254 :: p)) as [[q nonce]|e|] eqn:Er; try discriminate.
      cbn [of_protocol rmap_err] in H. rewrite iob in H. rewrite Hsw in H. cbn [negb] in H. rewrite iob in H. unfold iores at 1 in H.
      destruct (gen_data pr q (utf8_encode (o_password o)) nonce o) as [x|e|] eqn:G; try discriminate.
      pose proof (gen_data_allowed _ _ _ _ _ _ G) as Ha.
      destruct (token_out pr o q nonce H1 H2 Ha) as (x' & G' & T & _). rewrite G in G'. injection G' as <-.
      rewrite iob in H. unfold on_stream at 1 in H. rewrite T in H.
      destruct (t_write t _ s1) as [[[]|e|] s2] eqn:E2; try discriminate.
      apply IH in H; [|exact Hk | reflexivity | reflexivity]. destruct H as (Sm & ev & P & K).
      split; [unfold same_server in *; cbn in Sm; intuition congruence|].
      apply (switch_exact q (254 :: p) nonce p eq_refl) in Er. destruct Er as (data & L & N).
      exists (Received (254 :: p) :: Sent (token (p_sha1 pr) (p_sha256 pr) (utf8_encode (o_password o)) q nonce) :: ev).
      split; [cbn [plays]; eauto 8|].
      apply (ac_switch _ _ _ _ _ _ _ _ _ q data nonce); auto.
      assert (C : current_plugin o (switched d q nonce) = q).
      { unfold current_plugin. destruct Ha as ([-> | ->] & _); reflexivity. }
      rewrite C in K. exact K. }
    assert (One : forall d s u s' d', d_server_key d = o_server_key o -> d_auth_switched d = true ->
      continue_auth 1 t pr secure o (s, d) = (Ok u, (s', d')) ->
      same_server d d' /\ exists ev, plays t ev s s' /\ fine (current_plugin o d) (d_nonce d) false ev).
    { intros d s u s' d' Hk Hsw H. apply (Step 0%nat false d s u s' d'); auto. discriminate. }
    intros [|] d s u s' d' Hk Hsw H; [|now apply (One d s u)].
    apply (Step 1%nat true d s u s' d'); auto. intros. eapply One; eauto.
  Qed.
End Only.

(** ** The whole of it *)

Lemma greeting_parts : forall debug other o g d, octets g -> handle_handshake debug other o g = Ok d ->
  exists id caps status len version part1 part2 plugin,
    loose_greeting debug id caps status len version part1 part2 plugin g /\ ~ version_breaks other 3 version.
Proof.
  intros debug other o g d Hb H. unfold handle_handshake in H. destruct (read_handshake debug g) as [h|e|] eqn:E; try discriminate.
  destruct (loose_read_inv debug g h Hb E) as (p1 & p2 & G & Hn).
  assert (Sv : str_ok (hs_server_version h)) by (destruct G as [? ? ? ? ? ? _ _ _ _ _ _ T _ _ _ _ _ _]; now apply utf8_text_iff in T).
  do 8 eexists. split; [exact G|]. intros B. apply (version_panics other _ Sv) in B. rewrite B in H. discriminate.
Qed.

(** ** The version *)

Lemma digits_range : forall s acc n, 0 <= acc < 65536 -> u16_digits acc s = Some n -> 0 <= n < 65536.
Proof.
  induction s as [|c s IH]; intros acc n Ha H; cbn [u16_digits] in H; [injection H as <-; exact Ha|].
  destruct (_ && _) eqn:F in H; [|discriminate]. cbv zeta in H. destruct (acc * 10 + (c - 48) <? 65536) eqn:G; [|discriminate].
  eapply IH; [|exact H]. lia.
Qed.

Lemma u16_range : forall s n, u16_from_str s = Some n -> 0 <= n < 65536.
Proof.
  intros s n H. unfold u16_from_str in H. destruct s as [|c s]; [discriminate|].
  assert (K : u16_digits 0 (c :: s) = Some n \/ u16_digits 0 s = Some n).
  { destruct (Z.eq_dec c 43) as [->|N]; [destruct s; [discriminate | now right]|]. left.
    clear - H N. repeat (match type of H with context [match ?x with _ => _ end] => destruct x end; try exact H; try congruence). }
  destruct K as [K|K]; eapply digits_range; try exact K; lia.
Qed.

Lemma eat_int_range : forall other s n r, eat_int other s = Ok (Some n, r) -> 0 <= n < 65536.
Proof.
  intros other s n r H. unfold eat_int in H. destruct (find_char _ s) as [p|].
  - destruct (split_bytes s p) as [[a ?]|]; [|discriminate]. destruct (split_bytes s (p + 1)) as [[? b]|]; [|discriminate].
    injection H as H _. now apply u16_range in H.
  - injection H as H _. now apply u16_range in H.
Qed.

Lemma parsed_version : forall other s v m, parse_server_version other s = Ok (Some (v, m)) -> version_ok v.
Proof.
  intros other s v m H. unfold parse_server_version in H.
  destruct (eat_int other s) as [[[a|] v1]|e|] eqn:E1; cbn [rbind] in H; try discriminate.
  destruct (eat_int other v1) as [[[b|] v2]|e|] eqn:E2; cbn [rbind] in H; try discriminate.
  destruct (eat_int other v2) as [[[c|] v3]|e|] eqn:E3; cbn [rbind] in H; try discriminate.
  injection H as <- _. apply eat_int_range in E1, E2, E3. unfold version_ok. auto.
Qed.

Lemma loose_data : forall debug other o id caps status len version part1 part2 plugin g,
  loose_greeting debug id caps status len version part1 part2 plugin g -> ~ version_breaks other 3 version ->
  exists m v, version_ok v /\ handle_handshake debug other o g =
    Ok (mkData id m v (Z.land caps (get_capabilities o)) (challenge part1 part2) (o_server_key o)
          (match plugin with Some p => p | None => PNative end) false
          (match o_max_allowed_packet o with Some n => n | None => 4194304 end)).
Proof.
  intros debug other o id caps status len version part1 part2 plugin g G B. unfold handle_handshake.
  assert (Sv : str_ok version) by (destruct G as [? ? ? ? ? ? _ _ _ _ _ _ T _ _ _ _ _ _]; now apply utf8_text_iff in T).
  destruct (loose_read _ _ _ _ _ _ _ _ _ _ G) as (proto & coll & ->). cbn [hs_server_version].
  destruct (version_panics other version Sv) as (V & NE).
  destruct (parse_server_version other version) as [v|e|] eqn:P; [|exfalso; now apply (NE e)|exfalso; apply B; now apply V].
  cbn [rbind]. destruct v as [[v m]|].
  - exists m, v. split; [|reflexivity]. now apply parsed_version in P.
  - exists false, (0, 0, 0). split; [cbn; lia | reflexivity].
Qed.

(** ** Refusals *)

Lemma word_first : forall p41 pg q e, last_word p41 pg q e -> first_is 0 q = false /\ first_is 1 q = false /\ first_is 254 q = false.
Proof.
  intros p41 pg q e H. destruct H as [code state msg q H| |x r H].
  - inversion H; subst; cbn; auto.
  - cbn; auto.
  - unfold first_is. rewrite !Z.eqb_neq. cbn in H. intuition congruence.
Qed.

Lemma no_err : forall caps x r, x <> 255 -> exists e, read_err (x :: r) caps = Err e.
Proof.
  intros caps x r H. unfold read_err, read_err_p, pbind, check_len, eat_uint, eat.
  destruct (lenZ (x :: r) <? 3) eqn:E; [cbn; eauto|]. cbn [fst].
  assert (L : (lenZ (x :: r) <? 1) = false) by (apply Z.ltb_ge in E; apply Z.ltb_ge; lia).
  unfold pbind, pret. change (Z.of_nat 1) with 1. cbv beta. rewrite L.
  assert (T : le_val (takeZ 1 (x :: r)) = x) by (replace (takeZ 1 (x :: r)) with [x] by (destruct r; reflexivity); unfold le_val; lia).
  rewrite T.
  replace (x =? 255) with false by (symmetry; now apply Z.eqb_neq). cbn. eauto.
Qed.

Lemma word_err : forall caps q e, last_word (Z.testbit caps PROTOCOL_41_BIT) (Z.testbit caps PROGRESS_BIT) q e ->
  err_or_unexpected q caps = Err e.
Proof.
  intros caps q e H. unfold err_or_unexpected. destruct H as [code state msg q H| |x r H].
  - now rewrite (read_err_layout _ _ _ H).
  - reflexivity.
  - destruct (no_err caps x r) as (e & ->); [|reflexivity]. cbn in H. intuition congruence.
Qed.

Lemma word_full : forall A caps q e, last_word (Z.testbit caps PROTOCOL_41_BIT) (Z.testbit caps PROGRESS_BIT) q e ->
  (if first_is 255 q then server_error (A := A) q caps else Err (EProtocol (PUnexpectedPacket q))) = Err e.
Proof.
  intros A caps q e H. destruct H as [code state msg q H| |x r H].
  - assert (F : first_is 255 q = true) by (inversion H; reflexivity). rewrite F. unfold server_error.
    now rewrite (read_err_layout _ _ _ H).
  - reflexivity.
  - unfold first_is. replace (x =? 255) with false; [reflexivity|]. symmetry. apply Z.eqb_neq. cbn in H. intuition congruence.
Qed.

Lemma refused_runs : forall pr secure o q, hash_fun 20 (p_sha1 pr) -> hash_fun 32 (p_sha256 pr) ->
  forall p nonce sw ev,
  refused (p_sha1 pr) (p_sha256 pr) (fun n e m c => p_encrypt pr (mkKey n e) m = Ok c) secure (allowed_by o)
    (utf8_encode (o_password o)) (known_by o) q p nonce sw ev ->
  forall d err, current_plugin o d = p -> d_nonce d = nonce -> d_server_key d = o_server_key o -> d_auth_switched d = negb sw ->
  last_word (Z.testbit (d_capabilities d) PROTOCOL_41_BIT) (Z.testbit (d_capabilities d) PROGRESS_BIT) q err ->
  exists d', forall S (t : transport S) s s', reads_octets t -> plays t ev s s' ->
    continue_auth (if sw then 2 else 1) t pr secure o (s, d) = (Err err, (s', d')).
Proof.
  intros pr secure o q H1 H2 p nonce sw ev HL.
  induction HL as [p nonce sw | nonce sw r Hs | nonce sw r n e c Hs Hn Hk He | nonce sw r Hs Hk
    | nonce sw r n e w c Hs Hn Hk Hkey He | p nonce p' data nonce' pkt ev Ha Hr Hn HL IH];
    intros d err Hp Hno Hsk Hsw Hw; destruct (word_first _ _ _ _ Hw) as (F0 & F1 & F254).
  - exists d. intros S t s s' Ht (s1 & E & ->).
    destruct sw; cbn [continue_auth]; rewrite iob; unfold on_stream at 1; rewrite E, F0, F1, F254, andb_false_r;
      cbn [andb]; unfold iores; now rewrite (word_err _ _ _ Hw).
  - exists d. intros S t s s' Ht (s1 & E1 & s2 & E2 & s3 & E3 & ->).
    assert (F : full_auth t pr secure o (s1, d) = (Err err, (s3, d))).
    { subst secure. unfold full_auth. cbv zeta. rewrite iob. unfold on_stream at 1. rewrite E2.
      rewrite iob. unfold on_stream. rewrite E3, F0. rewrite <- (word_full unit _ _ _ Hw). now destruct (first_is 255 q). }
    destruct sw; cbn [continue_auth]; rewrite iob; unfold on_stream at 1; rewrite E1, Hp;
      cbn [first_is Z.eqb Pos.eqb andb second_is]; exact F.
  - exists d. intros S t s s' Ht (s1 & E1 & s2 & E2 & s3 & E3 & ->).
    assert (F : full_auth t pr secure o (s1, d) = (Err err, (s3, d))).
    { subst secure. unfold full_auth. cbv zeta. rewrite iob, iob. unfold get_server_key. rewrite Hsk.
      unfold known_by in Hk. destruct (o_server_key o) as [[kn ke]|]; [|discriminate]. cbn in Hk. injection Hk as -> ->.
      cbn [fst snd]. rewrite iob. unfold iores at 1. rewrite Hno, mask_password_xor by assumption. cbn [of_crypt rmap_err].
      rewrite iob. unfold iores at 1. rewrite He. cbn [of_crypt rmap_err]. unfold on_stream at 1. rewrite E2.
      rewrite iob. unfold on_stream. rewrite E3, F0. rewrite <- (word_full unit _ _ _ Hw). now destruct (first_is 255 q). }
    destruct sw; cbn [continue_auth]; rewrite iob; unfold on_stream at 1; rewrite E1, Hp;
      cbn [first_is Z.eqb Pos.eqb andb second_is]; exact F.
  - exists d. intros S t s s' Ht (s1 & E1 & s2 & E2 & s3 & E3 & ->).
    assert (F : full_auth t pr secure o (s1, d) = (Err err, (s3, d))).
    { subst secure. unfold full_auth. cbv zeta. rewrite iob, iob. unfold get_server_key. rewrite Hsk.
      unfold known_by in Hk. destruct (o_server_key o) as [|]; [discriminate|].
      rewrite iob. unfold on_stream at 1. rewrite E2. rewrite iob. unfold on_stream at 1. rewrite E3, F1.
      unfold iores. pose proof (word_full public_key _ _ _ Hw) as W. destruct (first_is 255 q); [now rewrite W | injection W as <-; reflexivity]. }
    destruct sw; cbn [continue_auth]; rewrite iob; unfold on_stream at 1; rewrite E1, Hp;
      cbn [first_is Z.eqb Pos.eqb andb second_is]; exact F.
  - exists (with_key d (mkKey n e)). intros S t s s' Ht (s1 & E1 & s2 & E2 & s3 & E3 & s4 & E4 & s5 & E5 & ->).
    assert (F : full_auth t pr secure o (s1, d) = (Err err, (s5, with_key d (mkKey n e)))).
    { subst secure. unfold full_auth. cbv zeta. rewrite iob, iob. unfold get_server_key. rewrite Hsk.
      unfold known_by in Hk. destruct (o_server_key o) as [|]; [discriminate|].
      rewrite iob. unfold on_stream at 1. rewrite E2. rewrite iob. unfold on_stream at 1. rewrite E3.
      cbn [first_is Z.eqb Pos.eqb tl]. rewrite iob. unfold iores at 1.
      rewrite (proj2 (C41_accepted_files n e w ltac:(apply Ht in E3; now inversion E3)) Hkey). cbn [of_crypt rmap_err].
      rewrite iob. unfold iores at 1. change (d_nonce (with_key d (mkKey n e))) with (d_nonce d).
      rewrite Hno, mask_password_xor by assumption. cbn [of_crypt rmap_err].
      rewrite iob. unfold iores at 1. rewrite He. cbn [of_crypt rmap_err]. unfold on_stream at 1. rewrite E4.
      rewrite iob. unfold on_stream. rewrite E5, F0. change (d_capabilities (with_key d (mkKey n e))) with (d_capabilities d).
      rewrite <- (word_full unit _ _ _ Hw). now destruct (first_is 255 q). }
    destruct sw; cbn [continue_auth]; rewrite iob; unfold on_stream at 1; rewrite E1, Hp;
      cbn [first_is Z.eqb Pos.eqb andb second_is]; exact F.
  - destruct (IH (switched d p' nonce') err) as (d' & R).
    + unfold current_plugin. cbn. destruct Ha as ([-> | ->] & _); reflexivity.
    + reflexivity.
    + exact Hsk.
    + reflexivity.
    + exact Hw.
    + exists d'. intros S t s s' Ht (s1 & E1 & s2 & E2 & HP).
      destruct (token_out pr o p' nonce' H1 H2 Ha) as (x & G & T & _).
      cbn [continue_auth]. rewrite iob; unfold on_stream at 1; rewrite E1.
      assert (Ep : exists r, pkt = 254 :: r) by (destruct Hr as [-> | (_ & ->)]; eexists; reflexivity). destruct Ep as (r & Ep).
      assert (Rd : read_auth_switch pkt = Ok (p', nonce')) by (apply (switch_exact p' pkt nonce' r Ep); eauto).
      rewrite Hsw. rewrite Ep. cbn [first_is]. change (254 =? 0) with false. change (254 =? 1) with false. change (254 =? 254) with true.
      rewrite andb_false_r. cbn [andb negb]. rewrite <- Ep.
      rewrite iob. unfold iores at 1. rewrite Rd. cbn [of_protocol rmap_err].
      rewrite iob. rewrite Hsw. cbn [negb]. rewrite iob. unfold iores at 1. rewrite G. rewrite iob. unfold on_stream at 1.
      rewrite T, E2. specialize (R S t s2 s' Ht HP). cbn [continue_auth] in R. exact R.
Qed.

(** ** Keys that cannot be used *)

Section Unusable_runs.
  Context (pr : primitives) (secure : bool) (o : conn_options) (er : crypt_error).
  Hypothesis H1 : hash_fun 20 (p_sha1 pr).
  Hypothesis H2 : hash_fun 32 (p_sha256 pr).

  Let fails (n e : Z) (m : list Z) (x : crypt_error) : Prop := p_encrypt pr (mkKey n e) m = Err x.
  Let useless := unusable (p_sha1 pr) (p_sha256 pr) fails secure (allowed_by o) (utf8_encode (o_password o)) (known_by o) er.

  Lemma encryption_fails : forall {S} (t : transport S) nonce n e (s : S) d, d_nonce d = nonce -> nonce <> [] ->
    fails n e (xor_nonce nonce (utf8_encode (o_password o) ++ [0])) er ->
    (fun '(s, d) =>
       (masked <- iores (of_crypt (mask_password (d_nonce d) (utf8_encode (o_password o) ++ [0]))) ;;
        encrypted <- iores (of_crypt (p_encrypt pr (mkKey n e) masked)) ;;
        on_stream (t_write t encrypted)) (s, d)) (s, d) = (Err (EProtocol (PSerialize (SEncryption er))), (s, d)).
  Proof.
    intros S t nonce n e s d Hn He Hb. cbv beta iota. rewrite Hn.
    rewrite iob. unfold iores at 1. rewrite mask_password_xor by assumption. cbn [of_crypt rmap_err].
    rewrite iob. unfold iores at 1. rewrite Hb. reflexivity.
  Qed.

  Lemma no_key : forall w, octets w -> ~ cut_pem w -> (forall n e, ~ loose_pem n e w) -> try_from_pem w = Err InvalidPem.
  Proof.
    intros w Ow C L. destruct (try_from_pem w) as [[n e]|x|] eqn:E.
    - apply C41_accepted_files in E; [|exact Ow]. elim (L n e E).
    - now rewrite (C41_errors w x E).
    - apply C41_panics in E; [|exact Ow]. contradiction.
  Qed.

  Lemma unusable_runs : forall p nonce sw ev, useless p nonce sw ev ->
    forall d, current_plugin o d = p -> d_nonce d = nonce -> d_server_key d = o_server_key o -> d_auth_switched d = negb sw ->
    forall S (t : transport S) s s', reads_octets t -> plays t ev s s' ->
    exists d', continue_auth (if sw then 2 else 1) t pr secure o (s, d) = (Err (EProtocol (PSerialize (SEncryption er))), (s', d')).
  Proof.
    intros p nonce sw ev HL.
    induction HL as [nonce sw r n e Hs Hne Hk Hu | nonce sw r w Hs Hk He Hc Hl | nonce sw r n e w Hs Hne Hk Hw Hu
      | p nonce q data nonce' pkt ev Ha Hr Hn HL IH]; intros d Hp Hno Hsk Hsw S t s s' Ht P.
    - destruct P as (s1 & E1 & ->). exists d.
      assert (F : full_auth t pr secure o (s1, d) = (Err (EProtocol (PSerialize (SEncryption er))), (s1, d))).
      { rewrite Hs. unfold full_auth. cbv zeta. rewrite iob, iob. unfold get_server_key. rewrite Hsk.
        unfold known_by in Hk. destruct (o_server_key o) as [[kn ke]|]; [|discriminate]. cbn in Hk. injection Hk as -> ->.
        rewrite (encryption_fails t nonce n e s1 d Hno Hne Hu). reflexivity. }
      destruct sw; cbn [continue_auth]; rewrite iob; unfold on_stream at 1; rewrite E1, Hp;
        cbn [first_is Z.eqb Pos.eqb andb second_is]; exact F.
    - destruct P as (s1 & E1 & s2 & E2 & s3 & E3 & ->). exists d.
      assert (F : full_auth t pr secure o (s1, d) = (Err (EProtocol (PSerialize (SEncryption er))), (s3, d))).
      { rewrite Hs. unfold full_auth. cbv zeta. rewrite iob, iob. unfold get_server_key. rewrite Hsk.
        unfold known_by in Hk. destruct (o_server_key o) as [|]; [discriminate|].
        rewrite iob. unfold on_stream at 1. rewrite E2. rewrite iob. unfold on_stream at 1. rewrite E3.
        cbn [first_is Z.eqb Pos.eqb tl]. rewrite iob. unfold iores at 1.
        rewrite (no_key w ltac:(apply Ht in E3; now inversion E3) Hc Hl). subst er. reflexivity. }
      destruct sw; cbn [continue_auth]; rewrite iob; unfold on_stream at 1; rewrite E1, Hp;
        cbn [first_is Z.eqb Pos.eqb andb second_is]; exact F.
    - destruct P as (s1 & E1 & s2 & E2 & s3 & E3 & ->). exists (with_key d (mkKey n e)).
      assert (F : full_auth t pr secure o (s1, d) = (Err (EProtocol (PSerialize (SEncryption er))), (s3, with_key d (mkKey n e)))).
      { rewrite Hs. unfold full_auth. cbv zeta. rewrite iob, iob. unfold get_server_key. rewrite Hsk.
        unfold known_by in Hk. destruct (o_server_key o) as [|]; [discriminate|].
        rewrite iob. unfold on_stream at 1. rewrite E2. rewrite iob. unfold on_stream at 1. rewrite E3.
        cbn [first_is Z.eqb Pos.eqb tl]. rewrite iob. unfold iores at 1.
        rewrite (proj2 (C41_accepted_files n e w ltac:(apply Ht in E3; now inversion E3)) Hw). cbn [of_crypt rmap_err].
        rewrite (encryption_fails t nonce n e s3 (with_key d (mkKey n e)) Hno Hne Hu). reflexivity. }
      destruct sw; cbn [continue_auth]; rewrite iob; unfold on_stream at 1; rewrite E1, Hp;
        cbn [first_is Z.eqb Pos.eqb andb second_is]; exact F.
    - destruct P as (s1 & E1 & s2 & E2 & HP).
      destruct (IH (switched d q nonce')) with (S := S) (t := t) (s := s2) (s' := s') as (d' & R); auto.
      { unfold current_plugin. cbn. destruct Ha as ([-> | ->] & _); reflexivity. }
      exists d'. destruct (token_out pr o q nonce' H1 H2 Ha) as (x & G & T & _).
      cbn [continue_auth]. rewrite iob; unfold on_stream at 1; rewrite E1.
      assert (Ep : exists r, pkt = 254 :: r) by (destruct Hr as [-> | (_ & ->)]; eexists; reflexivity). destruct Ep as (r & Ep).
      assert (Rd : read_auth_switch pkt = Ok (q, nonce')) by (apply (switch_exact q pkt nonce' r Ep); eauto).
      rewrite Hsw. rewrite Ep. cbn [first_is]. change (254 =? 0) with false. change (254 =? 1) with false. change (254 =? 254) with true.
      rewrite andb_false_r. cbn [andb negb]. rewrite <- Ep.
      rewrite iob. unfold iores at 1. rewrite Rd. cbn [of_protocol rmap_err].
      rewrite iob. rewrite Hsw. cbn [negb]. rewrite iob. unfold iores at 1. rewrite G. rewrite iob. unfold on_stream at 1.
      rewrite T, E2. cbn [continue_auth] in R. exact R.
  Qed.
End Unusable_runs.
