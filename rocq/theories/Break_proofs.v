(** Lemmas for C114: during which exchanges logging in panics. *)
From Coq Require Import String ZArith List Bool Lia.
From Verif Require Import Base BaseFacts Types Utf8 ParseBuf BufMut Spec_Wire ParseBuf_proofs Conversion Conversion_proofs
  Packets Spec_Packets Packets_proofs Scramble Crypt Spec_Crypt Crypt_proofs Handshake Spec_Handshake Handshake_proofs
  Framing Framing_proofs Auth Spec_Auth Auth_proofs ValueText Spec_Text ValueText_proofs Rows Rows_proofs
  StmtPackets Conn Spec_Conn Conn_proofs Spec_Connect Greeting_proofs Properties_Rows Properties_Crypt Connect_proofs Spec_Accept
  Accept_proofs Spec_Break.
Import ListNotations.
Open Scope Z_scope.
Open Scope io_scope.

(** The transport itself does not panic. *)
Definition steady {S} (t : transport S) : Prop :=
  (forall s, fst (t_read t s) <> Panic) /\ (forall b s, fst (t_write t b s) <> Panic).

Lemma mask_empty : forall pass, mask_password [] (pass ++ [0]) = Panic.
Proof. intros [|b pass]; reflexivity. Qed.

Lemma gen_data_np : forall pr p pass nonce o, gen_data pr p pass nonce o <> Panic.
Proof.
  intros pr p pass nonce o. unfold gen_data. cbv zeta. destruct (o_auth_plugin o) as [f|].
  - destruct (auth_plugin_eqb p f); [|discriminate]. destruct p; [destruct (o_allow_cleartext o)| |]; discriminate.
  - destruct p; [destruct (o_allow_cleartext o)| |]; discriminate.
Qed.

Lemma from_bytes_np : forall b, plugin_from_bytes b <> Panic.
Proof.
  intros b. unfold plugin_from_bytes. cbv zeta.
  destruct (list_eqb _ _); [discriminate|]. destruct (list_eqb _ _); [discriminate|]. destruct (list_eqb _ _); discriminate.
Qed.

Lemma read_switch_np : forall r, read_auth_switch (254 :: r) <> Panic.
Proof.
  intros r. unfold read_auth_switch.
  rewrite (pbind_ok _ _ _ tt r) by (apply (skip_app 1 [254]); reflexivity).
  unfold plugin_p. unfold pbind.
  assert (E : exists w r', eat_null_slice r = (Ok w, r')).
  { destruct (in_dec Z.eq_dec 0 r) as [I|I].
    - destruct (split_nul r I) as (w & r' & -> & Hw).
      pose proof (eat_null_slice_general w r' [] Hw) as E. rewrite app_nil_r in E.
      change (w ++ [0] ++ r') with (w ++ 0 :: r'). eauto.
    - unfold eat_null_slice. rewrite position_none by exact I. cbv zeta. unfold pbind, eat.
      rewrite (proj2 (Z.ltb_ge _ _) (Z.le_refl _)). unfold pret. eauto. }
  destruct E as (w & r' & ->). unfold plift, eat_all, pret. pose proof (from_bytes_np w).
  destruct (plugin_from_bytes w); cbn [fst]; [discriminate | discriminate | contradiction].
Qed.

Lemma err_or_unexpected_np : forall p caps, err_or_unexpected p caps <> Panic.
Proof.
  intros p caps. unfold err_or_unexpected. pose proof (read_err_np p caps).
  destruct (read_err p caps); [discriminate | discriminate | contradiction].
Qed.

Lemma server_error_err : forall A p caps, exists e, @server_error A p caps = Err e.
Proof.
  intros A p caps. unfold server_error. pose proof (read_err_np p caps).
  destruct (read_err p caps); [eexists; reflexivity | eexists; reflexivity | contradiction].
Qed.

Lemma server_error_np : forall A p caps, @server_error A p caps <> Panic.
Proof.
  intros A p caps. unfold server_error. pose proof (read_err_np p caps).
  destruct (read_err p caps); [discriminate | discriminate | contradiction].
Qed.

(** ** Breaking exchanges panic *)

Section Runs.
  Context (pr : primitives) (secure : bool) (o : conn_options).
  Hypothesis H1 : hash_fun 20 (p_sha1 pr).
  Hypothesis H2 : hash_fun 32 (p_sha256 pr).

  Let breaks (n e : Z) (m : list Z) : Prop := p_encrypt pr (mkKey n e) m = Panic.
  Let bad := breaking (p_sha1 pr) (p_sha256 pr) breaks secure (allowed_by o) (utf8_encode (o_password o)) (known_by o).

  Lemma encryption_panics : forall {S} (t : transport S) nonce n e (s : S) d, d_nonce d = nonce ->
    unencryptable breaks (utf8_encode (o_password o)) nonce n e ->
    (fun '(s, d) =>
       (masked <- iores (of_crypt (mask_password (d_nonce d) (utf8_encode (o_password o) ++ [0]))) ;;
        encrypted <- iores (of_crypt (p_encrypt pr (mkKey n e) masked)) ;;
        on_stream (t_write t encrypted)) (s, d)) (s, d) = (Panic, (s, d)).
  Proof.
    intros S t nonce n e s d Hn [He | (He & Hb)]; rewrite Hn.
    - subst nonce. rewrite He. rewrite iob. unfold iores at 1. rewrite mask_empty. reflexivity.
    - rewrite iob. unfold iores at 1. rewrite mask_password_xor by assumption. cbn [of_crypt rmap_err].
      rewrite iob. unfold iores at 1. rewrite Hb. reflexivity.
  Qed.

  Lemma breaking_runs : forall p nonce sw ev, bad p nonce sw ev ->
    forall d, current_plugin o d = p -> d_nonce d = nonce -> d_server_key d = o_server_key o -> d_auth_switched d = negb sw ->
    forall S (t : transport S) s s', reads_octets t -> plays t ev s s' ->
    exists d', continue_auth (if sw then 2 else 1) t pr secure o (s, d) = (Panic, (s', d')).
  Proof.
    intros p nonce sw ev HL.
    induction HL as [nonce sw r n e Hs Hk Hu | nonce sw r w Hs Hk Hc | nonce sw r n e w Hs Hk Hw Hu
      | p nonce q data nonce' pkt ev Ha Hr Hn HL IH]; intros d Hp Hno Hsk Hsw S t s s' Ht P.
    - destruct P as (s1 & E1 & ->). exists d.
      assert (F : full_auth t pr secure o (s1, d) = (Panic, (s1, d))).
      { rewrite Hs. unfold full_auth. cbv zeta. rewrite iob, iob. unfold get_server_key. rewrite Hsk.
        unfold known_by in Hk. destruct (o_server_key o) as [[kn ke]|]; [|discriminate]. cbn in Hk. injection Hk as -> ->.
        rewrite (encryption_panics t nonce n e s1 d Hno Hu). reflexivity. }
      destruct sw; cbn [continue_auth]; rewrite iob; unfold on_stream at 1; rewrite E1, Hp;
        cbn [first_is Z.eqb Pos.eqb andb second_is]; exact F.
    - destruct P as (s1 & E1 & s2 & E2 & s3 & E3 & ->). exists d.
      assert (F : full_auth t pr secure o (s1, d) = (Panic, (s3, d))).
      { rewrite Hs. unfold full_auth. cbv zeta. rewrite iob, iob. unfold get_server_key. rewrite Hsk.
        unfold known_by in Hk. destruct (o_server_key o) as [|]; [discriminate|].
        rewrite iob. unfold on_stream at 1. rewrite E2. rewrite iob. unfold on_stream at 1. rewrite E3.
        cbn [first_is Z.eqb Pos.eqb tl]. rewrite iob. unfold iores at 1.
        rewrite (proj2 (C41_panics w ltac:(apply Ht in E3; now inversion E3)) Hc). reflexivity. }
      destruct sw; cbn [continue_auth]; rewrite iob; unfold on_stream at 1; rewrite E1, Hp;
        cbn [first_is Z.eqb Pos.eqb andb second_is]; exact F.
    - destruct P as (s1 & E1 & s2 & E2 & s3 & E3 & ->). exists (with_key d (mkKey n e)).
      assert (F : full_auth t pr secure o (s1, d) = (Panic, (s3, with_key d (mkKey n e)))).
      { rewrite Hs. unfold full_auth. cbv zeta. rewrite iob, iob. unfold get_server_key. rewrite Hsk.
        unfold known_by in Hk. destruct (o_server_key o) as [|]; [discriminate|].
        rewrite iob. unfold on_stream at 1. rewrite E2. rewrite iob. unfold on_stream at 1. rewrite E3.
        cbn [first_is Z.eqb Pos.eqb tl]. rewrite iob. unfold iores at 1.
        rewrite (proj2 (C41_accepted_files n e w ltac:(apply Ht in E3; now inversion E3)) Hw). cbn [of_crypt rmap_err].
        rewrite (encryption_panics t nonce n e s3 (with_key d (mkKey n e)) Hno Hu). reflexivity. }
      destruct sw; cbn [continue_auth]; rewrite iob; unfold on_stream at 1; rewrite E1, Hp;
        cbn [first_is Z.eqb Pos.eqb andb second_is]; exact F.
    - destruct P as (s1 & E1 & s2 & E2 & HP).
      destruct (IH (switched d q nonce')) with (S := S) (t := t) (s := s2) (s' := s') as (d' & R); auto.
      { unfold current_plugin. cbn. destruct Ha as ([-> | ->] & _); reflexivity. }
      exists d'. destruct (token_out pr o q nonce' H1 H2 Ha) as (x & G & T & _).
      cbn [continue_auth]. rewrite iob; unfold on_stream at 1; rewrite E1.
      assert (Ep : exists r, pkt = 254 :: r) by (destruct Hr as [-> | (_ & ->)]; eexists; reflexivity). destruct Ep as (r & Ep).
      assert (Rd : read_auth_switch pkt = Ok (q, nonce')) by (apply (switch_exact q pkt nonce' r Ep); eauto).
      rewrite Hsw. rewrite Ep. cbn [first_is]. change (254 =? 0) with false. change (254 =? 1) with false. change (254 =? 254) with true.
      rewrite andb_false_r. cbn [andb negb]. rewrite <- Ep.
      rewrite iob. unfold iores at 1. rewrite Rd. cbn [of_protocol rmap_err].
      rewrite iob. rewrite Hsw. cbn [negb]. rewrite iob. unfold iores at 1. rewrite G. rewrite iob. unfold on_stream at 1.
      rewrite T, E2. cbn [continue_auth] in R. exact R.
  Qed.
End Runs.

(** ** Nothing else does *)

Section Only.
  Context {St : Type} (t : transport St) (pr : primitives) (secure : bool) (o : conn_options).
  Hypothesis Ht : reads_octets t.
  Hypothesis Hst : steady t.
  Hypothesis H1 : hash_fun 20 (p_sha1 pr).
  Hypothesis H2 : hash_fun 32 (p_sha256 pr).

  Let breaks (n e : Z) (m : list Z) : Prop := p_encrypt pr (mkKey n e) m = Panic.
  Let bad := breaking (p_sha1 pr) (p_sha256 pr) breaks secure (allowed_by o) (utf8_encode (o_password o)) (known_by o).

  Lemma read_steady : forall s s', t_read t s <> (Panic, s').
  Proof. intros s s' E. apply (proj1 Hst s). rewrite E. reflexivity. Qed.

  Lemma write_steady : forall b s s', t_write t b s <> (Panic, s').
  Proof. intros b s s' E. apply (proj2 Hst b s). rewrite E. reflexivity. Qed.

  Lemma answer_np : forall d s s' d',
    (res <- on_stream (t_read t) ;;
     fun '(s, d) =>
       if first_is 0 res then (Ok tt, (s, d))
       else if first_is 255 res then (server_error res (d_capabilities d), (s, d))
       else (Err (EProtocol (PUnexpectedPacket res)), (s, d))) (s, d) <> (Panic, (s', d')).
  Proof.
    intros d s s' d' H. rewrite iob in H. unfold on_stream in H. destruct (t_read t s) as [[q|e|] s1] eqn:E; try discriminate.
    - destruct (first_is 0 q); [discriminate|]. destruct (first_is 255 q); [|discriminate].
      pose proof (server_error_np unit q (d_capabilities d)) as N. destruct (server_error q (d_capabilities d)); [discriminate|discriminate|].
      now apply N.
    - now apply read_steady in E.
  Qed.

  (** The part after the key is there. *)
  Lemma encryption_only : forall n e s d s' d',
    (fun '(s, d) =>
       (masked <- iores (of_crypt (mask_password (d_nonce d) (utf8_encode (o_password o) ++ [0]))) ;;
        encrypted <- iores (of_crypt (p_encrypt pr (mkKey n e) masked)) ;;
        on_stream (t_write t encrypted)) (s, d)) (s, d) = (Panic, (s', d')) ->
    s' = s /\ unencryptable breaks (utf8_encode (o_password o)) (d_nonce d) n e.
  Proof.
    intros n e s d s' d' H. cbv beta iota in H. rewrite iob in H. unfold iores at 1 in H. destruct (d_nonce d) as [|n0 nonce] eqn:Hn.
    - rewrite mask_empty in H. injection H as <- _. split; [reflexivity | now left].
    - rewrite mask_password_xor in H by discriminate. cbn [of_crypt rmap_err] in H. rewrite iob in H. unfold iores at 1 in H.
      destruct (p_encrypt pr (mkKey n e) _) as [c|er|] eqn:Ec; try discriminate; cbn [of_crypt rmap_err] in H.
      + exfalso. unfold on_stream in H. destruct (t_write t c s) as [[[]|er|] s1] eqn:E; try discriminate. now apply write_steady in E.
      + injection H as <- _. split; [reflexivity|]. right. split; [discriminate | exact Ec].
  Qed.

  Lemma full_break : forall d s s' d', d_server_key d = o_server_key o ->
    full_auth t pr secure o (s, d) = (Panic, (s', d')) ->
    exists ev, plays t ev s s' /\ forall r sw, bad PSha2 (d_nonce d) sw (Received (1 :: 4 :: r) :: ev).
  Proof.
    intros d s s' d' Hk H. unfold full_auth in H. cbv zeta in H. rewrite iob in H. unfold bad. destruct secure eqn:Hs.
    - exfalso. unfold on_stream at 1 in H. destruct (t_write t _ s) as [[[]|e|] s1] eqn:E; try discriminate.
      + now apply answer_np in H.
      + now apply write_steady in E.
    - rewrite iob in H. unfold get_server_key in H. rewrite Hk in H. destruct (o_server_key o) as [[n e]|] eqn:Ok.
      + match type of H with (let (_, _) := ?m in _) = _ => destruct m as [[u|er|] [s1 d1]] eqn:Em end; try discriminate.
        * now apply answer_np in H.
        * injection H as <- <-. apply encryption_only in Em. destruct Em as (-> & U). exists []. split; [reflexivity|].
          intros r sw. eapply br_known; eauto. unfold known_by. rewrite Ok. reflexivity.
      + rewrite iob in H. unfold on_stream at 1 in H. destruct (t_write t [2] s) as [[[]|er|] s1] eqn:E; try discriminate.
        2:{ exfalso. now apply write_steady in E. }
        rewrite iob in H. unfold on_stream at 1 in H. destruct (t_read t s1) as [[k|er|] s2] eqn:E1; try discriminate.
        2:{ exfalso. now apply read_steady in E1. }
        destruct k as [|k0 k]; [discriminate|]. cbn [first_is tl] in H.
        destruct (Z.eqb_spec k0 1) as [->|].
        2:{ exfalso. destruct (k0 =? 255); [|discriminate]. unfold iores in H.
            match type of H with context [@server_error ?A ?x ?y] => destruct (server_error_err A x y) as (er & N) end.
            rewrite N in H. discriminate. }
        assert (Ow : octets k) by (apply Ht in E1; now inversion E1).
        rewrite iob in H. unfold iores at 1 in H. destruct (try_from_pem k) as [[n e]|er|] eqn:Ek; try discriminate; cbn [of_crypt rmap_err] in H.
        * apply C41_accepted_files in Ek; [|exact Ow].
          match type of H with (let (_, _) := ?m in _) = _ => destruct m as [[u|er|] [s3 d3]] eqn:Em end; try discriminate.
          { now apply answer_np in H. }
          injection H as <- <-. apply encryption_only in Em. destruct Em as (-> & U). exists [Sent [2]; Received (1 :: k)].
          split; [cbn [plays]; eauto 8|]. intros r sw. eapply br_asked; eauto. unfold known_by. rewrite Ok. reflexivity.
        * injection H as <- <-. apply C41_panics in Ek; [|exact Ow]. exists [Sent [2]; Received (1 :: k)].
          split; [cbn [plays]; eauto 8|]. intros r sw. eapply br_cut; eauto. unfold known_by. rewrite Ok. reflexivity.
  Qed.

  Lemma continue_break : forall sw d s s' d', d_server_key d = o_server_key o -> d_auth_switched d = negb sw ->
    continue_auth (if sw then 2 else 1) t pr secure o (s, d) = (Panic, (s', d')) ->
    exists ev, plays t ev s s' /\ bad (current_plugin o d) (d_nonce d) sw ev.
  Proof.
    assert (Step : forall (fuel : nat) sw d s s' d', d_server_key d = o_server_key o -> d_auth_switched d = negb sw ->
      (forall d s s' d', d_server_key d = o_server_key o -> d_auth_switched d = true ->
         continue_auth fuel t pr secure o (s, d) = (Panic, (s', d')) -> sw = true ->
         exists ev, plays t ev s s' /\ bad (current_plugin o d) (d_nonce d) false ev) ->
      continue_auth (S fuel) t pr secure o (s, d) = (Panic, (s', d')) ->
      exists ev, plays t ev s s' /\ bad (current_plugin o d) (d_nonce d) sw ev).
    { intros fuel sw d s s' d' Hk Hsw IH H. cbn [continue_auth] in H. rewrite iob in H. unfold on_stream at 1 in H.
      assert (NE : forall p (x : St * conn_data), iores (err_or_unexpected p (d_capabilities d)) x <> (Panic, (s', d'))).
      { intros p x K. unfold iores in K. pose proof (err_or_unexpected_np p (d_capabilities d)) as N. apply N. congruence. }
      destruct (t_read t s) as [[p|e|] s1] eqn:E; try discriminate.
      2:{ exfalso. now apply read_steady in E. }
      destruct p as [|x p].
      { exfalso. cbn [first_is] in H. rewrite andb_false_r in H. cbn [andb] in H. now apply NE in H. }
      cbn [first_is] in H. destruct (Z.eqb_spec x 0) as [->|N0]; [discriminate|].
      destruct (match current_plugin o d with PSha2 => true | _ => false end && (x =? 1)) eqn:F1.
      { apply andb_true_iff in F1. destruct F1 as (Fp & Fx). apply Z.eqb_eq in Fx. subst x.
        assert (Hp : current_plugin o d = PSha2) by (destruct (current_plugin o d); easy). rewrite Hp.
        destruct p as [|y p]; [discriminate|]. cbn [second_is] in H. destruct (Z.eqb_spec y 3) as [->|N3].
        - exfalso. rewrite iob in H. unfold on_stream in H. destruct (t_read t s1) as [[q|e|] s2] eqn:E2; try discriminate.
          now apply read_steady in E2.
        - destruct (Z.eqb_spec y 4) as [->|N4]; [|discriminate].
          apply full_break in H; [|exact Hk]. destruct H as (ev & P & K).
          exists (Received (1 :: 4 :: p) :: ev). split; [cbn [plays]; eauto | apply K]. }
      destruct (Z.eqb_spec x 254) as [->|N254]; cbn [andb] in H.
      2:{ exfalso. now apply NE in H. }
      rewrite Hsw in H. rewrite negb_involutive in H. destruct sw.
      2:{ exfalso. now apply NE in H. }
      rewrite iob in H. unfold iores at 1 in H. destruct (read_auth_switch (254 :: p)) as [[q nonce]|e|] eqn:Er; try discriminate.
      2:{ exfalso. now apply read_switch_np in Er. }
      cbn [of_protocol rmap_err] in H. rewrite iob in H. rewrite Hsw in H. cbn [negb] in H. rewrite iob in H. unfold iores at 1 in H.
      destruct (gen_data pr q (utf8_encode (o_password o)) nonce o) as [x|e|] eqn:G; try discriminate.
      2:{ exfalso. now apply gen_data_np in G. }
      pose proof (gen_data_allowed _ _ _ _ _ _ G) as Ha.
      destruct (token_out pr o q nonce H1 H2 Ha) as (x' & G' & T & _). rewrite G in G'. injection G' as <-.
      rewrite iob in H. unfold on_stream at 1 in H. rewrite T in H.
      destruct (t_write t _ s1) as [[[]|e|] s2] eqn:E2; try discriminate.
      2:{ exfalso. now apply write_steady in E2. }
      apply IH in H; [|exact Hk | reflexivity | reflexivity]. destruct H as (ev & P & K).
      apply (switch_exact q (254 :: p) nonce p eq_refl) in Er. destruct Er as (data & L & N).
      exists (Received (254 :: p) :: Sent (token (p_sha1 pr) (p_sha256 pr) (utf8_encode (o_password o)) q nonce) :: ev).
      split; [cbn [plays]; eauto 8|].
      apply (br_switch _ _ _ _ _ _ _ _ _ q data nonce); auto.
      assert (C : current_plugin o (switched d q nonce) = q).
      { unfold current_plugin. destruct Ha as ([-> | ->] & _); reflexivity. }
      rewrite C in K. exact K. }
    assert (One : forall d s s' d', d_server_key d = o_server_key o -> d_auth_switched d = true ->
      continue_auth 1 t pr secure o (s, d) = (Panic, (s', d')) ->
      exists ev, plays t ev s s' /\ bad (current_plugin o d) (d_nonce d) false ev).
    { intros d s s' d' Hk Hsw H. apply (Step 0%nat false d s s' d'); auto. discriminate. }
    intros [|] d s s' d' Hk Hsw H; [|now apply (One d s s' d')].
    apply (Step 1%nat true d s s' d'); auto. intros. eapply One; eauto.
  Qed.
End Only.

(** ** When encrypting panics *)

Lemma mgf1_np : forall h seed len, mgf1 h seed len <> Panic.
Proof. intros h seed len. unfold mgf1. cbv zeta. destruct (_ <? _); [discriminate|]. destruct (_ <? _); discriminate. Qed.

Lemma pad_np : forall h seed data n, pad h seed data n <> Panic.
Proof.
  intros h seed data n. unfold pad. cbv zeta. destruct (_ <? _); [discriminate|].
  match goal with |- context [mgf1 ?a ?b ?c] => pose proof (mgf1_np a b c) as N; destruct (mgf1 a b c) as [m|e|] end; cbn [rbind];
    [|discriminate|contradiction].
  match goal with |- context [mgf1 ?a ?b ?c] => pose proof (mgf1_np a b c) as N'; destruct (mgf1 a b c) as [m'|e|] end; cbn [rbind];
    [discriminate|discriminate|contradiction].
Qed.

Lemma pad_room : forall h seed data n em, pad h seed data n = Ok em -> 44 + lenZ data <= n.
Proof.
  intros h seed data n em H. unfold pad in H. cbv zeta in H. unfold HASH_LEN in H.
  destruct (Z.ltb_spec n (1 + 20 + 20 + 2 + 1 + lenZ data)); [discriminate | lia].
Qed.

(** Encrypting panics only for a modulus with 8 * k + 1 bits, and only if the data fits. *)
Lemma encrypt_panics : forall sha1 seed n e data, encrypt_padded sha1 seed (mkKey n e) data = Panic ->
  exists k, 256 ^ k <= n < 2 * 256 ^ k /\ 44 + lenZ data <= k.
Proof.
  intros h seed n e data H. unfold encrypt_padded in H. cbn [pk_exponent pk_modulus] in H.
  set (k := num_octets (mkKey n e)) in *. destruct (pad h seed data k) as [em|er|] eqn:Ep; cbn [rbind] in H; try discriminate.
  2:{ now apply pad_np in Ep. }
  apply pad_room in Ep. pose proof (lenZ_nonneg _ data) as Hl. exists k. split; [|exact Ep].
  set (c := be_val em ^ e mod n) in *. cbv zeta in H.
  destruct (Z.ltb_spec (k - lenZ (to_bytes_be c)) 0) as [L|]; [|discriminate]. clear H.
  assert (Hp : 0 < n).
  { destruct (Z_lt_le_dec 0 n) as [|Le]; [assumption|]. exfalso. unfold k, num_octets, bits in Ep. cbn [pk_modulus] in Ep.
    apply Z.leb_le in Le. rewrite Le in Ep. change (Z.shiftr (0 + 6) 3) with 0 in Ep. lia. }
  assert (Hc : 0 <= c < n) by (apply Z.mod_pos_bound; lia).
  destruct (Z_lt_le_dec c (256 ^ k)) as [Lt|Ge].
  { exfalso. pose proof (to_bytes_be_fill (Z.to_nat k) c) as F. rewrite Z2Nat.id in F by lia.
    destruct F as (F & _); lia. }
  split; [lia|].
  replace 256 with (2 ^ 8) by reflexivity. rewrite <- Z.pow_mul_r by lia. rewrite <- Z.pow_succ_r by lia.
  apply Z.log2_lt_pow2; [lia|]. unfold k, num_octets, bits. cbn [pk_modulus].
  destruct (Z.leb_spec n 0); [lia|]. rewrite Z.shiftr_div_pow2 by lia. change (2 ^ 3) with 8.
  pose proof (Z.log2_nonneg n).
  enough (Z.log2 n + 1 + 6 < 8 * ((Z.log2 n + 1 + 6) / 8) + 8) by lia.
  lia.
Qed.
