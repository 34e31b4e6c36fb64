(** Lemmas for C124. *)
From Coq Require Import String ZArith List Bool Lia.
From Verif Require Import Base BaseFacts Types Utf8 ParseBuf BufMut Spec_Wire Packets Spec_Packets Scramble Crypt Spec_Crypt Handshake
  Spec_Handshake Framing Auth Spec_Auth Auth_proofs Conn Spec_Conn Conn_proofs Spec_Connect Connect_proofs Spec_Accept Accept_proofs
  Spec_Data.
Import ListNotations.
Open Scope Z_scope.
Open Scope io_scope.

Section Plugin.
  Context {St : Type} (t : transport St) (pr : primitives) (secure : bool) (o : conn_options).

  Lemma key_plugin : forall d s r s' d', get_server_key t (s, d) = (r, (s', d')) -> d_auth_plugin d' = d_auth_plugin d.
  Proof.
    intros d s r s' d' K. unfold get_server_key in K. destruct (d_server_key d); [injection K as _ _ <-; reflexivity|].
    rewrite iob in K. unfold on_stream at 1 in K. destruct (t_write t [2] s) as [[u|e|] s2]; [|injection K as _ _ <-; reflexivity..].
    rewrite iob in K. unfold on_stream at 1 in K. destruct (t_read t s2) as [[k|e|] s3]; [|injection K as _ _ <-; reflexivity..].
    destruct (first_is 1 k).
    - rewrite iob in K. unfold iores at 1 in K. destruct (of_crypt _); injection K as _ _ <-; reflexivity.
    - destruct (first_is 255 k); injection K as _ _ <-; reflexivity.
  Qed.

  Lemma full_plugin : forall d s r s' d', full_auth t pr secure o (s, d) = (r, (s', d')) -> d_auth_plugin d' = d_auth_plugin d.
  Proof.
    intros d s r s' d' H. unfold full_auth in H. cbv zeta in H. rewrite iob in H.
    assert (A : forall d s r s' d',
      (res <- on_stream (t_read t) ;;
       fun '(s, d) =>
         if first_is 0 res then (Ok tt, (s, d))
         else if first_is 255 res then (server_error res (d_capabilities d), (s, d))
         else (Err (EProtocol (PUnexpectedPacket res)), (s, d))) (s, d) = (r, (s', d')) -> d_auth_plugin d' = d_auth_plugin d).
    { clear. intros d s r s' d' H. rewrite iob in H. unfold on_stream in H.
      destruct (t_read t s) as [[q|e|] s1]; [|injection H as _ _ <-; reflexivity..].
      destruct (first_is 0 q); [|destruct (first_is 255 q)]; injection H as _ _ <-; reflexivity. }
    destruct secure.
    - unfold on_stream at 1 in H. destruct (t_write t _ s) as [[u|e|] s1]; [|injection H as _ _ <-; reflexivity..]. now apply A in H.
    - rewrite iob in H. destruct (get_server_key t (s, d)) as [[k|e|] [s1 d1]] eqn:K; apply key_plugin in K;
        [|injection H as _ _ <-; exact K..].
      rewrite iob in H. unfold iores at 1 in H. destruct (of_crypt _) as [m|e|]; [|injection H as _ _ <-; exact K..].
      rewrite iob in H. unfold iores at 1 in H. destruct (of_crypt _) as [c|e|]; [|injection H as _ _ <-; exact K..].
      unfold on_stream at 1 in H. destruct (t_write t c s1) as [[u|e|] s2]; [|injection H as _ _ <-; exact K..].
      apply A in H. congruence.
  Qed.

  Lemma continue_plugin : forall fuel d s u s' d', continue_auth (S fuel) t pr secure o (s, d) = (Ok u, (s', d')) ->
    exists p s1, t_read t s = (Ok p, s1) /\
    ((exists x r, p = x :: r /\ x <> 254 /\ d_auth_plugin d' = d_auth_plugin d) \/
     (exists q nonce r d1 s2, p = 254 :: r /\ read_auth_switch p = Ok (q, nonce) /\ d_auth_switched d = false /\
        d1 = switched d q nonce /\ continue_auth fuel t pr secure o (s2, d1) = (Ok u, (s', d')))).
  Proof.
    intros fuel d s u s' d' H. cbn [continue_auth] in H. rewrite iob in H. unfold on_stream at 1 in H.
    destruct (t_read t s) as [[p|e|] s1] eqn:E; try discriminate. exists p, s1. split; [reflexivity|].
    destruct p as [|x p].
    { exfalso. cbn [first_is] in H. rewrite andb_false_r in H. cbn [andb] in H. unfold iores, err_or_unexpected in H.
      destruct (read_err [] (d_capabilities d)); discriminate. }
    cbn [first_is] in H. destruct (Z.eqb_spec x 0) as [->|N0].
    { injection H as _ _ <-. left. exists 0, p. splits; [reflexivity | lia | reflexivity]. }
    destruct (match current_plugin o d with PSha2 => true | _ => false end && (x =? 1)) eqn:F1.
    { apply andb_true_iff in F1. destruct F1 as (_ & Fx). apply Z.eqb_eq in Fx. subst x. left. exists 1, p.
      splits; [reflexivity | lia |]. destruct (second_is 3 (1 :: p)).
      - rewrite iob in H. unfold on_stream in H. destruct (t_read t s1) as [[q|e|] s2]; try discriminate. now injection H as _ _ <-.
      - destruct (second_is 4 (1 :: p)); [|discriminate]. now apply full_plugin in H. }
    destruct (Z.eqb_spec x 254) as [->|N254]; cbn [andb] in H.
    2:{ exfalso. unfold iores, err_or_unexpected in H. destruct (read_err (x :: p) (d_capabilities d)); discriminate. }
    destruct (d_auth_switched d) eqn:Hsw; cbn [negb] in H.
    { exfalso. unfold iores, err_or_unexpected in H. destruct (read_err (254 :: p) (d_capabilities d)); discriminate. }
    rewrite iob in H. unfold iores at 1 in H. destruct (read_auth_switch (254 :: p)) as [[q nonce]|e|] eqn:Er; try discriminate.
    cbn [of_protocol rmap_err] in H. rewrite iob in H. rewrite Hsw in H. rewrite iob in H. unfold iores at 1 in H.
    destruct (gen_data pr q (utf8_encode (o_password o)) nonce o) as [x|e|]; try discriminate.
    rewrite iob in H. unfold on_stream at 1 in H. destruct (t_write t _ s1) as [[[]|e|] s2]; try discriminate.
    right. exists q, nonce, p, (switched d q nonce), s2. splits; auto.
  Qed.

  Lemma plugin_told : forall d s u s' d', d_auth_switched d = false -> continue_auth 2 t pr secure o (s, d) = (Ok u, (s', d')) ->
    forall ev s0, plays t ev s s0 -> ev <> [] -> (forall p r, ev <> Sent p :: r) ->
    authenticated_by (d_auth_plugin d) ev (d_auth_plugin d').
  Proof.
    intros d s u s' d' Hs H ev s0 P NE NS. apply continue_plugin in H. destruct H as (p & s1 & E & H).
    destruct ev as [|[q|q] ev]; [contradiction | | exfalso; now apply (NS q ev)]. destruct P as (s2 & E2 & _).
    rewrite E in E2. injection E2 as <- _. destruct H as [(x & r & -> & Hx & ->) | (q & nonce & r & d1 & s3 & -> & Er & _ & -> & H)].
    - now apply by_first.
    - apply (switch_exact q (254 :: r) nonce r eq_refl) in Er. destruct Er as (data & L & _).
      apply continue_plugin in H. destruct H as (p & s4 & E4 & [(x & r' & _ & _ & Q) | (q' & n' & r' & d2 & s5 & _ & _ & F & _)]).
      + rewrite Q. cbn. eapply by_switch. exact L.
      + discriminate F.
  Qed.
End Plugin.
