(** Lemmas about the server's public key (C92). *)
From Coq Require Import String ZArith List Bool Lia.
From Verif Require Import Base BaseFacts Types Utf8 ParseBuf Packets Scramble Crypt Handshake Framing Auth
  Spec_Wire Spec_Crypt Spec_Auth Spec_Key Crypt_proofs Pem_proofs Auth_proofs.
Import ListNotations.
Open Scope Z_scope.
Open Scope io_scope.

Section Keyed.
  Context (pr : primitives) (secure : bool) (o : conn_options).

  Definition pass : bytes := utf8_encode (o_password o).

  Definition enc (k : public_key) (p : bytes) : Prop :=
    exists nonce m, mask_password nonce (pass ++ [0]) = Ok m /\ p_encrypt pr k m = Ok p.

  (** Nothing, the packet, or the packet and an answer. *)
  Definition up_to (P : bytes -> Prop) (ev : list event) : Prop :=
    ev = [] \/ exists p, P p /\ (ev = [Sent p] \/ exists q, ev = [Sent p; Received q]).

  Definition full_keyed (known : option public_key) (ev : list event) (final : option public_key) (r : res error unit) : Prop :=
    if secure then final = known /\ up_to (fun p => p = pass ++ [0]) ev
    else match known with
         | Some k => final = known /\ up_to (enc k) ev
         | None =>
           (final = None /\ failed r /\ (ev = [Sent [2]] \/ exists q, ev = [Sent [2]; Received q])) \/
           exists pem k ev', try_from_pem pem = Ok k /\ ev = Sent [2] :: Received (1 :: pem) :: ev' /\
             up_to (enc k) ev' /\ final = Some k
         end.

  Definition data_of (x : option auth_plugin_data) : bytes := match x with Some y => plugin_data_serialize y | None => [] end.

  Inductive auth_keyed (known : option public_key) : list event -> option public_key -> res error unit -> Prop :=
  | ak_reads : forall ev r, sent ev = [] -> auth_keyed known ev known r
  | ak_full : forall q ev final r, full_keyed known ev final r -> auth_keyed known (Received q :: ev) final r
  | ak_switch : forall q pl nonce x ev final r, gen_data pr pl pass nonce o = Ok x -> auth_keyed known ev final r ->
      auth_keyed known (Received q :: Sent (data_of x) :: ev) final r.

  Definition keyed {S} (Q : list event -> option public_key -> res error unit -> Prop)
    (x : res error unit * ((S * list event) * conn_data)) (tr : list event) : Prop :=
    exists ev, snd (fst (snd x)) = tr ++ ev /\ Q ev (d_server_key (snd (snd x))) (fst x).

  Lemma keyed_end : forall S (Q : list event -> option public_key -> res error unit -> Prop) r (s : S) tr d ev tr',
    tr' = tr ++ ev -> Q ev (d_server_key d) r -> keyed Q (r, (s, tr', d)) tr.
  Proof. intros. exists ev. split; assumption. Qed.

  Lemma full_auth_keyed : forall S (t : transport S) s tr d,
    keyed (full_keyed (d_server_key d)) (full_auth (traced t) pr secure o (s, tr, d)) tr.
  Proof.
    intros S t s tr d. unfold full_auth. cbv zeta. fold pass.
    (* what follows the password packet *)
    assert (Last : forall s1 pre p d1 (Q : list event -> option public_key -> res error unit -> Prop),
      (forall r, Q (pre ++ [Sent p]) (d_server_key d1) r) -> (forall q r, Q (pre ++ [Sent p; Received q]) (d_server_key d1) r) ->
      keyed Q
        ((res <- on_stream (t_read (traced t)) ;;
          (fun '(s, d) =>
            if first_is 0 res then (Ok tt, (s, d))
            else if first_is 255 res then (server_error res (d_capabilities d), (s, d))
            else (Err (EProtocol (PUnexpectedPacket res)), (s, d)))) (s1, tr ++ pre ++ [Sent p], d1)) tr).
    { intros s1 pre p d1 Q H1 H2. unfold iobind, on_stream at 1, traced at 1. cbn [t_read].
      destruct (t_read t s1) as [[q|e|] s2].
      - assert (E : (tr ++ pre ++ [Sent p]) ++ [Received q] = tr ++ (pre ++ [Sent p; Received q])).
        { rewrite <- !app_assoc. reflexivity. }
        destruct (first_is 0 q); [|destruct (first_is 255 q)]; (eapply keyed_end; [exact E|apply H2]).
      - eapply keyed_end; [reflexivity|apply H1].
      - eapply keyed_end; [reflexivity|apply H1]. }
    unfold full_keyed. destruct secure.
    - unfold iobind at 1, on_stream at 1, traced at 1. cbn [t_write].
      assert (F1 : d_server_key d = d_server_key d /\ up_to (fun p => p = pass ++ [0]) ([] ++ [Sent (pass ++ [0])]))
        by (split; [reflexivity|]; right; eexists; split; [reflexivity|]; left; reflexivity).
      destruct (t_write t (pass ++ [0]) s) as [[u|e|] s1].
      + apply (Last s1 [] (pass ++ [0]) d); [intros _; exact F1|]. intros q r.
        split; [reflexivity|]. right. eexists. split; [reflexivity|]. right. eexists. reflexivity.
      + eapply keyed_end; [reflexivity|]. exact F1.
      + eapply keyed_end; [reflexivity|]. exact F1.
    - assert (Enc : forall s1 pre key d1 (Q : list event -> option public_key -> res error unit -> Prop),
        (forall ev r, up_to (enc key) ev -> Q (pre ++ ev) (d_server_key d1) r) ->
        keyed Q
          ((((fun '(s, d) =>
             (masked <- iores (of_crypt (mask_password (d_nonce d) (pass ++ [0]))) ;;
              encrypted <- iores (of_crypt (p_encrypt pr key masked)) ;;
              on_stream (t_write (traced t) encrypted)) (s, d)) ;;;
            res <- on_stream (t_read (traced t)) ;;
            (fun '(s, d) =>
              if first_is 0 res then (Ok tt, (s, d))
              else if first_is 255 res then (server_error res (d_capabilities d), (s, d))
              else (Err (EProtocol (PUnexpectedPacket res)), (s, d)))) (s1, tr ++ pre, d1))) tr).
      { intros s1 pre key d1 Q HQ. rewrite iob. cbn beta match. rewrite iob. unfold iores at 1.
        assert (Fail : forall r : res error unit, keyed Q (r, (s1, tr ++ pre, d1)) tr).
        { intros r. eapply keyed_end; [reflexivity|]. specialize (HQ [] r (or_introl eq_refl)). rewrite app_nil_r in HQ. exact HQ. }
        unfold of_crypt. destruct (mask_password (d_nonce d1) (pass ++ [0])) as [m|e|] eqn:Em; cbn [rmap_err]; try (apply Fail).
        rewrite iob. unfold iores at 1.
        destruct (p_encrypt pr key m) as [c|e|] eqn:Ec; cbn [rmap_err]; try (apply Fail).
        unfold on_stream at 1, traced at 1. cbn [t_write].
        assert (Ce : enc key c) by (exists (d_nonce d1), m; auto).
        assert (C1 : forall r, Q (pre ++ [Sent c]) (d_server_key d1) r) by (intros r; apply HQ; right; eauto).
        assert (C2 : forall q r, Q (pre ++ [Sent c; Received q]) (d_server_key d1) r) by (intros q r; apply HQ; right; eauto).
        destruct (t_write t c s1) as [[u|e|] s2].
        - rewrite <- app_assoc. apply (Last s2 pre c d1 Q C1 C2).
        - rewrite <- app_assoc. eapply keyed_end; [reflexivity|apply C1].
        - rewrite <- app_assoc. eapply keyed_end; [reflexivity|apply C1]. }
      rewrite iob, iob. unfold get_server_key at 1.
      destruct (d_server_key d) as [k|] eqn:Ek.
      + specialize (Enc s [] k d (fun ev f _ => f = Some k /\ up_to (enc k) ev)). rewrite app_nil_r, iob in Enc. apply Enc.
        intros ev r H. split; [exact Ek|exact H].
      + rewrite iob. unfold on_stream at 1, traced at 1. cbn [t_write].
        destruct (t_write t [2] s) as [[u|e|] s1].
        2,3: (eapply keyed_end; [reflexivity|]; left; split; [exact Ek|]; split; [auto with auth|]; left; reflexivity).
        rewrite iob. unfold on_stream at 1, traced at 1. cbn [t_read].
        destruct (t_read t s1) as [[p|e|] s2].
        2,3: (eapply keyed_end; [reflexivity|]; left; split; [exact Ek|]; split; [auto with auth|]; left; reflexivity).
        assert (E : (tr ++ [Sent [2]]) ++ [Received p] = tr ++ [Sent [2]; Received p]) by (rewrite <- app_assoc; reflexivity).
        rewrite E.
        match goal with |- keyed ?Q _ _ => assert (Fail : forall (r : res error unit), failed r -> keyed Q (r, (s2, tr ++ [Sent [2]; Received p], d)) tr) end.
        { intros r Hr. eapply keyed_end; [reflexivity|]. left. split; [exact Ek|]. split; [exact Hr|]. right. eexists. reflexivity. }
        destruct (first_is 1 p) eqn:Fp.
        * rewrite iob. unfold iores at 1. unfold of_crypt. destruct (try_from_pem (tl p)) as [k|e|] eqn:Et; cbn [rmap_err]; try (apply Fail; auto with auth).
          apply first_is_iff in Fp. destruct Fp as (r & ->). cbn [tl] in Et.
          match goal with |- keyed ?Q _ _ => specialize (Enc s2 [Sent [2]; Received (1 :: r)] k (with_key d k) Q) end.
          rewrite iob in Enc. apply Enc. intros ev r' H. right. exists r, k, ev. repeat split; assumption.
        * destruct (first_is 255 p); unfold iores; [|apply Fail; auto with auth].
          destruct (server_error p (d_capabilities d)) as [k|e|] eqn:Es; [|apply Fail; auto with auth|apply Fail; auto with auth].
          destruct (server_error_failed public_key p (d_capabilities d) k Es).
  Qed.

  Lemma continue_keyed : forall n S (t : transport S) s tr d,
    keyed (auth_keyed (d_server_key d)) (continue_auth n (traced t) pr secure o (s, tr, d)) tr.
  Proof.
    induction n as [|n IH]; intros S t s tr d; cbn [continue_auth].
    { eapply keyed_end; [symmetry; apply app_nil_r|]. apply ak_reads. reflexivity. }
    unfold iobind at 1, on_stream at 1, traced at 1. cbn [t_read].
    destruct (t_read t s) as [[q|e|] s1].
    2,3: (eapply keyed_end; [symmetry; apply app_nil_r|]; apply ak_reads; reflexivity).
    assert (One : forall r : res error unit,
      keyed (auth_keyed (d_server_key d)) (r, (s1, tr ++ [Received q], d)) tr).
    { intros r. eapply keyed_end; [reflexivity|]. apply ak_reads. reflexivity. }
    destruct (first_is 0 q); [(unfold ioret, iores; apply One)|].
    destruct ((match current_plugin o d with PSha2 => true | _ => false end) && first_is 1 q).
    { destruct (second_is 3 q).
      - unfold iobind, on_stream, traced. cbn [t_read].
        destruct (t_read t s1) as [[q2|e|] s2]; [|(unfold ioret, iores; apply One)|(unfold ioret, iores; apply One)].
        eapply keyed_end; [rewrite <- app_assoc; reflexivity|]. apply ak_reads. reflexivity.
      - destruct (second_is 4 q); [|(unfold ioret, iores; apply One)].
        destruct (full_auth_keyed S t s1 (tr ++ [Received q]) d) as (ev & E & Q).
        exists (Received q :: ev). split; [rewrite E, <- app_assoc; reflexivity|]. apply ak_full. exact Q. }
    destruct (first_is 254 q && negb (d_auth_switched d)) eqn:F2; [|(unfold ioret, iores; apply One)].
    apply andb_true_iff in F2. destruct F2 as [_ F3]. apply negb_true_iff in F3.
    unfold iobind at 1, iores at 1. unfold of_protocol.
    destruct (read_auth_switch q) as [[pl nonce]|e|]; cbn [rmap_err]; [|(unfold ioret, iores; apply One)|(unfold ioret, iores; apply One)].
    unfold iobind at 1. rewrite F3. unfold iobind at 1, iores at 1. fold pass.
    destruct (gen_data pr pl pass nonce o) as [x|e|] eqn:Eg.
    2,3: (eapply keyed_end; [reflexivity|]; cbn [switched d_server_key]; apply ak_reads; reflexivity).
    unfold iobind at 1, on_stream at 1, traced at 1. cbn [t_write]. fold (data_of x).
    destruct (t_write t (data_of x) s1) as [[u|e|] s2].
    2,3: (eapply keyed_end; [rewrite <- app_assoc; reflexivity|]; eapply ak_switch; [exact Eg|]; apply ak_reads; reflexivity).
    destruct (IH S t s2 ((tr ++ [Received q]) ++ [Sent (data_of x)]) (switched d pl nonce)) as (ev & E & Q).
    exists (Received q :: Sent (data_of x) :: ev).
    split; [etransitivity; [exact E | rewrite <- !app_assoc; reflexivity]|]. eapply ak_switch; [exact Eg|exact Q].
  Qed.

  Lemma handshake_key : forall debug other g d, handle_handshake debug other o g = Ok d -> d_server_key d = o_server_key o.
  Proof.
    intros debug other g d H. unfold handle_handshake in H. destruct (read_handshake debug g); try discriminate.
    destruct (parse_server_version other (hs_server_version a)) as [[[v m]|]|e|]; cbn in H; try discriminate;
      injection H as <-; reflexivity.
  Qed.

  (** A whole run: at most a greeting and a response, then an exchange as above. *)
  Lemma authenticate_keyed : forall S (t : transport S) debug other s r s' tr,
    authenticate (traced t) pr debug other secure o (s, []) = (r, (s', tr)) ->
    (exists g, tr = [] \/ tr = [Received g]) /\ (forall d, r <> Ok d) \/
    exists g h ev final r', tr = Received g :: Sent h :: ev /\ auth_keyed (o_server_key o) ev final r' /\
      forall d, r = Ok d -> r' = Ok tt /\ d_server_key d = final.
  Proof.
    intros S t debug other s r s' tr H. unfold authenticate in H. rewrite iob in H. unfold traced at 1 in H. cbn [t_read] in H.
    destruct (t_read t s) as [[g|e|] s1].
    2,3: (injection H as <- <- <-; left; split; [exists []; auto|discriminate]).
    rewrite iob in H. unfold iores at 1 in H. unfold of_protocol in H.
    destruct (handle_handshake debug other o g) as [d|e|] eqn:Eh; cbn [rmap_err] in H.
    2,3: (injection H as <- <- <-; left; split; [exists g; auto|discriminate]).
    rewrite iob in H. unfold iores at 1 in H.
    destruct (make_handshake_response pr o d) as [h|e|] eqn:Er.
    2,3: (injection H as <- <- <-; left; split; [exists g; auto|discriminate]).
    rewrite iob in H. unfold traced at 1 in H. cbn [t_write] in H. right. exists g, h.
    destruct (t_write t h s1) as [[u|e|] s2].
    2,3: (injection H as <- <- <-; exists [], (o_server_key o), Panic; split; [reflexivity|]; split;
          [apply ak_reads; reflexivity|discriminate]).
    destruct (continue_keyed 2 S t s2 (([] ++ [Received g]) ++ [Sent h]) d) as (ev & E & Q).
    rewrite (handshake_key _ _ _ _ Eh) in Q. exists ev.
    destruct (continue_auth 2 (traced t) pr secure o (s2, ([] ++ [Received g]) ++ [Sent h], d)) as [r' [[s3 tr3] d3]].
    cbn [fst snd] in E, Q. subst tr3. exists (d_server_key d3), r'.
    destruct r' as [u'|e|]; injection H as <- <- <-; (split; [reflexivity|]); (split; [exact Q|]); intros d' F; try discriminate.
    injection F as <-. destruct u'. auto.
  Qed.

  (** ** Packets *)

  Lemma enc_for : forall k p, enc k p -> encrypted_for (p_encrypt pr) k pass p.
  Proof.
    intros k p (nonce & m & Em & Ep). exists nonce. destruct nonce as [|x nonce].
    - exfalso. unfold mask_password in Em. unfold pass in Em. destruct (utf8_encode (o_password o)); discriminate.
    - split; [discriminate|]. rewrite mask_password_xor in Em by discriminate. injection Em as <-. exact Ep.
  Qed.

  Lemma data_answer : forall pl nonce x, hash_fun 20 (p_sha1 pr) -> hash_fun 32 (p_sha256 pr) ->
    gen_data pr pl pass nonce o = Ok x ->
    plugin_answer (p_sha1 pr) (p_sha256 pr) (o_allow_cleartext o) pass (data_of x).
  Proof.
    intros pl nonce x H1 H2 G.
    assert (D : o_auth_plugin o = None \/ o_auth_plugin o = Some pl).
    { destruct (o_auth_plugin o) as [f|] eqn:Ef; [|auto]. right. destruct (auth_plugin_eqb pl f) eqn:Ep.
      - destruct pl, f; try discriminate; reflexivity.
      - rewrite (forced_other pr o f) in G; [discriminate | assumption | intros ->; destruct f; discriminate]. }
    pose proof (f_equal data_out G) as G'. destruct pl.
    - unfold gen_data in G. assert (E : o_allow_cleartext o = true /\ x = Some (DClear pass)).
      { destruct D as [D|D]; rewrite D in G; cbn in G; destruct (o_allow_cleartext o); try discriminate; injection G as <-; auto. }
      destruct E as [E ->]. rewrite E. cbn [data_of plugin_data_serialize]. constructor. reflexivity.
    - rewrite native_out in G' by assumption. assert (E : data_of x = native_token (p_sha1 pr) nonce pass)
        by (destruct x as [y|]; cbn in G'; injection G' as G' G''; cbn [data_of]; congruence).
      rewrite E. apply answer_native.
    - rewrite sha2_out in G' by assumption. assert (E : data_of x = sha2_token (p_sha256 pr) nonce pass)
        by (destruct x as [y|]; cbn in G'; injection G' as G' G''; cbn [data_of]; congruence).
      rewrite E. apply answer_sha2.
  Qed.

  (** Where a packet stands in such an exchange. *)
  Definition role (known : option public_key) (before : list event) (p : bytes) : Prop :=
    plugin_answer (p_sha1 pr) (p_sha256 pr) (o_allow_cleartext o) pass p \/
    (secure = true /\ p = pass ++ [0]) \/
    (secure = false /\ exists k, known = Some k /\ encrypted_for (p_encrypt pr) k pass p) \/
    (secure = false /\ known = None /\ p = [2]) \/
    (secure = false /\ known = None /\ exists pem k, asked_for pem before /\ try_from_pem pem = Ok k /\
       encrypted_for (p_encrypt pr) k pass p).

  Lemma sent_app : forall a b, sent (a ++ b) = sent a ++ sent b.
  Proof. intros a b. unfold sent. apply flat_map_app. Qed.

  Lemma up_to_place : forall (P : bytes -> Prop) ev a p b, up_to P ev -> ev = a ++ Sent p :: b -> P p /\ a = [].
  Proof.
    intros P ev a p b [-> | (c & Hc & [-> | (q & ->)])] E.
    - destruct a; discriminate.
    - destruct a as [|e a]; [injection E as <- _; auto|]. destruct a; discriminate.
    - destruct a as [|e a]; [injection E as <- _; auto|]. destruct a as [|e' [|e'' a]]; discriminate.
  Qed.

  Lemma full_place : forall known ev final r a p b, full_keyed known ev final r -> ev = a ++ Sent p :: b -> role known a p.
  Proof.
    intros known ev final r a p b H E. unfold full_keyed in H. unfold role. destruct secure.
    { destruct H as [_ H]. destruct (up_to_place _ _ _ _ _ H E) as [-> _]. auto. }
    destruct known as [k|].
    { destruct H as [_ H]. destruct (up_to_place _ _ _ _ _ H E) as [Hp _]. right. right. left. split; [reflexivity|].
      exists k. split; [reflexivity|]. apply enc_for. exact Hp. }
    destruct H as [[_ [_ [-> | (q & ->)]]] | (pem & k & ev' & Hk & -> & H & _)].
    - destruct a as [|e a]; [|destruct a; discriminate]. injection E as <- _. auto 10.
    - destruct a as [|e a]; [|destruct a as [|? [|? ?]]; discriminate]. injection E as <- _. auto 10.
    - destruct a as [|e a]; [injection E as <- _; auto 10|]. destruct a as [|e' a]; [discriminate|].
      injection E as <- <- E. destruct (up_to_place _ _ _ _ _ H E) as [Hp ->]. right. right. right. right.
      repeat (split; [reflexivity|]). exists pem, k. split; [exists []; reflexivity|]. split; [exact Hk|]. apply enc_for. exact Hp.
  Qed.

  Lemma role_later : forall known l a p, role known a p -> role known (l ++ a) p.
  Proof.
    intros known l a p [H|[H|[H|[H|(H1 & H2 & pem & k & (e & ->) & H)]]]]; unfold role; auto.
    do 4 right. split; [exact H1|]. split; [exact H2|]. exists pem, k. split; [|exact H]. exists (l ++ e). apply app_assoc.
  Qed.

  Lemma auth_place : hash_fun 20 (p_sha1 pr) -> hash_fun 32 (p_sha256 pr) ->
    forall known ev final r, auth_keyed known ev final r -> forall a p b, ev = a ++ Sent p :: b -> role known a p.
  Proof.
    intros H1 H2 known ev final r H. induction H as [ev r Hs|q ev final r Hf|q pl nonce x ev final r Hg H IH]; intros a p b E.
    - exfalso. subst ev. rewrite sent_app in Hs. destruct (sent a); discriminate.
    - destruct a as [|e a]; [discriminate|]. injection E as <- E. apply (role_later known [Received q]). eapply full_place; eassumption.
    - destruct a as [|e a]; [discriminate|]. injection E as <- E. destruct a as [|e a].
      + injection E as <- _. left. eapply data_answer; eassumption.
      + injection E as <- E. apply (role_later known [Received q; Sent (data_of x)] a). eapply IH. exact E.
  Qed.

  Definition requested (ev : list event) : nat := requests (sent ev).

  Lemma requests_cons : forall p l, requests (p :: l) = ((if list_eq_dec Z.eq_dec p [2%Z] then 1 else 0) + requests l)%nat.
  Proof. intros p l. unfold requests. cbn [count_occ]. destruct (list_eq_dec Z.eq_dec p [2]); reflexivity. Qed.

  Lemma answer_not_request : hash_fun 20 (p_sha1 pr) -> hash_fun 32 (p_sha256 pr) ->
    forall p, plugin_answer (p_sha1 pr) (p_sha256 pr) (o_allow_cleartext o) pass p -> p <> [2].
  Proof.
    assert (X : forall n f a b, hash_fun n f -> length (xor_all (f a) (f b)) = n).
    { intros n f a b H. unfold xor_all. rewrite map_length, combine_length, !(proj1 (H _)). apply Nat.min_id. }
    assert (L : forall l, l ++ [0] <> [2]).
    { intros l F. apply (f_equal (fun x => last x 0)) in F. rewrite last_last in F. discriminate. }
    intros H1 H2 p [nonce|nonce|Hc].
    - unfold native_token. destruct pass as [|c l]; [discriminate|].
      intros F. apply (f_equal (@length Z)) in F. erewrite X in F by eassumption. discriminate.
    - unfold sha2_token. destruct pass as [|c l]; [discriminate|].
      intros F. apply (f_equal (@length Z)) in F. erewrite X in F by eassumption. discriminate.
    - apply L.
  Qed.

  Lemma up_to_requests : forall (P : bytes -> Prop) ev, (forall p, P p -> p <> [2]) -> up_to P ev -> requested ev = 0%nat.
  Proof.
    intros P ev Hn [-> | (c & Hc & [-> | (q & ->)])]; [reflexivity| |];
      unfold requested; cbn [sent flat_map app]; rewrite requests_cons;
      destruct (list_eq_dec Z.eq_dec c [2]) as [E|_]; try reflexivity; destruct (Hn c Hc E).
  Qed.

  Lemma auth_requests : hash_fun 20 (p_sha1 pr) -> hash_fun 32 (p_sha256 pr) ->
    (forall k m, p_encrypt pr k m <> Ok [2]) ->
    forall known ev final r, auth_keyed known ev final r ->
    requested ev = 0%nat /\ final = known \/
    requested ev = 1%nat /\ secure = false /\ known = None /\
      (failed r \/ exists pem k earlier later, final = Some k /\ try_from_pem pem = Ok k /\
         ev = earlier ++ Sent [2] :: Received (1 :: pem) :: later).
  Proof.
    intros H1 H2 H3 known ev final r H.
    assert (En : forall k p, enc k p -> p <> [2]) by (intros k p (nonce & m & _ & E) ->; exact (H3 _ _ E)).
    assert (Pn : forall p, p = pass ++ [0] -> p <> [2]).
    { intros p -> F. apply (f_equal (fun x => last x 0)) in F. rewrite last_last in F. discriminate. }
    induction H as [ev r Hs|q ev final r Hf|q pl nonce x ev final r Hg H IH].
    - left. unfold requested. rewrite Hs. auto.
    - change (requested (Received q :: ev)) with (requested ev).
      unfold full_keyed in Hf. destruct secure.
      { destruct Hf as [-> Hf]. left. split; [|reflexivity]. exact (up_to_requests _ _ Pn Hf). }
      destruct known as [k|].
      { destruct Hf as [-> Hf]. left. split; [|reflexivity]. exact (up_to_requests _ _ (En k) Hf). }
      right. destruct Hf as [[-> [Hr [-> | (q' & ->)]]] | (pem & k & ev' & Hk & -> & Hf & ->)]; [auto|auto|].
      split; [|split; [reflexivity|]; split; [reflexivity|]; right; exists pem, k, [Received q], ev'; auto].
      unfold requested. cbn [sent flat_map app]. rewrite requests_cons. destruct (list_eq_dec Z.eq_dec [2] [2]) as [_|F]; [|destruct (F eq_refl)].
      change (flat_map _ ev') with (sent ev'). change (requests (sent ev')) with (requested ev').
      rewrite (up_to_requests (enc k)); [reflexivity|apply En|exact Hf].
    - assert (E : requested (Received q :: Sent (data_of x) :: ev) = requested ev).
      { unfold requested. cbn [sent flat_map app]. rewrite requests_cons.
        destruct (list_eq_dec Z.eq_dec (data_of x) [2]) as [F|_]; [|reflexivity].
        exfalso. eapply answer_not_request; [exact H1|exact H2| |exact F]. eapply data_answer; eassumption. }
      rewrite E. destruct IH as [IH|(I1 & I2 & I3 & IH)]; [auto|]. right. repeat (split; [assumption|]).
      destruct IH as [IH|(pem & k & e & l & F1 & F2 & ->)]; [auto|]. right. exists pem, k, (Received q :: Sent (data_of x) :: e), l. auto.
  Qed.
End Keyed.
