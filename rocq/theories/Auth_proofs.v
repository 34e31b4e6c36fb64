(** Lemmas about authentication. *)
From Coq Require Import String ZArith List Bool Lia.
From Verif Require Import Base BaseFacts Types Utf8 ParseBuf BufMut ParseBuf_proofs Rows_proofs Packets Packets_proofs
  Scramble Crypt Spec_Crypt Crypt_proofs Handshake Spec_Wire Spec_Handshake Handshake_proofs Framing Auth Spec_Auth.
Import ListNotations.
Open Scope Z_scope.
Open Scope io_scope.

(** ** Observing the packets *)

(** The same transport, with a record of the packets. *)
Definition traced {S} (t : transport S) : transport (S * list event) :=
  mkTransport _
    (fun '(s, tr) => match t_read t s with
                     | (Ok p, s') => (Ok p, (s', tr ++ [Received p]))
                     | (r, s') => (r, (s', tr))
                     end)
    (fun b '(s, tr) => let '(r, s') := t_write t b s in (r, (s', tr ++ [Sent b]))).

(** Forgetting the record. *)
Definition erase {S A} (x : res error A * (S * list event)) : res error A * S := (fst x, fst (snd x)).
Definition erase_d {S A} (x : res error A * ((S * list event) * conn_data)) : res error A * (S * conn_data) :=
  (fst x, (fst (fst (snd x)), snd (snd x))).

Definition sim {S A} (m' : IO ((S * list event) * conn_data) A) (m : IO (S * conn_data) A) : Prop :=
  forall s tr d, erase_d (m' ((s, tr), d)) = m (s, d).

Lemma sim_bind : forall S A B (m' : IO ((S * list event) * conn_data) A) m (f' : A -> IO ((S * list event) * conn_data) B) f,
  sim m' m -> (forall a, sim (f' a) (f a)) -> sim (iobind m' f') (iobind m f).
Proof.
  intros S A B m' m f' f Hm Hf s tr d. unfold iobind. rewrite <- (Hm s tr d).
  destruct (m' (s, tr, d)) as [[a|e|] [[s1 tr1] d1]]; cbn; [apply Hf | reflexivity | reflexivity].
Qed.
Lemma sim_res : forall S A (r : res error A), sim (iores r) (@iores (S * conn_data) A r).
Proof. intros S A r s tr d. reflexivity. Qed.
Lemma sim_ret : forall S A (a : A), sim (ioret a) (@ioret (S * conn_data) A a).
Proof. intros S A r s tr d. reflexivity. Qed.
Lemma sim_read : forall S (t : transport S), sim (on_stream (t_read (traced t))) (on_stream (t_read t)).
Proof.
  intros S t s tr d. unfold on_stream, traced. cbn [t_read]. destruct (t_read t s) as [[p|e|] s']; reflexivity.
Qed.
Lemma sim_write : forall S (t : transport S) b, sim (on_stream (t_write (traced t) b)) (on_stream (t_write t b)).
Proof.
  intros S t b s tr d. unfold on_stream, traced. cbn [t_write]. destruct (t_write t b s) as [r s']. reflexivity.
Qed.

Lemma sim_key : forall S (t : transport S), sim (get_server_key (traced t)) (get_server_key t).
Proof.
  intros S t s tr d. unfold get_server_key. destruct (d_server_key d); [reflexivity|].
  match goal with |- erase_d (?m' _) = ?m _ => revert s tr; enough (Hs : sim m' m) by (intros; apply Hs) end.
  apply sim_bind; [apply sim_write|]. intros _. apply sim_bind; [apply sim_read|]. intros p.
  destruct (first_is 1 p).
  - apply sim_bind; [apply sim_res|]. intros k s tr d'. reflexivity.
  - destruct (first_is 255 p); apply sim_res.
Qed.
Lemma sim_full : forall S (t : transport S) pr secure o, sim (full_auth (traced t) pr secure o) (full_auth t pr secure o).
Proof.
  intros S t pr secure o. unfold full_auth. cbv zeta. apply sim_bind.
  - destruct secure; [apply sim_write|]. apply sim_bind; [apply sim_key|]. intros k s tr d.
    match goal with |- erase_d (?m' _) = ?m _ => revert s tr; enough (Hs : sim m' m) by (intros; apply Hs) end.
    apply sim_bind; [apply sim_res|]. intros m. apply sim_bind; [apply sim_res|]. intros c. apply sim_write.
  - intros _. apply sim_bind; [apply sim_read|]. intros p s tr d. destruct (first_is 0 p); [reflexivity|].
    destruct (first_is 255 p); reflexivity.
Qed.
Lemma sim_auth : forall n S (t : transport S) pr secure o,
  sim (continue_auth n (traced t) pr secure o) (continue_auth n t pr secure o).
Proof.
  induction n as [|n IH]; intros S t pr secure o; [intros s tr d; reflexivity|].
  intros s tr d. cbn [continue_auth].
  match goal with |- erase_d (?m' _) = ?m _ => revert s tr; enough (Hs : sim m' m) by (intros; apply Hs) end.
  apply sim_bind; [apply sim_read|]. intros p. destruct (first_is 0 p); [apply sim_ret|].
  destruct (_ && first_is 1 p).
  - destruct (second_is 3 p); [apply sim_bind; [apply sim_read|]; intros; apply sim_ret|].
    destruct (second_is 4 p); [apply sim_full | apply sim_res].
  - destruct (first_is 254 p && _); [|apply sim_res].
    apply sim_bind; [apply sim_res|]. intros [pl nonce]. apply sim_bind.
    { intros s tr d'. destruct (d_auth_switched d'); reflexivity. }
    intros _. apply sim_bind; [apply sim_res|]. intros data. apply sim_bind; [apply sim_write|]. intros _. apply IH.
Qed.

Lemma erase_authenticate : forall S (t : transport S) pr debug other secure o s tr,
  erase (authenticate (traced t) pr debug other secure o (s, tr)) = authenticate t pr debug other secure o s.
Proof.
  intros S t pr debug other secure o s tr. unfold authenticate, iobind at 1 5. unfold traced at 1. cbn [t_read].
  destruct (t_read t s) as [[g|e|] s1]; try reflexivity.
  unfold iobind at 1 4, iores at 1 3. destruct (of_protocol _) as [d|e|]; try reflexivity.
  unfold iobind at 1 3, iores. destruct (make_handshake_response pr o d) as [resp|e|]; try reflexivity.
  unfold iobind. unfold traced at 1. cbn [t_write]. destruct (t_write t resp s1) as [[u|e|] s2]; try reflexivity.
  rewrite <- (sim_auth 2 S t pr secure o s2 ((tr ++ [Received g]) ++ [Sent resp]) d).
  destruct (continue_auth 2 (traced t) pr secure o (s2, (tr ++ [Received g]) ++ [Sent resp], d)) as [[u'|e|] [[s3 tr3] d3]];
    reflexivity.
Qed.

(** ** The shape of the exchange *)

Lemma iob : forall S A B (m : IO S A) (f : A -> IO S B) s,
  iobind m f s = match m s with (Ok a, s') => f a s' | (Err e, s') => (Err e, s') | (Panic, s') => (Panic, s') end.
Proof. intros. unfold iobind. destruct (m s) as [[a|e|] s']; reflexivity. Qed.

(** The password packets of full authentication. *)
Definition pass_packet (pr : primitives) (secure : bool) (o : conn_options) (p : bytes) : Prop :=
  let pass := utf8_encode (o_password o) ++ [0] in
  if secure then p = pass
  else exists key nonce masked, mask_password nonce pass = Ok masked /\ p_encrypt pr key masked = Ok p.

Definition failed {A} (r : res error A) : Prop := forall a, r <> Ok a.

Inductive full_shape (pr : primitives) (secure : bool) (o : conn_options) : list event -> res error unit -> Prop :=
| fs_nothing : forall r, failed r -> full_shape pr secure o [] r
| fs_asked : forall r, secure = false -> failed r -> full_shape pr secure o [Sent [2]] r
| fs_bad_key : forall k r, secure = false -> failed r -> full_shape pr secure o [Sent [2]; Received k] r
| fs_sent : forall pre p r, pre = [] \/ (secure = false /\ exists k, pre = [Sent [2]; Received (1 :: k)]) ->
    pass_packet pr secure o p -> failed r -> full_shape pr secure o (pre ++ [Sent p]) r
| fs_answered : forall pre p q r, pre = [] \/ (secure = false /\ exists k, pre = [Sent [2]; Received (1 :: k)]) ->
    pass_packet pr secure o p -> (r = Ok tt <-> is_ok_packet q) -> (is_err_packet q -> exists c, r = server_error q c) ->
    full_shape pr secure o (pre ++ [Sent p; Received q]) r.

(** [sha2]: the plugin in use is caching_sha2_password. *)
Inductive auth_shape (pr : primitives) (secure : bool) (o : conn_options)
  : bool -> bool -> list event -> res error unit -> Prop :=
| as_nothing : forall sw sha2 r, failed r -> auth_shape pr secure o sw sha2 [] r
| as_one : forall sw sha2 q r, (r = Ok tt <-> is_ok_packet q) ->
    (is_err_packet q -> exists c, r = err_or_unexpected q c) ->
    (forall pl nonce e, sw = false -> is_switch_packet q -> read_auth_switch q = Ok (pl, nonce) ->
       gen_data pr pl (utf8_encode (o_password o)) nonce o = Err e -> r = Err e) ->
    auth_shape pr secure o sw sha2 [Received q] r
| as_fast : forall sw q q2, fast_auth_ok q -> auth_shape pr secure o sw true [Received q; Received q2] (Ok tt)
| as_full : forall sw q ev r, full_shape pr secure o ev r -> auth_shape pr secure o sw true (Received (1 :: 4 :: q) :: ev) r
| as_switch_end : forall sha2 q pl nonce x r, is_switch_packet q ->
    read_auth_switch q = Ok (pl, nonce) -> gen_data pr pl (utf8_encode (o_password o)) nonce o = Ok x -> failed r ->
    auth_shape pr secure o false sha2
      [Received q; Sent (match x with Some y => plugin_data_serialize y | None => [] end)] r
| as_switch : forall sha2 q pl nonce x ev r, is_switch_packet q ->
    read_auth_switch q = Ok (pl, nonce) -> gen_data pr pl (utf8_encode (o_password o)) nonce o = Ok x ->
    auth_shape pr secure o true (match (match o_auth_plugin o with Some p => p | None => pl end) with PSha2 => true | _ => false end) ev r ->
    auth_shape pr secure o false sha2
      (Received q :: Sent (match x with Some y => plugin_data_serialize y | None => [] end) :: ev) r.

Lemma first_is_iff : forall n p, first_is n p = true <-> exists r, p = n :: r.
Proof.
  intros n p. destruct p as [|x r]; cbn; [split; [discriminate | intros (r & F); discriminate]|].
  rewrite Z.eqb_eq. split; [intros ->; eauto | intros (r' & E); now injection E].
Qed.
Lemma first_is_false : forall n p, first_is n p = false -> ~ exists r, p = n :: r.
Proof. intros n p H F. apply first_is_iff in F. congruence. Qed.
Lemma second_is_iff : forall n p, second_is n p = true <-> exists a r, p = a :: n :: r.
Proof.
  intros n p. destruct p as [|x [|y r]]; cbn; try (split; [discriminate | intros (a & r' & F); discriminate]).
  rewrite Z.eqb_eq. split; [intros ->; eauto | intros (a & r' & E); now injection E].
Qed.

Lemma failed_err : forall A e, @failed A (Err e).
Proof. intros A e a. discriminate. Qed.
Lemma failed_panic : forall A, @failed A Panic.
Proof. intros A a. discriminate. Qed.
Global Hint Resolve failed_err failed_panic : auth.
Lemma server_error_failed : forall A p c, @failed A (server_error p c).
Proof. intros A p c a. unfold server_error, of_protocol. destruct (read_err p c); discriminate. Qed.
Lemma unexpected_failed : forall p c, failed (err_or_unexpected p c).
Proof. intros p c a. unfold err_or_unexpected. destruct (read_err p c); discriminate. Qed.
Global Hint Resolve server_error_failed unexpected_failed : auth.

Lemma failed_not_ok : forall (r : res error unit) q, failed r -> ~ is_ok_packet q -> (r = Ok tt <-> is_ok_packet q).
Proof. intros r q F N. split; intros H; [destruct (F tt H) | contradiction]. Qed.

(** The run from a recorded state extends the record by a shape. *)
Definition shaped {S} (Q : list event -> res error unit -> Prop)
  (x : res error unit * ((S * list event) * conn_data)) (tr : list event) : Prop :=
  exists ev, snd (fst (snd x)) = tr ++ ev /\ Q ev (fst x).

Lemma shaped_end : forall S (Q : list event -> res error unit -> Prop) r (s : S) tr d ev tr',
  tr' = tr ++ ev -> Q ev r -> shaped Q (r, (s, tr', d)) tr.
Proof. intros. exists ev. split; assumption. Qed.

Lemma full_auth_shape : forall S (t : transport S) pr secure o s tr d,
  shaped (full_shape pr secure o) (full_auth (traced t) pr secure o (s, tr, d)) tr.
Proof.
  intros S t pr secure o s tr d. unfold full_auth. cbv zeta.
  set (pass := utf8_encode (o_password o) ++ [0]).
  (* the last read *)
  assert (Last : forall s1 pre p d1, (pre = [] \/ (secure = false /\ exists k, pre = [Sent [2]; Received (1 :: k)])) ->
    pass_packet pr secure o p ->
    shaped (full_shape pr secure o)
      ((res <- on_stream (t_read (traced t)) ;;
        (fun '(s, d) =>
          if first_is 0 res then (Ok tt, (s, d))
          else if first_is 255 res then (server_error res (d_capabilities d), (s, d))
          else (Err (EProtocol (PUnexpectedPacket res)), (s, d)))) (s1, tr ++ pre ++ [Sent p], d1)) tr).
  { intros s1 pre p d1 Hpre Hp. unfold iobind, on_stream at 1, traced at 1. cbn [t_read].
    destruct (t_read t s1) as [[q|e|] s2].
    - assert (E : (tr ++ pre ++ [Sent p]) ++ [Received q] = tr ++ (pre ++ [Sent p; Received q])).
      { rewrite <- !app_assoc. reflexivity. }
      destruct (first_is 0 q) eqn:F0.
      + eapply shaped_end; [exact E|]. apply first_is_iff in F0. apply fs_answered; auto.
        * split; auto.
        * intros (r & ->). destruct F0 as (r' & F0). discriminate.
      + destruct (first_is 255 q) eqn:F1; (eapply shaped_end; [exact E|]); apply fs_answered; auto.
        * apply failed_not_ok; [auto with auth | now apply first_is_false].
        * eauto.
        * apply failed_not_ok; [auto with auth | now apply first_is_false].
        * intros F. apply first_is_iff in F. congruence.
    - eapply shaped_end; [reflexivity|]. apply fs_sent; auto with auth.
    - eapply shaped_end; [reflexivity|]. apply fs_sent; auto with auth. }
  destruct secure.
  - unfold iobind at 1, on_stream at 1, traced at 1. cbn [t_write].
    destruct (t_write t pass s) as [[u|e|] s1].
    + apply (Last s1 [] pass d); [now left | reflexivity].
    + eapply shaped_end; [reflexivity|]. apply (fs_sent pr true o []); auto with auth. reflexivity.
    + eapply shaped_end; [reflexivity|]. apply (fs_sent pr true o []); auto with auth. reflexivity.
  - assert (Enc : forall s1 pre key d1, (pre = [] \/ exists k, pre = [Sent [2]; Received (1 :: k)]) ->
      shaped (full_shape pr false o)
        ((((fun '(s, d) =>
           (masked <- iores (of_crypt (mask_password (d_nonce d) pass)) ;;
            encrypted <- iores (of_crypt (p_encrypt pr key masked)) ;;
            on_stream (t_write (traced t) encrypted)) (s, d)) ;;;
          res <- on_stream (t_read (traced t)) ;;
          (fun '(s, d) =>
            if first_is 0 res then (Ok tt, (s, d))
            else if first_is 255 res then (server_error res (d_capabilities d), (s, d))
            else (Err (EProtocol (PUnexpectedPacket res)), (s, d)))) (s1, tr ++ pre, d1))) tr).
    { intros s1 pre key d1 Hpre. rewrite iob. cbn beta match. rewrite iob. unfold iores at 1.
      assert (Fail : forall r, failed r -> shaped (full_shape pr false o) (r, (s1, tr ++ pre, d1)) tr).
      { intros r Hr. eapply shaped_end; [reflexivity|].
        destruct Hpre as [->|(k & ->)]; [now apply fs_nothing | now apply fs_bad_key]. }
      unfold of_crypt. destruct (mask_password (d_nonce d1) pass) as [m|e|] eqn:Em; cbn [rmap_err];
        try (apply Fail; auto with auth).
      rewrite iob. unfold iores at 1.
      destruct (p_encrypt pr key m) as [c|e|] eqn:Ec; cbn [rmap_err]; try (apply Fail; auto with auth).
      unfold on_stream at 1, traced at 1. cbn [t_write].
      assert (Pp : pass_packet pr false o c) by (exists key, (d_nonce d1), m; auto).
      assert (Hpre' : pre = [] \/ (false = false /\ exists k, pre = [Sent [2]; Received (1 :: k)])) by (destruct Hpre; auto).
      destruct (t_write t c s1) as [[u|e|] s2].
      - rewrite <- app_assoc. apply (Last s2 pre c d1 Hpre' Pp).
      - rewrite <- app_assoc. eapply shaped_end; [reflexivity|]. apply fs_sent; auto with auth.
      - rewrite <- app_assoc. eapply shaped_end; [reflexivity|]. apply fs_sent; auto with auth. }
    rewrite iob, iob. unfold get_server_key at 1.
    destruct (d_server_key d) as [k|].
    + specialize (Enc s [] k d (or_introl eq_refl)). rewrite app_nil_r, iob in Enc. exact Enc.
    + rewrite iob. unfold on_stream at 1, traced at 1. cbn [t_write].
      destruct (t_write t [2] s) as [[u|e|] s1].
      2,3: (eapply shaped_end; [reflexivity|]; apply fs_asked; auto with auth).
      rewrite iob. unfold on_stream at 1, traced at 1. cbn [t_read].
      destruct (t_read t s1) as [[p|e|] s2].
      2,3: (eapply shaped_end; [reflexivity|]; apply fs_asked; auto with auth).
      assert (E : (tr ++ [Sent [2]]) ++ [Received p] = tr ++ [Sent [2]; Received p]) by (rewrite <- app_assoc; reflexivity).
      rewrite E.
      assert (Fail : forall (r : res error unit) d', failed r -> shaped (full_shape pr false o) (r, (s2, tr ++ [Sent [2]; Received p], d')) tr).
      { intros r d' Hr. eapply shaped_end; [reflexivity|]. now apply fs_bad_key. }
      destruct (first_is 1 p) eqn:Fp.
      * rewrite iob. unfold iores at 1. destruct (of_crypt (try_from_pem (tl p))) as [k|e|]; try (apply Fail; auto with auth).
        specialize (Enc s2 [Sent [2]; Received p] k (with_key d k)). rewrite iob in Enc. apply Enc. right.
        apply first_is_iff in Fp. destruct Fp as (r & ->). eauto.
      * destruct (first_is 255 p); unfold iores; [|apply Fail; auto with auth].
        pose proof (server_error_failed public_key p (d_capabilities d)) as F.
        destruct (server_error p (d_capabilities d)) as [k|e|]; [destruct (F k eq_refl) | |]; apply Fail; auto with auth.
Qed.

Lemma auth_run_shape : forall n S (t : transport S) pr secure o s tr d,
  (if d_auth_switched d then 1 <= n else 2 <= n)%nat ->
  shaped (auth_shape pr secure o (d_auth_switched d) (match current_plugin o d with PSha2 => true | _ => false end))
    (continue_auth n (traced t) pr secure o (s, tr, d)) tr.
Proof.
  induction n as [|n IH]; intros S t pr secure o s tr d Hn; [destruct (d_auth_switched d); lia|].
  cbn [continue_auth]. set (sha2 := match current_plugin o d with PSha2 => true | _ => false end).
  unfold iobind at 1, on_stream at 1, traced at 1. cbn [t_read].
  destruct (t_read t s) as [[q|e|] s1].
  2,3: (eapply shaped_end; [symmetry; apply app_nil_r|]; apply as_nothing; auto with auth).
  assert (One : forall r : res error unit, (r = Ok tt <-> is_ok_packet q) ->
    (is_err_packet q -> exists c, r = err_or_unexpected q c) ->
    (d_auth_switched d = false -> is_switch_packet q -> read_auth_switch q = Panic \/ exists e, read_auth_switch q = Err e) ->
    shaped (auth_shape pr secure o (d_auth_switched d) sha2) (r, (s1, tr ++ [Received q], d)) tr).
  { intros r H1 H2 H3. assert (H4 : forall pl nonce e, d_auth_switched d = false -> is_switch_packet q ->
       read_auth_switch q = Ok (pl, nonce) -> gen_data pr pl (utf8_encode (o_password o)) nonce o = Err e -> r = Err e).
    { intros pl nonce e A B C _. destruct (H3 A B) as [F|(e' & F)]; congruence. }
    eapply shaped_end; [reflexivity|]. now apply as_one. }
  destruct (first_is 0 q) eqn:F0.
  { apply One; apply first_is_iff in F0; destruct F0 as (r & ->); [split; [intros; eexists|]; reflexivity| |].
    - intros (r' & F). discriminate.
    - intros _ (r' & F). discriminate. }
  pose proof (first_is_false _ _ F0) as N0.
  destruct (sha2 && first_is 1 q) eqn:F1.
  { apply andb_true_iff in F1. destruct F1 as (Es & F1). rewrite Es in *. apply first_is_iff in F1. destruct F1 as (r1 & E1).
    assert (NE : ~ is_err_packet q) by (intros (r & F); congruence).
    assert (NS : ~ is_switch_packet q) by (intros (r & F); congruence).
    destruct (second_is 3 q) eqn:F3.
    - apply second_is_iff in F3. destruct F3 as (a & r & F3).
      assert (FA : fast_auth_ok q) by (exists r; congruence).
      unfold iobind, on_stream, traced. cbn [t_read].
      destruct (t_read t s1) as [[q2|e|] s2].
      + eapply shaped_end; [rewrite <- app_assoc; reflexivity|]. now apply as_fast.
      + eapply shaped_end; [reflexivity|]. apply as_one; [apply failed_not_ok; auto with auth | contradiction | contradiction].
      + eapply shaped_end; [reflexivity|]. apply as_one; [apply failed_not_ok; auto with auth | contradiction | contradiction].
    - destruct (second_is 4 q) eqn:F4.
      + destruct (full_auth_shape S t pr secure o s1 (tr ++ [Received q]) d) as (ev & E & Q).
        apply second_is_iff in F4. destruct F4 as (a & r & F4).
        assert (Eq : q = 1 :: 4 :: r) by congruence.
        exists (Received (1 :: 4 :: r) :: ev). split; [rewrite E, <- app_assoc, Eq; reflexivity|]. now apply as_full.
      + apply One; [apply failed_not_ok; auto with auth | contradiction | contradiction]. }
  destruct (first_is 254 q && negb (d_auth_switched d)) eqn:F2.
  2:{ apply One; [apply failed_not_ok; auto with auth | eauto|].
      intros Hsw (r & ->). rewrite Hsw in F2. discriminate. }
  apply andb_true_iff in F2. destruct F2 as (F2 & F3). apply negb_true_iff in F3. rewrite F3 in *.
  apply first_is_iff in F2. assert (NE : ~ is_err_packet q) by (intros (r & F); destruct F2; congruence).
  unfold iobind at 1, iores at 1. unfold of_protocol.
  destruct (read_auth_switch q) as [[pl nonce]|e|] eqn:Er; cbn [rmap_err].
  2,3: (apply One; [apply failed_not_ok; auto with auth | contradiction|]; eauto).
  unfold iobind at 1. rewrite F3. unfold iobind at 1, iores at 1.
  assert (Gone : forall (r : res error unit) d', failed r ->
     (forall e, gen_data pr pl (utf8_encode (o_password o)) nonce o = Err e -> r = Err e) ->
     shaped (auth_shape pr secure o false sha2) (r, (s1, tr ++ [Received q], d')) tr).
  { intros r d' Hr He. eapply shaped_end; [reflexivity|]. apply as_one; [apply failed_not_ok; auto | contradiction|].
    intros pl' nonce' e _ _ E. rewrite Er in E. injection E as <- <-. apply He. }
  destruct (gen_data pr pl (utf8_encode (o_password o)) nonce o) as [x|e|] eqn:Eg.
  2,3: (apply Gone; [auto with auth | intros e' F; congruence]).
  unfold iobind at 1, on_stream at 1, traced at 1. cbn [t_write].
  destruct (t_write t _ s1) as [[u|e|] s2].
  2,3: (eapply shaped_end; [rewrite <- app_assoc; reflexivity|]; eapply as_switch_end; eauto with auth).
  assert (Hn' : (1 <= n)%nat) by lia.
  destruct (IH S t pr secure o s2 ((tr ++ [Received q]) ++
     [Sent (match x with Some y => plugin_data_serialize y | None => [] end)]) (switched d pl nonce) Hn') as (ev & E & Q).
  exists (Received q :: Sent (match x with Some y => plugin_data_serialize y | None => [] end) :: ev).
  split; [etransitivity; [exact E | rewrite <- !app_assoc; reflexivity]|].
  eapply as_switch; eauto.
Qed.

(** A whole run: greeting, response, then an exchange of the shape above. *)
Inductive run_shape (pr : primitives) (secure : bool) (o : conn_options) : list event -> res error unit -> Prop :=
| rs_nothing : forall r, failed r -> run_shape pr secure o [] r
| rs_greeting : forall g r, failed r -> run_shape pr secure o [Received g] r
| rs_unsent : forall g d h r, make_handshake_response pr o d = Ok h -> failed r ->
    run_shape pr secure o [Received g; Sent h] r
| rs_run : forall g d h ev r, make_handshake_response pr o d = Ok h ->
    auth_shape pr secure o false (match current_plugin o d with PSha2 => true | _ => false end) ev r ->
    run_shape pr secure o (Received g :: Sent h :: ev) r.

Definition done {A} (r : res error A) : res error unit := rbind r (fun _ => Ok tt).

Lemma handshake_unswitched : forall debug other o g d, handle_handshake debug other o g = Ok d -> d_auth_switched d = false.
Proof.
  intros debug other o g d H. unfold handle_handshake in H. destruct (read_handshake debug g); try discriminate.
  destruct (parse_server_version other (hs_server_version a)) as [[[v m]|]|e|]; cbn in H; try discriminate;
    injection H as <-; reflexivity.
Qed.

Definition run_shaped {S A} (Q : list event -> res error unit -> Prop)
  (x : res error A * (S * list event)) (tr : list event) : Prop :=
  exists ev, snd (snd x) = tr ++ ev /\ Q ev (done (fst x)).

Lemma authenticate_shape : forall S (t : transport S) pr debug other secure o s tr,
  run_shaped (run_shape pr secure o) (authenticate (traced t) pr debug other secure o (s, tr)) tr.
Proof.
  intros S t pr debug other secure o s tr. unfold authenticate. rewrite iob. unfold traced at 1. cbn [t_read].
  destruct (t_read t s) as [[g|e|] s1].
  2,3: (exists []; cbn; rewrite app_nil_r; split; [reflexivity | apply rs_nothing; cbn; auto with auth]).
  rewrite iob. unfold iores at 1. unfold of_protocol.
  destruct (handle_handshake debug other o g) as [d|e|] eqn:Eh; cbn [rmap_err].
  2,3: (exists [Received g]; split; [reflexivity | apply rs_greeting; cbn; auto with auth]).
  rewrite iob. unfold iores at 1.
  destruct (make_handshake_response pr o d) as [h|e|] eqn:Er.
  2,3: (exists [Received g]; split; [reflexivity | apply rs_greeting; cbn; auto with auth]).
  rewrite iob. unfold traced at 1. cbn [t_write].
  destruct (t_write t h s1) as [[u|e|] s2].
  2,3: (exists [Received g; Sent h]; split; [cbn; rewrite <- app_assoc; reflexivity | eapply rs_unsent; [eassumption | cbn; auto with auth]]).
  pose proof (handshake_unswitched _ _ _ _ _ Eh) as Hd.
  destruct (auth_run_shape 2 S t pr secure o s2 ((tr ++ [Received g]) ++ [Sent h]) d) as (ev & E & Q).
  { rewrite Hd. lia. }
  rewrite Hd in Q.
  exists (Received g :: Sent h :: ev).
  destruct (continue_auth 2 (traced t) pr secure o (s2, (tr ++ [Received g]) ++ [Sent h], d)) as [r [[s3 tr3] d3]].
  cbn [fst snd] in E, Q. subst tr3.
  assert (E2 : ((tr ++ [Received g]) ++ [Sent h]) ++ ev = tr ++ Received g :: Sent h :: ev)
    by (rewrite <- !app_assoc; reflexivity).
  unfold run_shaped. destruct r as [u'|e|]; cbn [fst snd done rbind]; (split; [exact E2 | eapply rs_run; eauto]).
  destruct u'. exact Q.
Qed.

(** ** Worlds that look the same *)

(** The same options with another password. *)
Definition with_password (o : conn_options) (pw : str) : conn_options :=
  mkOptions (o_user o) pw (o_db_name o) (o_max_allowed_packet o) (o_allow_cleartext o) (o_auth_plugin o) (o_server_key o).

Definition data_out (r : res error (option auth_plugin_data)) : res error (bytes * bytes) :=
  match r with
  | Ok (Some x) => Ok (plugin_data_bytes x, plugin_data_serialize x)
  | Ok None => Ok ([], [])
  | Err e => Err e
  | Panic => Panic
  end.

Definition encrypted (pr : primitives) (pw : str) (key : public_key) (nonce : bytes) : res crypt_error bytes :=
  rbind (mask_password nonce (utf8_encode pw ++ [0])) (p_encrypt pr key).

Definition io_eq {S A} (m1 m2 : IO S A) : Prop := forall s, m1 s = m2 s.

Lemma io_eq_bind : forall S A B (m1 m2 : IO S A) (f1 f2 : A -> IO S B),
  io_eq m1 m2 -> (forall a, io_eq (f1 a) (f2 a)) -> io_eq (iobind m1 f1) (iobind m2 f2).
Proof.
  intros S A B m1 m2 f1 f2 Hm Hf s. rewrite !iob, Hm. destruct (m2 s) as [[a|e|] s']; try reflexivity. apply Hf.
Qed.
Lemma io_eq_refl : forall S A (m : IO S A), io_eq m m.
Proof. intros S A m s. reflexivity. Qed.

Lemma crypt_bind : forall S A B C (m : res crypt_error A) (f : A -> res crypt_error B) (k : B -> IO S C) s,
  (a <- iores (of_crypt m) ;; b <- iores (of_crypt (f a)) ;; k b) s = (b <- iores (of_crypt (rbind m f)) ;; k b) s.
Proof. intros. rewrite !iob. unfold iores. destruct m as [a|e|]; reflexivity. Qed.

Section worlds.
  Variables (pr1 pr2 : primitives) (secure : bool) (o : conn_options) (pw : str).
  Hypothesis Hgen : forall p nonce,
    data_out (gen_data pr1 p (utf8_encode (o_password o)) nonce o) =
    data_out (gen_data pr2 p (utf8_encode pw) nonce (with_password o pw)).
  Hypothesis Hfull : (o_auth_plugin o = None \/ o_auth_plugin o = Some PSha2) ->
    if secure then o_password o = pw
    else forall key nonce, encrypted pr1 (o_password o) key nonce = encrypted pr2 pw key nonce.

  Lemma worlds_full : forall S (t : transport S), (o_auth_plugin o = None \/ o_auth_plugin o = Some PSha2) ->
    io_eq (full_auth t pr1 secure o) (full_auth t pr2 secure (with_password o pw)).
  Proof.
    intros S t Hp. specialize (Hfull Hp). unfold full_auth. cbv zeta. apply io_eq_bind; [|intros; apply io_eq_refl].
    destruct secure.
    - cbn [with_password o_password]. rewrite Hfull. apply io_eq_refl.
    - apply io_eq_bind; [apply io_eq_refl|]. intros key (s, d). specialize (Hfull key (d_nonce d)).
      unfold encrypted in Hfull. cbn [with_password o_password]. rewrite !crypt_bind, Hfull. reflexivity.
  Qed.

  Lemma worlds_continue : forall n S (t : transport S) s,
    continue_auth n t pr1 secure o s = continue_auth n t pr2 secure (with_password o pw) s.
  Proof.
    induction n as [|n IH]; intros S t (s, d); [reflexivity|]. cbn [continue_auth].
    revert s. match goal with |- forall s, ?a _ = ?b _ => enough (E : io_eq a b) by (intros s; apply E) end.
    apply io_eq_bind; [apply io_eq_refl|]. intros p.
    destruct (first_is 0 p); [apply io_eq_refl|].
    change (current_plugin (with_password o pw) d) with (current_plugin o d).
    destruct (match current_plugin o d with PSha2 => true | _ => false end && first_is 1 p) eqn:F1.
    - destruct (second_is 3 p); [apply io_eq_refl|]. destruct (second_is 4 p); [|apply io_eq_refl].
      apply worlds_full. unfold current_plugin in F1. destruct (o_auth_plugin o) as [[]|]; auto; discriminate.
    - destruct (first_is 254 p && negb (d_auth_switched d)); [|apply io_eq_refl].
      apply io_eq_bind; [apply io_eq_refl|]. intros [pl nonce].
      apply io_eq_bind; [apply io_eq_refl|]. intros _ s. rewrite !iob. unfold iores.
      cbn [o_password with_password]. specialize (Hgen pl nonce).
      destruct (gen_data pr1 pl (utf8_encode (o_password o)) nonce o) as [[x1|]|e1|],
        (gen_data pr2 pl (utf8_encode pw) nonce (with_password o pw)) as [[x2|]|e2|];
        cbn [data_out] in Hgen; try discriminate; try congruence;
        rewrite !iob; try injection Hgen as _ Hgen; try rewrite Hgen; try rewrite <- Hgen;
        match goal with |- context[on_stream ?w s] => destruct (on_stream w s) as [[u|e|] s'] end; try reflexivity; apply IH.
  Qed.

  Lemma worlds_authenticate : forall S (t : transport S) debug other s,
    authenticate t pr1 debug other secure o s = authenticate t pr2 debug other secure (with_password o pw) s.
  Proof.
    intros S t debug other. unfold authenticate.
    match goal with |- forall s, ?a _ = ?b _ => change (io_eq a b) end.
    apply io_eq_bind; [apply io_eq_refl|]. intros g.
    change (handle_handshake debug other (with_password o pw) g) with (handle_handshake debug other o g).
    apply io_eq_bind; [apply io_eq_refl|]. intros d.
    assert (E : make_handshake_response pr1 o d = make_handshake_response pr2 (with_password o pw) d).
    { unfold make_handshake_response. cbv zeta. change (o_auth_plugin (with_password o pw)) with (o_auth_plugin o).
      set (p := match o_auth_plugin o with Some p => p | None => d_auth_plugin d end).
      cbn [o_password with_password o_user o_db_name]. specialize (Hgen p (d_nonce d)).
      destruct (gen_data pr1 p (utf8_encode (o_password o)) (d_nonce d) o) as [[x1|]|e1|],
        (gen_data pr2 p (utf8_encode pw) (d_nonce d) (with_password o pw)) as [[x2|]|e2|];
        cbn [data_out] in Hgen; try discriminate; try congruence; cbn [rbind];
        try injection Hgen as Hgen _; try rewrite Hgen; reflexivity. }
    rewrite E. apply io_eq_bind; [apply io_eq_refl|]. intros h. apply io_eq_bind; [apply io_eq_refl|].
    intros _ s. rewrite worlds_continue. reflexivity.
  Qed.
End worlds.

Lemma xor_is_xor_all : forall a b, length a = length b -> xor a b = xor_all a b.
Proof.
  unfold xor_all. induction a as [|x a IH]; intros [|y b] H; try discriminate; [reflexivity|].
  cbn. rewrite IH by (cbn in H; lia). reflexivity.
Qed.

Lemma native_out : forall pr o pass nonce, hash_fun 20 (p_sha1 pr) ->
  (o_auth_plugin o = None \/ o_auth_plugin o = Some PNative) ->
  data_out (gen_data pr PNative pass nonce o) =
  Ok (native_token (p_sha1 pr) nonce pass, native_token (p_sha1 pr) nonce pass).
Proof.
  intros pr o pass nonce H Ho. unfold gen_data. assert (E : match o_auth_plugin o with
    | Some f => if auth_plugin_eqb PNative f then None else Some (RAuthPluginMismatch f PNative) | None => None end = None)
    by (destruct Ho as [-> | ->]; reflexivity).
  rewrite E. destruct pass as [|x pass]; [reflexivity|]. cbn.
  rewrite xor_is_xor_all by (rewrite !(proj1 (H _)); reflexivity). reflexivity.
Qed.
Lemma sha2_out : forall pr o pass nonce, hash_fun 32 (p_sha256 pr) ->
  (o_auth_plugin o = None \/ o_auth_plugin o = Some PSha2) ->
  data_out (gen_data pr PSha2 pass nonce o) =
  Ok (sha2_token (p_sha256 pr) nonce pass, sha2_token (p_sha256 pr) nonce pass).
Proof.
  intros pr o pass nonce H Ho. unfold gen_data. assert (E : match o_auth_plugin o with
    | Some f => if auth_plugin_eqb PSha2 f then None else Some (RAuthPluginMismatch f PSha2) | None => None end = None)
    by (destruct Ho as [-> | ->]; reflexivity).
  rewrite E. destruct pass as [|x pass]; [reflexivity|]. cbn.
  rewrite xor_is_xor_all by (rewrite !(proj1 (H _)); reflexivity). reflexivity.
Qed.

Lemma encrypted_xor : forall pr1 pr2 pw1 pw2,
  (forall key nonce, nonce <> [] ->
     p_encrypt pr1 key (xor_nonce nonce (utf8_encode pw1 ++ [0])) = p_encrypt pr2 key (xor_nonce nonce (utf8_encode pw2 ++ [0]))) ->
  forall key nonce, encrypted pr1 pw1 key nonce = encrypted pr2 pw2 key nonce.
Proof.
  intros pr1 pr2 pw1 pw2 H key nonce. unfold encrypted. destruct nonce as [|x nonce].
  - unfold mask_password. destruct (utf8_encode pw1), (utf8_encode pw2); reflexivity.
  - rewrite !mask_password_xor by discriminate. apply H. discriminate.
Qed.

(** ** Fuel *)

Lemma fuel_switched : forall n S (t : transport S) pr secure o s d, d_auth_switched d = true ->
  continue_auth (1 + n) t pr secure o (s, d) = continue_auth 1 t pr secure o (s, d).
Proof.
  intros n S t pr secure o s d Hd. cbn [continue_auth Nat.add]. rewrite Hd.
  rewrite !iob. destruct (on_stream (t_read t) (s, d)) as [[p|e|] s']; try reflexivity.
  rewrite andb_false_r. reflexivity.
Qed.

Lemma fuel_enough : forall n S (t : transport S) pr secure o s,
  continue_auth (2 + n) t pr secure o s = continue_auth 2 t pr secure o s.
Proof.
  intros n S t pr secure o (s, d). cbn [Nat.add].
  change (continue_auth (Datatypes.S (Datatypes.S n)) t pr secure o (s, d) = continue_auth (Datatypes.S 1) t pr secure o (s, d)).
  cbn [continue_auth]. revert s.
  match goal with |- forall s, ?a _ = ?b _ => enough (E : io_eq a b) by (intros s; apply E) end.
  apply io_eq_bind; [apply io_eq_refl|]. intros p. destruct (first_is 0 p); [apply io_eq_refl|].
  destruct (_ && first_is 1 p); [apply io_eq_refl|]. destruct (first_is 254 p && _); [|apply io_eq_refl].
  apply io_eq_bind; [apply io_eq_refl|]. intros [pl nonce] (s, d'). rewrite !iob.
  destruct (d_auth_switched d'); [reflexivity|]. rewrite !iob. unfold iores.
  destruct (gen_data pr pl (utf8_encode (o_password o)) nonce o); try reflexivity.
  rewrite !iob. unfold on_stream. destruct (t_write t _ s) as [[u|e|] s2]; try reflexivity.
  apply (fuel_switched n S t pr secure o s2 (switched d' pl nonce)). reflexivity.
Qed.

(** ** Switch requests *)

Lemma read_switch_request : forall p data pkt, switch_request p data pkt ->
  read_auth_switch pkt = Ok (p, strip_zero data).
Proof.
  intros p data pkt ->. unfold read_auth_switch.
  rewrite (pbind_ok _ _ _ tt (wire_nul_str (plugin_name p) ++ data)).
  2:{ apply (skip_app 1 [254]). reflexivity. }
  rewrite (pbind_ok _ _ _ p data).
  2:{ unfold plugin_p. change (wire_nul_str (plugin_name p)) with (put_null_slice (plugin_name p)).
      rewrite (pbind_ok _ _ _ _ _ (eat_null_slice_app (plugin_name p) data (plugin_name_nonul p))).
      rewrite plugin_from_name. reflexivity. }
  reflexivity.
Qed.

Lemma forced_other : forall pr o f p pass nonce, o_auth_plugin o = Some f -> p <> f ->
  gen_data pr p pass nonce o = Err (ERuntime (RAuthPluginMismatch f p)).
Proof. intros pr o f p pass nonce E H. unfold gen_data. rewrite E. destruct p, f; try contradiction; reflexivity. Qed.

(** ** Counting *)

Lemma switches_cons : forall q rest, (forall p r, rest <> Sent p :: r) -> switches (Received q :: rest) = switches rest.
Proof.
  intros q rest H. destruct rest as [|[p|p] rest].
  - cbn. repeat (match goal with |- context[match ?x with _ => _ end] => destruct x end; try reflexivity).
  - cbn. repeat (match goal with |- context[match ?x with _ => _ end] => destruct x end; try reflexivity).
  - destruct (H p rest eq_refl).
Qed.
Lemma switches_end : forall q, switches [Received q] = 0%nat.
Proof. intros q. apply switches_cons. discriminate. Qed.

Lemma full_counts : forall pr secure o ev r, full_shape pr secure o ev r ->
  (length (received ev) <= 2)%nat /\ (length (sent ev) <= 2)%nat /\ switches ev = 0%nat.
Proof.
  intros pr secure o ev r H. inversion H as [| |k|pre p ? Hp|pre p q ? Hp]; subst; try (cbn; repeat split; lia).
  - change (switches [Sent [2]; Received k]) with (switches [Received k]). rewrite switches_end. cbn. repeat split; lia.
  - destruct Hp as [-> | (_ & k & ->)]; cbn; repeat split; lia.
  - destruct Hp as [-> | (_ & k & ->)].
    + change (switches ([] ++ [Sent p; Received q])) with (switches [Received q]). rewrite switches_end. cbn. repeat split; lia.
    + change (switches ([Sent [2]; Received (1 :: k)] ++ [Sent p; Received q])) with (switches [Received q]).
      rewrite switches_end. cbn. repeat split; lia.
Qed.

Lemma auth_counts : forall pr secure o sw sha2 ev r, auth_shape pr secure o sw sha2 ev r ->
  (length (received ev) <= (if sw then 3 else 4))%nat /\ (length (sent ev) <= (if sw then 2 else 3))%nat /\
  (switches ev <= (if sw then 0 else 1))%nat.
Proof.
  intros pr secure o sw sha2 ev r H. induction H.
  - cbn. destruct sw; repeat split; lia.
  - rewrite switches_end. cbn. destruct sw; repeat split; lia.
  - rewrite switches_cons, switches_end by discriminate. cbn. destruct sw; repeat split; lia.
  - destruct (full_counts _ _ _ _ _ H) as (A & B & C).
    change (switches (Received (1 :: 4 :: q) :: ev)) with (switches ev). rewrite C. cbn.
    unfold received, sent in *. destruct sw; repeat split; lia.
  - destruct H as (q' & ->). cbn. repeat split; lia.
  - destruct H as (q' & ->). destruct IHauth_shape as (A & B & C).
    unfold received, sent in *. cbn [flat_map app length].
    match goal with |- context[switches (?a :: ?b :: ev)] =>
      change (switches (a :: b :: ev)) with (Datatypes.S (switches ev)) end. repeat split; lia.
Qed.
