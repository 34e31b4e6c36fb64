(** Lemmas for C76: which packets make the command layer panic. *)
From Coq Require Import String ZArith List Bool Lia.
From Verif Require Import Base BaseFacts Types Utf8 ParseBuf BufMut Spec_Wire ParseBuf_proofs Framing Framing_proofs
  Packets Spec_Packets Packets_proofs Crypt Handshake ValueBin Spec_Stmt StmtPackets StmtPackets_proofs ValueText Rows Rows_proofs
  Conversion Auth Auth_proofs Conn Spec_Conn Conn_proofs Spec_Panic.
Import ListNotations.
Open Scope Z_scope.
Open Scope io_scope.

(** Any state the connection can be in. *)
Definition wire_ok (c : conn) : Prop := byte_ok (c_seq c) /\ bytes_ok (s_in (c_stream c)).

Definition taken (c c' : conn) : Prop := exists pre, s_in (c_stream c) = pre ++ s_in (c_stream c').

Lemma taken_refl : forall c, taken c c.
Proof. intros c. now exists []. Qed.
Lemma taken_trans : forall a b c, taken a b -> taken b c -> taken a c.
Proof. intros a b c (p & Hp) (q & Hq). exists (p ++ q). now rewrite Hp, Hq, app_assoc. Qed.
Lemma taken_same : forall c c', s_in (c_stream c') = s_in (c_stream c) -> taken c c'.
Proof. intros c c' H. exists []. now rewrite H. Qed.
Lemma taken_ok : forall c c', taken c c' -> bytes_ok (s_in (c_stream c)) -> bytes_ok (s_in (c_stream c')).
Proof. intros c c' (p & E) H. rewrite E in H. now apply Forall_app in H. Qed.

Lemma write_all_in : forall b s r s', write_all b s = (r, s') -> s_in s' = s_in s.
Proof.
  intros b s r s'. unfold write_all. destruct (s_budget s) as [n|]; [destruct (_ <=? _)|]; intros H; injection H as <- <-; reflexivity.
Qed.

Lemma write_chunks_in : forall fuel seq b s r q s', (length b < fuel)%nat -> byte_ok seq -> write_chunks fuel seq b s = ((r, q), s') ->
  s_in s' = s_in s /\ byte_ok q /\ r <> Panic.
Proof.
  induction fuel as [|fuel IH]; intros seq b s r q s' Hl Hs H; [lia|]. cbn [write_chunks] in H.
  destruct b as [|x b]; [injection H as <- <- <-; splits; auto; discriminate|].
  rewrite write_all_app in H. destruct (write_all _ s) as [[u|e|] s1] eqn:E.
  - apply IH in H.
    + apply write_all_in in E. now rewrite E in H.
    + rewrite dropZ_skipn, skipn_length. unfold lenZ, MAX_PAYLOAD_LEN. cbn [length] in *. lia.
    + unfold byte_ok. apply Z.mod_pos_bound. lia.
  - injection H as <- <- <-. apply write_all_in in E. splits; auto; discriminate.
  - exfalso. exact (write_all_no_panic _ _ _ E).
Qed.

Lemma conn_write_in : forall b c r c', wire_ok c -> conn_write b c = (r, c') ->
  wire_ok c' /\ s_in (c_stream c') = s_in (c_stream c) /\ r <> Panic.
Proof.
  intros b c r c' (Hs & Hb) H. unfold conn_write, write_packet in H.
  destruct (write_chunks _ _ _ _) as [[r1 q] s1] eqn:E. apply write_chunks_in in E as (E1 & E2 & E3); [|lia|exact Hs].
  destruct r1 as [u|e|]; [|injection H as <- <-; splits; try discriminate; auto; split; cbn; now rewrite ?E1|contradiction].
  destruct (_ =? 0).
  - destruct (write_all _ s1) as [[u'|e|] s2] eqn:W; try (exfalso; exact (write_all_no_panic _ _ _ W));
      apply write_all_in in W; injection H as <- <-; (split; [split; cbn|split; cbn]); rewrite ?W, ?E1; auto; try discriminate.
    unfold byte_ok. apply Z.mod_pos_bound. lia.
  - injection H as <- <-. splits; try discriminate; auto; split; cbn; now rewrite ?E1.
Qed.

Lemma read_exact_in : forall n s r s', read_exact n s = (r, s') -> exists pre, s_in s = pre ++ s_in s'.
Proof.
  intros n s r s' H. unfold read_exact in H. destruct (_ <? _); injection H as <- <-; cbn [s_in].
  - exists (s_in s). now rewrite app_nil_r.
  - exists (takeZ n (s_in s)). rewrite takeZ_firstn, dropZ_skipn. now rewrite firstn_skipn.
Qed.

Lemma read_chunk_in : forall dst s r s', read_chunk_to_buf dst s = (r, s') -> exists pre, s_in s = pre ++ s_in s'.
Proof.
  intros dst s r s' H. unfold read_chunk_to_buf, iobind in H.
  destruct (read_exact 4 s) as [[m|e|] s1] eqn:E; apply read_exact_in in E as (p1 & E); try (injection H as <- <-; eauto; fail).
  destruct (_ =? 0); [injection H as <- <-; eauto|].
  destruct (read_exact _ s1) as [[b|e|] s2] eqn:E2; apply read_exact_in in E2 as (p2 & E2); injection H as <- <-;
    exists (p1 ++ p2); now rewrite E, E2, app_assoc.
Qed.

Lemma read_packet_in : forall fuel seq dst s r q s', byte_ok seq -> read_packet_to_buf fuel seq dst s = ((r, q), s') ->
  byte_ok q /\ exists pre, s_in s = pre ++ s_in s'.
Proof.
  induction fuel as [|fuel IH]; intros seq dst s r q s' Hs H; cbn [read_packet_to_buf] in H.
  { injection H as <- <- <-. split; [exact Hs | now exists []]. }
  destruct (read_chunk_to_buf dst s) as [[[[d sq] last]|e|] s1] eqn:E; apply read_chunk_in in E as (p1 & E);
    try (injection H as <- <- <-; eauto; fail).
  destruct (negb _); [injection H as <- <- <-; eauto|].
  assert (B : byte_ok ((seq + 1) mod 256)) by (unfold byte_ok; apply Z.mod_pos_bound; lia).
  destruct last; [injection H as <- <- <-; eauto|].
  apply IH in H as (Hq & p2 & H); [|exact B]. split; [exact Hq|]. exists (p1 ++ p2). now rewrite E, H, app_assoc.
Qed.

Lemma conn_read_in : forall c r c', wire_ok c -> conn_read c = (r, c') ->
  wire_ok c' /\ taken c c' /\ r <> Panic /\
  forall p, r = Ok p -> exists w q', frames (c_seq c) p w q' /\ s_in (c_stream c) = w ++ s_in (c_stream c').
Proof.
  intros c r c' (Hs & Hb) H. unfold conn_read in H. destruct (read_packet (c_seq c) (c_stream c)) as [[r1 q] s1] eqn:E.
  injection H as <- <-. pose proof (read_packet_no_panic (c_seq c) (c_stream c)) as N. rewrite E in N.
  pose proof E as E0. unfold read_packet in E0. apply read_packet_in in E0 as (Hq & pre & Hp); [|exact Hs].
  assert (T : taken c (mkConn s1 q (c_data c) (c_pending c))) by (exists pre; exact Hp).
  split; [split; [exact Hq | eapply taken_ok; eauto]|]. split; [exact T|]. split; [exact N|].
  intros p ->. apply read_packet_iff in E as (w & F & I & _); eauto.
Qed.

Section Calm.
  Context {A : Type} (decode : list column -> bytes -> res error A).

  Definition cause (c c' : conn) : Prop := fatal_input decode (s_in (c_stream c)) (s_in (c_stream c')).

  Lemma cause_after : forall a b c, taken a b -> cause b c -> cause a c.
  Proof.
    intros a b c (p & Hp) (pre & q & x & w & q' & H & F & B). exists (p ++ pre), q, x, w, q'. split; auto.
    rewrite Hp, H. now rewrite !app_assoc.
  Qed.

  (** [m] panics only if the last packet it has taken is fatal. *)
  Definition calm {B} (m : IO conn B) : Prop :=
    forall c, wire_ok c -> forall r c', m c = (r, c') -> wire_ok c' /\ taken c c' /\ (r = Panic -> cause c c').

  Lemma calm_bind : forall B C (m : IO conn B) (f : B -> IO conn C), calm m -> (forall b, calm (f b)) -> calm (iobind m f).
  Proof.
    intros B C m f Hm Hf c Hc r c' H. rewrite iob in H. destruct (m c) as [[b|e|] c1] eqn:E.
    - destruct (Hm c Hc _ _ E) as (O & T & _). destruct (Hf b c1 O _ _ H) as (O' & T' & P).
      split; [exact O'|]. split; [eapply taken_trans; eauto|]. intros X. eapply cause_after; eauto.
    - injection H as <- <-. destruct (Hm c Hc _ _ E) as (O & T & _). splits; auto. discriminate.
    - injection H as <- <-. destruct (Hm c Hc _ _ E) as (O & T & P). splits; auto.
  Qed.

  Lemma calm_ret : forall B (b : B), calm (ioret b).
  Proof. intros B b c Hc r c' H. injection H as <- <-. splits; auto using taken_refl. discriminate. Qed.

  Lemma calm_res : forall B (x : res error B), x <> Panic -> calm (iores x).
  Proof. intros B x Hx c Hc r c' H. injection H as <- <-. splits; auto using taken_refl. contradiction. Qed.

  Lemma calm_write : forall b, calm (conn_write b).
  Proof.
    intros b c Hc r c' H. destruct (conn_write_in b c r c' Hc H) as (O & I & P). splits; auto using taken_same. contradiction.
  Qed.

  Lemma calm_read : calm conn_read.
  Proof. intros c Hc r c' H. destruct (conn_read_in c r c' Hc H) as (O & T & P & _). splits; auto. contradiction. Qed.

  Lemma calm_reset : calm reset_seq.
  Proof.
    intros c (Hs & Hb) r c' H. injection H as <- <-. split; [split; [unfold byte_ok; cbn; lia | exact Hb]|].
    split; [now apply taken_same | discriminate].
  Qed.

  Lemma calm_pending : forall b, calm (set_pending b).
  Proof. intros b c (Hs & Hb) r c' H. injection H as <- <-. split; [split; assumption|]. split; [now apply taken_same | discriminate]. Qed.

  Lemma calm_here : forall B (m : conn -> IO conn B), (forall x, calm (m x)) -> calm (fun c => m c c).
  Proof. intros B m Hm c Hc r c' H. exact (Hm c c Hc r c' H). Qed.

  (** What follows the reading of a packet may panic if that packet is fatal. *)
  Lemma calm_packet : forall B (f : bytes -> IO conn B),
    (forall p, fatal decode p \/ calm (f p)) ->
    (forall p c r c', fatal decode p -> wire_ok c -> f p c = (r, c') ->
       wire_ok c' /\ taken c c' /\ (r = Panic -> s_in (c_stream c') = s_in (c_stream c) \/ cause c c')) ->
    calm (iobind conn_read f).
  Proof.
    intros B f H1 H2 c Hc r c' H. rewrite iob in H. destruct (conn_read c) as [[p|e|] c1] eqn:E;
      destruct (conn_read_in c _ c1 Hc E) as (O & T & P & Q).
    - destruct (H1 p) as [F|F].
      + destruct (H2 p c1 r c' F O H) as (O' & T' & X). split; [exact O'|]. split; [eapply taken_trans; eauto|].
        intros Y. destruct (X Y) as [Z|Z]; [|eapply cause_after; eauto].
        destruct (Q p eq_refl) as (w & q' & Fr & I). exists [], (c_seq c), p, w, q'. split; [|split; assumption].
        cbn [app]. now rewrite I, Z.
      + destruct (F c1 O r c' H) as (O' & T' & X). split; [exact O'|]. split; [eapply taken_trans; eauto|].
        intros Y. eapply cause_after; eauto.
    - injection H as <- <-. splits; auto. discriminate.
    - contradiction.
  Qed.
End Calm.

Create HintDb calm.
#[export] Hint Resolve calm_bind calm_ret calm_res calm_write calm_read calm_reset calm_pending : calm.

Lemma of_protocol_np : forall A (x : res protocol_error A), x <> Panic -> of_protocol x <> Panic.
Proof. intros A [a|e|] H; [discriminate | discriminate | contradiction]. Qed.
#[export] Hint Resolve of_protocol_np read_ok_np read_eof_np read_err_np read_column_np : calm.

Section Ops.
  Context {A : Type} (decode : list column -> bytes -> res error A).
  Notation calm := (calm decode).

  Lemma calm_server_error : forall B p caps, calm (iores (@server_error B p caps)).
  Proof.
    intros B p caps. apply calm_res. unfold server_error. pose proof (read_err_np p caps).
    destruct (read_err p caps); [discriminate | discriminate | contradiction].
  Qed.

  Lemma calm_decode : forall p, calm (decode_response p).
  Proof.
    intros p. apply (calm_here decode _ (fun x c => match p with
      | [] => (Err (EProtocol peof), c)
      | y :: _ =>
        if y =? 0 then (z <- iores (of_protocol (read_ok p (c_caps x))) ;; ioret (Ok z)) c
        else if y =? 255 then (e <- iores (of_protocol (read_err p (c_caps x))) ;; ioret (Err e)) c
        else (Err (EProtocol (PUnexpectedPacket p)), c) end)).
    intros x. destruct p as [|y p]; [apply (calm_res decode _ (Err _)); discriminate|].
    destruct (y =? 0); [auto with calm|]. destruct (y =? 255); [auto with calm|]. apply (calm_res decode _ (Err _)); discriminate.
  Qed.

  Lemma calm_of_server : forall B (x : res err_packet B), x <> Panic -> calm (iores (of_server x)).
  Proof. intros B [b|e|] H; [| |contradiction]; apply calm_res; discriminate. Qed.

  Lemma decode_response_np : forall p c r c', decode_response p c = (Ok r, c') -> r <> Panic.
  Proof.
    intros p c r c'. unfold decode_response. destruct p as [|y p]; [discriminate|]. destruct (y =? 0); [|destruct (y =? 255); [|discriminate]].
    - rewrite iob. unfold iores. destruct (of_protocol _); [|discriminate|discriminate]. intros H. injection H as <- _. discriminate.
    - rewrite iob. unfold iores. destruct (of_protocol _); [|discriminate|discriminate]. intros H. injection H as <- _. discriminate.
  Qed.

  Lemma calm_decoded : forall B p (f : ok_packet -> IO conn B), (forall x, calm (f x)) ->
    calm (r <- decode_response p ;; x <- iores (of_server r) ;; f x).
  Proof.
    intros B p f Hf c Hc r c' H. rewrite iob in H. destruct (decode_response p c) as [[x|e|] c1] eqn:E.
    - destruct (calm_decode p c Hc _ _ E) as (O & T & _). apply decode_response_np in E.
      assert (K : calm (y <- iores (of_server x) ;; f y)) by (apply calm_bind; auto using calm_of_server).
      destruct (K c1 O r c' H) as (O' & T' & P). split; [exact O'|]. split; [eapply taken_trans; eauto|].
      intros X. eapply cause_after; eauto.
    - injection H as <- <-. destruct (calm_decode p c Hc _ _ E) as (O & T & P). splits; auto. discriminate.
    - injection H as <- <-. destruct (calm_decode p c Hc _ _ E) as (O & T & P). splits; auto.
  Qed.

  Lemma calm_response : calm read_response.
  Proof.
    unfold read_response. apply calm_bind; [auto with calm|]. intros p.
    intros c Hc r c' H.
    apply (calm_decoded _ p (fun x => ioret x) ltac:(auto with calm) c Hc r c').
    rewrite iob in H |- *. destruct (decode_response p c) as [[x|e|] c1]; auto. rewrite iob. unfold iores in *.
    injection H as <- <-. destruct (of_server x); reflexivity.
  Qed.

  Lemma is_last_np : forall caps p, p <> [] -> exists b, is_last caps p = Ok b.
  Proof. intros caps [|x p] H; [contradiction|]. eexists. reflexivity. Qed.

  (** Each round takes at least four bytes. *)
  Lemma read_shorter : forall c p c', wire_ok c -> conn_read c = (Ok p, c') ->
    (length (s_in (c_stream c')) < length (s_in (c_stream c)))%nat.
  Proof.
    intros c p c' Hc H. destruct (conn_read_in c _ c' Hc H) as (_ & _ & _ & Q). destruct (Q p eq_refl) as (w & q & F & I).
    apply frames_wire_length in F. rewrite I, app_length. lia.
  Qed.

  Lemma calm_cleanup_loop : forall fuel c, wire_ok c -> (length (s_in (c_stream c)) < fuel)%nat ->
    forall r c', cleanup_loop fuel c = (r, c') -> wire_ok c' /\ taken c c' /\ (r = Panic -> cause decode c c').
  Proof.
    induction fuel as [|fuel IH]; intros c Hc Hl r c' H; [lia|]. cbn [cleanup_loop] in H. rewrite iob in H.
    destruct (conn_read c) as [[p|e|] c1] eqn:E; destruct (conn_read_in c _ c1 Hc E) as (O & T & P & Q); [| |contradiction].
    - destruct p as [|x p].
      + cbn in H. injection H as <- <-. splits; auto. intros _. destruct (Q [] eq_refl) as (w & q & F & I).
        exists [], (c_seq c), [], w, q. split; [exact I|]. split; [exact F | constructor].
      + rewrite iob in H. unfold is_last in H. unfold iores at 1 in H. destruct (_ && _).
        * assert (K : calm (set_pending false ;;; y <- iores (of_protocol (read_eof (x :: p) (c_caps c1))) ;; ioret (Some y)))
            by auto with calm.
          destruct (K c1 O r c' H) as (O' & T' & X). splits; auto; [eapply taken_trans; eauto|]. intros Y. eapply cause_after; eauto.
        * pose proof (read_shorter _ _ _ Hc E). apply IH in H as (O' & T' & X); [|exact O|lia].
          splits; auto; [eapply taken_trans; eauto|]. intros Y. eapply cause_after; eauto.
    - injection H as <- <-. splits; auto. discriminate.
  Qed.

  Lemma calm_cleanup : calm cleanup.
  Proof.
    intros c Hc r c' H. unfold cleanup in H. destruct (c_pending c).
    - eapply calm_cleanup_loop in H; eauto; lia.
    - injection H as <- <-. splits; auto using taken_refl. discriminate.
  Qed.
  Hint Resolve calm_cleanup : calm.

  Lemma calm_command : forall b, calm (write_command b).
  Proof. intros b. unfold write_command. auto with calm. Qed.
  Lemma calm_execute : forall cmd data, calm (execute_command cmd data).
  Proof. intros. unfold execute_command. auto with calm. Qed.
  Hint Resolve calm_command calm_execute calm_response : calm.

  Lemma calm_defs : forall n, calm (read_column_defs n).
  Proof. induction n; cbn [read_column_defs]; auto 8 with calm. Qed.
  Lemma calm_skip : forall n, calm (skip_packets n).
  Proof. induction n; cbn [skip_packets]; auto with calm. Qed.
  Hint Resolve calm_defs calm_skip : calm.

  Definition open_columns (n : Z) : IO conn result_set :=
    fun c => (columns <- read_column_defs (Z.to_nat (Z.min n (lenZ (s_in (c_stream c)) + 1))) ;;
              ioret (mkSet columns None)) c.
  Lemma calm_open : forall n, calm (open_columns n).
  Proof.
    intros n. apply (calm_here decode _ (fun x => columns <- read_column_defs (Z.to_nat (Z.min n (lenZ (s_in (c_stream x)) + 1))) ;;
       ioret (mkSet columns None))). auto with calm.
  Qed.

  Lemma lenenc_read : forall p n, bytes_ok p -> fst (checked_eat_lenenc_int p) = Ok n -> 0 < n ->
    exists w r, p = w ++ r /\ lenenc n w.
  Proof.
    intros [|x p] n Hb H Hn; [discriminate|]. unfold checked_eat_lenenc_int in H. unfold pbind in H. rewrite checked_eat_u8_cons in H.
    inversion Hb as [|? ? Hx Hp]; subst.
    assert (G : forall k, fst (checked_eat_uint k p) = Ok n -> exists r, p = wire_uint k n ++ r /\ 0 <= n < 256 ^ Z.of_nat k).
    { intros k Hk. destruct (checked_eat_uint k p) as [y b'] eqn:E. cbn in Hk. subst y.
      apply checked_eat_uint_inv in E as (E & U & _); [|exact Hp]. exists b'. auto. }
    destruct (x <=? 250) eqn:E1.
    { cbn in H. injection H as <-. exists [x], p. split; [reflexivity|]. constructor. unfold byte_ok in Hx. lia. }
    destruct (x =? 252) eqn:E2. { apply G in H as (r & -> & R). exists (x :: wire_uint 2 n), r. split; [reflexivity|].
      replace x with 252 by lia. constructor. exact R. }
    destruct (x =? 253) eqn:E3. { apply G in H as (r & -> & R). exists (x :: wire_uint 3 n), r. split; [reflexivity|].
      replace x with 253 by lia. constructor. exact R. }
    destruct (x =? 254) eqn:E4. { apply G in H as (r & -> & R). exists (x :: wire_uint 8 n), r. split; [reflexivity|].
      replace x with 254 by lia. constructor. exact R. }
    cbn in H. injection H as <-. lia.
  Qed.

  Lemma frames_bytes : forall q p w q', frames q p w q' -> bytes_ok w -> bytes_ok p.
  Proof.
    intros q p w q' H. induction H as [q body L | q body rest w q' L F IH]; intros Hw; unfold bytes_ok in *.
    - apply Forall_app in Hw as (_ & Hw). apply Forall_app in Hw as (_ & Hw). exact Hw.
    - apply Forall_app in Hw as (_ & Hw). apply Forall_app in Hw as (_ & Hw). apply Forall_app in Hw as (Hb & Hw).
      apply Forall_app. split; [exact Hb | now apply IH].
  Qed.

  Lemma np_lenenc : forall p, of_protocol (fst (checked_eat_lenenc_int p)) <> Panic.
  Proof. intros p. apply of_protocol_np. apply np_checked_eat_lenenc_int. Qed.

  Lemma calm_rs_read : calm rs_read.
  Proof.
    intros c Hc r c' H. unfold rs_read in H. rewrite iob in H.
    destruct (conn_read c) as [[p|e|] c1] eqn:E; destruct (conn_read_in c _ c1 Hc E) as (O & T & P & Q); [| |contradiction].
    2:{ injection H as <- <-. splits; auto. discriminate. }
    assert (K : forall B (m : IO conn B) r c', calm m -> m c1 = (r, c') -> wire_ok c' /\ taken c c' /\ (r = Panic -> cause decode c c')).
    { intros B m r0 c0 Hm Em. destruct (Hm c1 O _ _ Em) as (O' & T' & X). splits; auto; [eapply taken_trans; eauto|].
      intros Y. eapply cause_after; eauto. }
    destruct (Q p eq_refl) as (w & q & F & I).
    assert (Fatal : forall r c', fatal decode p -> wire_ok c' -> s_in (c_stream c') = s_in (c_stream c1) ->
              wire_ok c' /\ taken c c' /\ (r = @Panic error result_set -> cause decode c c')).
    { intros r0 c0 Hp Hw Hs. split; [exact Hw|]. split; [exists w; now rewrite I, Hs|]. intros _.
      exists [], (c_seq c), p, w, q. rewrite Hs. auto. }
    destruct (first_is 0 p) eqn:E0.
    { revert H. apply K. apply calm_decoded. auto with calm. }
    destruct (first_is 251 p) eqn:E1.
    { injection H as <- <-. apply Fatal; auto. destruct p as [|x p]; [discriminate|]. unfold first_is in E1.
      replace x with 251 by lia. constructor. }
    destruct (first_is 255 p) eqn:E2.
    { apply (K _ (iores (server_error p (c_caps c1)))); [apply calm_server_error | exact H]. }
    rewrite iob in H. unfold set_pending in H. rewrite iob in H. unfold iores at 1 in H.
    pose proof (np_lenenc p) as N. set (c2 := mkConn (c_stream c1) (c_seq c1) (c_data c1) true) in *.
    assert (O2 : wire_ok c2) by exact O.
    destruct (fst (checked_eat_lenenc_int p)) as [n|e|] eqn:En; cbn [of_protocol rmap_err] in *; [| |contradiction].
    - destruct (capacity_overflow n) eqn:Eo.
      + injection H as <- <-. apply Fatal; auto. unfold capacity_overflow, COLUMN_SIZE in Eo.
        destruct (lenenc_read p n) as (wn & r & -> & L).
        * eapply frames_bytes; [exact F|]. destruct Hc as (_ & Hb). rewrite I in Hb. now apply Forall_app in Hb.
        * exact En.
        * lia.
        * eapply fatal_columns; [exact L | lia].
      + destruct (calm_open n c2 O2 r c' H) as (O' & T' & X).
        assert (T2 : taken c c2) by exact T. splits; auto; [eapply taken_trans; eauto|]. intros Y. eapply cause_after; eauto.
    - injection H as <- <-. splits; auto. discriminate.
  Qed.
  Hint Resolve calm_rs_read : calm.

  Lemma np_stmt : no_panic stmt_p.
  Proof.
    unfold stmt_p. apply safe_check. apply (safe_bind _ _ _ _ 1 11); [lia | apply takes_skip|]. intros _.
    apply (safe_bind _ _ _ _ 4 7); [lia | apply takes_eat|]. intros id.
    apply (safe_bind _ _ _ _ 2 5); [lia | apply takes_eat|]. intros columns.
    apply (safe_bind _ _ _ _ 2 3); [lia | apply takes_eat|]. intros params.
    apply (safe_bind _ _ _ _ 1 2); [lia | apply takes_skip|]. intros _.
    apply (safe_bind _ _ _ _ 2 0); [lia | apply takes_eat|]. intros warnings. apply safe_np, np_ret.
  Qed.

  Lemma calm_query : forall q, calm (query q).
  Proof. intros q. unfold query. auto with calm. Qed.
  Lemma calm_execute_query : forall q, calm (execute_query q).
  Proof. intros q. unfold execute_query. auto with calm. Qed.
  Lemma calm_prepare : forall q, calm (prepare_statement q).
  Proof.
    intros q. unfold prepare_statement. apply calm_bind; [auto with calm|]. intros _. apply calm_bind; [auto with calm|]. intros p.
    apply calm_bind; [|auto with calm].
    apply (calm_here decode _ (fun x => if first_is 0 p then iores (of_protocol (read_stmt p))
              else if first_is 255 p then iores (server_error p (c_caps x))
              else iores (Err (EProtocol (PUnexpectedPacket p))))).
    intros x. destruct (first_is 0 p); [|destruct (first_is 255 p)].
    - apply calm_res, of_protocol_np. 
      unfold read_stmt. apply np_stmt.
    - apply calm_server_error.
    - apply calm_res. discriminate.
  Qed.
  Lemma calm_commands : forall l, calm (write_commands l).
  Proof. induction l; cbn [write_commands]; auto with calm. Qed.
  Lemma calm_send : forall id values, Forall value_ok values -> calm (send_execute id values).
  Proof.
    intros id values Hv. unfold send_execute. destruct (execute_new_spec id values Hv) as (bm & -> & _).
    unfold send_long_data. destruct (ex_as_long_data _); auto using calm_commands with calm.
  Qed.
  Lemma calm_stmt_query : forall st values, Forall value_ok values -> calm (stmt_query st values).
  Proof.
    intros st values Hv. unfold stmt_query. destruct (negb _); [apply calm_res; discriminate|]. auto using calm_send with calm.
  Qed.
  Lemma calm_stmt_execute : forall st values, Forall value_ok values -> calm (stmt_execute st values).
  Proof.
    intros st values Hv. unfold stmt_execute. destruct (negb _); [apply calm_res; discriminate|]. auto using calm_send with calm.
  Qed.
  Lemma calm_disconnect : calm disconnect.
  Proof. unfold disconnect. auto with calm. Qed.

  (** ** Rows *)

  Definition calm_rows {B} (m : IO (conn * result_set) B) : Prop :=
    forall c rs, wire_ok c -> forall r c' rs', m (c, rs) = (r, (c', rs')) ->
    wire_ok c' /\ taken c c' /\ (r = Panic -> cause decode c c').

  Lemma next_cases : forall c rs r c' rs', wire_ok c -> rs_next decode (c, rs) = (r, (c', rs')) ->
    wire_ok c' /\ taken c c' /\ (r = Panic -> cause decode c c') /\
    (forall a, r = Ok (Some a) -> (length (s_in (c_stream c')) < length (s_in (c_stream c)))%nat) /\
    (r = Ok None -> rs_ok rs' <> None).
  Proof.
    intros c rs r c' rs' Hc H. unfold rs_next in H. destruct (rs_ok rs) eqn:Er.
    { injection H as <- <- <-. splits; auto using taken_refl; try discriminate. rewrite Er. discriminate. }
    destruct (conn_read c) as [[p|e|] c1] eqn:E; destruct (conn_read_in c _ c1 Hc E) as (O & T & P & Q); [| |contradiction].
    2:{ injection H as <- <- <-. splits; auto; discriminate. }
    destruct (Q p eq_refl) as (w & q & F & I). pose proof (read_shorter _ _ _ Hc E) as Sh.
    assert (C : fatal decode p -> cause decode c c1) by (intros X; exists [], (c_seq c), p, w, q; auto).
    destruct p as [|x p].
    { cbn in H. injection H as <- <- <-. splits; auto; try discriminate. intros _. apply C. constructor. }
    cbn [is_last] in H. destruct (_ && _).
    - pose proof (read_eof_np (x :: p) (c_caps c1)). destruct (read_eof _ _) as [k|e|]; [| |contradiction]; injection H as <- <- <-.
      + splits; auto; discriminate.
      + splits; auto; discriminate.
    - injection H as <- <- <-. destruct (decode (rs_columns rs) (x :: p)) as [a|e|] eqn:Ed; cbn [rbind]; splits; auto; try discriminate.
      intros _. apply C. eapply fatal_row. exact Ed.
  Qed.

  Lemma calm_next : calm_rows (rs_next decode).
  Proof. intros c rs Hc r c' rs' H. destruct (next_cases _ _ _ _ _ Hc H) as (O & T & P & _). auto. Qed.

  Lemma calm_collect : calm_rows (collect decode).
  Proof.
    intros c rs Hc r c' rs' H. unfold collect, rounds in H.
    assert (G : forall fuel l c rs, wire_ok c -> (length (s_in (c_stream c)) < fuel)%nat -> forall r c' rs',
      collect_loop decode fuel l (c, rs) = (r, (c', rs')) -> wire_ok c' /\ taken c c' /\ (r = Panic -> cause decode c c')).
    { clear. induction fuel as [|fuel IH]; intros l c rs Hc Hl r c' rs' H; [lia|]. cbn [collect_loop] in H. rewrite iob in H.
      destruct (rs_next decode (c, rs)) as [x [c1 rs1]] eqn:E. destruct (next_cases _ _ _ _ _ Hc E) as (O & T & P & S & _).
      destruct x as [[a|]|e|]; try (injection H as <- <- <-; splits; auto; discriminate).
      apply IH in H as (O' & T' & X); [|exact O|specialize (S a eq_refl); lia].
      splits; auto; [eapply taken_trans; eauto|]. intros Y. eapply cause_after; eauto. }
    eapply G in H; eauto.
  Qed.

  Lemma drain_cases : forall fuel c rs, wire_ok c -> (length (s_in (c_stream c)) < fuel)%nat -> forall r c' rs',
    drain_loop decode fuel (c, rs) = (r, (c', rs')) -> wire_ok c' /\ taken c c' /\ (r = Panic -> cause decode c c') /\
    (r = Ok tt -> rs_ok rs' <> None).
  Proof.
    induction fuel as [|fuel IH]; intros c rs Hc Hl r c' rs' H; [lia|]. cbn [drain_loop] in H. rewrite iob in H.
    destruct (rs_next decode (c, rs)) as [x [c1 rs1]] eqn:E. destruct (next_cases _ _ _ _ _ Hc E) as (O & T & P & S & N).
    destruct x as [[a|]|e|]; try (injection H as <- <- <-; splits; auto; discriminate).
    apply IH in H as (O' & T' & X & M); [|exact O|specialize (S a eq_refl); lia].
    splits; auto; [eapply taken_trans; eauto|]. intros Y. eapply cause_after; eauto.
  Qed.

  Lemma calm_one : calm_rows (one decode).
  Proof.
    intros c rs Hc r c' rs' H. unfold one in H. destruct (rs_next decode (c, rs)) as [x [c1 rs1]] eqn:E.
    destruct (next_cases _ _ _ _ _ Hc E) as (O & T & P & _).
    assert (D : forall y s, drain_loop decode (rounds c1) (c1, rs1) = (y, s) ->
      wire_ok (fst s) /\ taken c1 (fst s) /\ (y = Panic -> cause decode c1 (fst s))).
    { intros y [c2 rs2] Hd. eapply drain_cases in Hd as (O' & T' & X & _); eauto. unfold rounds. lia. }
    destruct x as [a|e|].
    - destruct (drain_loop _ _ _) as [y [c2 rs2]]. specialize (D _ _ eq_refl) as (O' & T' & X). cbn [fst] in *.
      destruct y; injection H as <- <- <-; splits; auto; try (eapply taken_trans; eauto; fail); try discriminate.
      intros _. eapply cause_after; eauto.
    - destruct (drain_loop _ _ _) as [y [c2 rs2]]. specialize (D _ _ eq_refl) as (O' & T' & X). cbn [fst] in *.
      destruct y; injection H as <- <- <-; splits; auto; try (eapply taken_trans; eauto; fail); try discriminate.
      intros _. eapply cause_after; eauto.
    - injection H as <- <- <-. splits; auto.
  Qed.

  Lemma calm_finish : calm_rows (finish decode).
  Proof.
    intros c rs Hc r c' rs' H. unfold finish in H. destruct (rs_ok rs); [injection H as <- <- <-; splits; auto using taken_refl; discriminate|].
    destruct (drain_loop _ _ _) as [y [c2 rs2]] eqn:E. eapply drain_cases in E as (O & T & P & N); [| exact Hc | unfold rounds; lia].
    destruct y as [[]|e|]; injection H as <- <- <-; splits; auto; try discriminate.
    intros X. specialize (N eq_refl). destruct (rs_ok rs2); [discriminate | contradiction].
  Qed.

  Lemma calm_finish_inner : calm_rows (finish_into_inner decode).
  Proof.
    intros c rs Hc r c' rs' H. unfold finish_into_inner in H.
    destruct (rs_ok rs); [injection H as <- <- <-; splits; auto using taken_refl; discriminate|].
    destruct (drain_loop _ _ _) as [y [c2 rs2]] eqn:E. eapply drain_cases in E as (O & T & P & N); [| exact Hc | unfold rounds; lia].
    destruct y as [[]|e|]; injection H as <- <- <-; splits; auto; try discriminate.
    intros X. specialize (N eq_refl). destruct (rs_ok rs2); [discriminate | contradiction].
  Qed.
End Ops.

Lemma find_column_lt : forall name cols i, find_column name cols = Some i -> (i < length cols)%nat.
Proof.
  intros name. induction cols as [|c r IH]; intros i H; [discriminate|]. cbn [find_column] in H.
  destruct (list_eqb _ _); [injection H as <-; cbn; lia|]. destruct (find_column name r) as [j|]; [|discriminate].
  injection H as <-. specialize (IH j eq_refl). cbn. lia.
Qed.

Lemma prim_np : forall t v, prim_try_into t v <> Panic.
Proof. intros t v. destruct t, v; cbn; try discriminate; destruct (_ && _); discriminate. Qed.

Lemma calm_settings : forall debug f32 f64 o, calm (text_rows debug f32 f64) (read_settings debug f32 f64 o).
Proof.
  intros debug f32 f64 o. unfold read_settings. destruct (o_max_allowed_packet o); [apply calm_ret|].
  apply calm_bind; [apply calm_query|]. intros rs c Hc r c' H.
  destruct (rs_next (text_rows debug f32 f64) (c, rs)) as [x [c1 rs1]] eqn:E.
  pose proof (next_cases _ _ _ _ _ _ Hc E) as (O & T & P & _).
  destruct x as [[row|]|e|]; try (injection H as <- <-; splits; auto; discriminate).
  destruct (find_column _ (rs_columns rs1)) as [i|] eqn:Ei; [|injection H as <- <-; splits; auto; discriminate].
  apply find_column_lt in Ei.
  assert (L : length row = length (rs_columns rs1)).
  { unfold rs_next in E. destruct (rs_ok rs); [discriminate|]. destruct (conn_read c) as [[p|e|] c2]; try discriminate.
    destruct (is_last (c_caps c2) p) as [[|]|e|]; try discriminate.
    - destruct (read_eof p (c_caps c2)); discriminate.
    - destruct (text_rows debug f32 f64 (rs_columns rs) p) as [v|e|] eqn:Ed; cbn [rbind] in E; try discriminate.
      injection E as <- <- <-. unfold text_rows in Ed. destruct (read_text_row debug f32 f64 p (rs_columns rs)) eqn:Er; cbn in Ed; try discriminate.
      injection Ed as <-. eapply text_row_length; eauto. }
  destruct (nth_error row i) eqn:En; [|apply nth_error_None in En; lia].
  assert (K : calm (text_rows debug f32 f64)
    (n <- iores (rmap_err (fun e => EProtocol (PParse e)) (prim_try_into U64 v)) ;; set_max_allowed_packet n)).
  { apply calm_bind.
    - apply calm_res. pose proof (prim_np U64 v). destruct (prim_try_into U64 v); [discriminate | discriminate | contradiction].
    - intros n c3 Hc3 r3 c4 H3. injection H3 as <- <-. split; [exact Hc3|]. split; [now apply taken_same | discriminate]. }
  destruct (K c1 O r c' H) as (O' & T' & X). splits; auto; [eapply taken_trans; eauto|]. intros Y. eapply cause_after; eauto.
Qed.
