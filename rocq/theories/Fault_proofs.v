(** Lemmas about interrupted answers. *)
From Coq Require Import String ZArith List Bool Lia.
From Verif Require Import Base BaseFacts Types Utf8 ParseBuf BufMut Spec_Wire ParseBuf_proofs Framing Framing_proofs
  Packets Spec_Packets Packets_proofs Crypt Handshake ValueBin ValueBin_proofs Spec_Stmt StmtPackets StmtPackets_proofs
  ValueText Rows Conversion Auth Auth_proofs Conn Spec_Conn Conn_proofs Spec_Fault.
Import ListNotations.
Open Scope Z_scope.
Open Scope io_scope.
Local Opaque MAX_PAYLOAD_LEN.

(** ** Cutting lists *)

Lemma app_cut : forall A (a b g more : list A) p, a ++ b = g ++ p :: more ->
  (exists m, a = g ++ p :: m) \/ (exists g', g = a ++ g' /\ b = g' ++ p :: more).
Proof.
  induction a as [|x a IH]; intros b g more p H.
  - right. exists g. auto.
  - destruct g as [|y g]; cbn in H; injection H as -> H.
    + left. exists a. reflexivity.
    + destruct (IH _ _ _ _ H) as [(m & ->) | (g' & -> & E)]; [left; exists m; reflexivity | right; exists g'; auto].
Qed.

Lemma prefix_cut : forall A (a b i l : list A), a ++ b = i ++ l ->
  (exists x, a = i ++ x) \/ (exists y, i = a ++ y /\ b = y ++ l).
Proof.
  induction a as [|x a IH]; intros b i l H.
  - right. exists i. auto.
  - destruct i as [|y i]; cbn in H.
    + left. exists (x :: a). reflexivity.
    + injection H as -> H. destruct (IH _ _ _ H) as [(z & ->) | (z & -> & E)]; [left; exists z; auto | right; exists z; auto].
Qed.

(** ** Packets *)

Lemma read_exact_short : forall n s, lenZ (s_in s) < n ->
  read_exact n s = (Err (EProtocol (PIo (s_end s))), with_in s []).
Proof. intros n s H. unfold read_exact. replace (lenZ (s_in s) <? n) with true by lia. reflexivity. Qed.

Lemma read_chunk_short : forall body sq dst s part lost,
  lenZ body < 2 ^ 24 -> wire_uint 3 (lenZ body) ++ [sq] ++ body = part ++ lost -> lost <> [] -> s_in s = part ->
  read_chunk_to_buf dst s = (Err (EProtocol (PIo (s_end s))), with_in s []).
Proof.
  intros body sq dst s part lost Hl He Hn Hi. unfold read_chunk_to_buf. unfold iobind at 1. rewrite app_assoc in He.
  assert (Hh : lenZ (wire_uint 3 (lenZ body) ++ [sq]) = 4)
    by (rewrite lenZ_app, wire_uint_le, lenZ_le_bytes; reflexivity).
  destruct (prefix_cut _ _ _ _ _ He) as [(x & E) | (y & E & Eb)].
  - destruct x as [|x0 x].
    + rewrite app_nil_r in E. rewrite <- E in He. apply app_inv_head in He.
      rewrite (read_exact_app 4 part s []) by (rewrite <- ?E; rewrite ?app_nil_r; congruence).
      rewrite <- E. rewrite takeZ_app_exact by (rewrite wire_uint_le, lenZ_le_bytes; reflexivity).
      unfold read_u32. rewrite wire_uint_le, le_val_bytes.
      2:{ unfold unsigned_ok. change (256 ^ Z.of_nat 3) with (2 ^ 24). pose proof (lenZ_nonneg _ body). lia. }
      destruct (lenZ body =? 0) eqn:Ez.
      { exfalso. apply Z.eqb_eq in Ez. apply lenZ_0 in Ez. congruence. }
      unfold iobind. rewrite read_exact_short; [reflexivity|]. cbn [s_in]. rewrite lenZ_nil. pose proof (lenZ_nonneg _ body). lia.
    + rewrite read_exact_short; [reflexivity|]. rewrite Hi. rewrite E, lenZ_app in Hh. rewrite lenZ_cons in Hh.
      pose proof (lenZ_nonneg _ x). lia.
  - rewrite (read_exact_app 4 (wire_uint 3 (lenZ body) ++ [sq]) s y) by congruence.
    rewrite takeZ_app_exact by (rewrite wire_uint_le, lenZ_le_bytes; reflexivity).
    unfold read_u32. rewrite wire_uint_le, le_val_bytes.
    2:{ unfold unsigned_ok. change (256 ^ Z.of_nat 3) with (2 ^ 24). pose proof (lenZ_nonneg _ body). lia. }
    destruct (lenZ body =? 0) eqn:Ez.
    { exfalso. apply Z.eqb_eq in Ez. apply lenZ_0 in Ez. rewrite Ez in Eb. destruct y; [|discriminate]. cbn in Eb. congruence. }
    unfold iobind. rewrite read_exact_short; [reflexivity|]. cbn [s_in]. rewrite Eb, lenZ_app.
    destruct lost; [contradiction|]. rewrite lenZ_cons. pose proof (lenZ_nonneg _ lost). lia.
Qed.

Lemma read_cut : forall seq p w seq', frames seq p w seq' -> byte_ok seq ->
  forall fuel dst s part lost,
    (length part < fuel)%nat -> lenZ dst mod MAX_PAYLOAD_LEN = 0 -> w = part ++ lost -> lost <> [] -> s_in s = part ->
    exists q, read_packet_to_buf fuel seq dst s = ((Err (EProtocol (PIo (s_end s))), q), with_in s []) /\
      byte_ok q /\ (part = [] -> q = seq).
Proof.
  induction 1 as [seq body Hl | seq body rest wire seq' Hl Hf IH]; intros Hs fuel dst s part lost Hfu Hd Hw Hn Hi;
    (destruct fuel as [|fuel]; [lia|]); cbn [read_packet_to_buf].
  - rewrite (read_chunk_short body seq dst s part lost); auto; [|unfold lenZ; lia]. exists seq. auto.
  - assert (Hb : lenZ body = MAX_PAYLOAD_LEN) by (rewrite MAX_val; unfold lenZ; lia).
    replace (wire_uint 3 (2 ^ 24 - 1) ++ [seq] ++ body ++ wire) with ((wire_uint 3 (lenZ body) ++ [seq] ++ body) ++ wire) in Hw
      by (rewrite Hb, MAX_val, <- !app_assoc; reflexivity).
    destruct (prefix_cut _ _ _ _ _ Hw) as [(x & E) | (y & E & Eb)].
    + destruct x as [|x0 x].
      * rewrite app_nil_r in E. rewrite <- E in Hw. apply app_inv_head in Hw.
        rewrite (read_chunk_frame body seq dst s []); [|unfold lenZ; lia|rewrite Hi, <- E, app_nil_r; reflexivity].
        rewrite Z.eqb_refl. cbn [negb]. destruct (last_full dst body Hd Hb) as [-> Hd'].
        rewrite next_seq_spec by auto.
        destruct (IH (next_seq_ok seq Hs) fuel (dst ++ body) (with_in s []) [] lost) as (q & Eq & Hq & _); auto.
        { assert (0 < length part)%nat; [|cbn; lia]. rewrite <- E, !app_length, wire_uint_le, le_bytes_length. cbn. lia. }
        exists q. rewrite Eq. split; [reflexivity|]. split; [assumption|]. intros ->. apply (f_equal (@length Z)) in E.
        rewrite !app_length, wire_uint_le, le_bytes_length in E. cbn in E. lia.
      * rewrite (read_chunk_short body seq dst s part (x0 :: x)); auto; [exists seq; auto | unfold lenZ; lia | discriminate].
    + rewrite (read_chunk_frame body seq dst s y); [|unfold lenZ; lia|rewrite Hi, E, <- !app_assoc; reflexivity].
      rewrite Z.eqb_refl. cbn [negb]. destruct (last_full dst body Hd Hb) as [-> Hd'].
      rewrite next_seq_spec by auto.
      destruct (IH (next_seq_ok seq Hs) fuel (dst ++ body) (with_in s y) y lost) as (q & Eq & Hq & _); auto.
      { rewrite E, !app_length in Hfu. rewrite wire_uint_le, le_bytes_length in Hfu. cbn in Hfu. lia. }
      exists q. rewrite Eq. split; [reflexivity|]. split; [assumption|]. intros ->. apply (f_equal (@length Z)) in E.
      rewrite !app_length, wire_uint_le, le_bytes_length in E. cbn in E. lia.
Qed.

(** The error of the transport. *)
Definition lost_error (c : conn) : error := EProtocol (PIo (s_end (c_stream c))).

(** The connection when the input has run out. *)
Definition drained (c : conn) (q : Z) : conn := mkConn (with_in (c_stream c) []) q (c_data c) (c_pending c).

Lemma conn_read_cut : forall c p q part lost, frames (c_seq c) p (part ++ lost) q -> byte_ok (c_seq c) -> lost <> [] ->
  s_in (c_stream c) = part ->
  exists q', conn_read c = (Err (lost_error c), drained c q') /\ byte_ok q' /\ (part = [] -> q' = c_seq c).
Proof.
  intros c p q part lost Hf Hs Hn Hi. unfold conn_read, read_packet.
  destruct (read_cut _ _ _ _ Hf Hs (S (length (s_in (c_stream c)))) [] (c_stream c) part lost) as (q' & E & Hq & Hp); auto.
  { rewrite Hi. lia. }
  rewrite E. exists q'. split; [reflexivity|]. auto.
Qed.

Lemma conn_read_empty : forall c, s_in (c_stream c) = [] -> byte_ok (c_seq c) -> conn_read c = (Err (lost_error c), drained c (c_seq c)).
Proof.
  intros c Hi Hs. assert (Hf : frames (c_seq c) [] (frame_header 0 (c_seq c)) (next_seq (c_seq c))).
  { rewrite frame_header_spec by (assumption || lia). cbn [app]. apply (frames_last (c_seq c) []). cbn. lia. }
  destruct (conn_read_cut c [] _ [] (frame_header 0 (c_seq c)) Hf Hs) as (q & E & _ & Hq); auto.
  { intros F. apply (f_equal (@length Z)) in F. unfold frame_header in F. rewrite le_bytes_length in F. discriminate. }
  rewrite (Hq eq_refl) in E. exact E.
Qed.

(** The part of an answer that has arrived: whole packets, then part of another. *)
Definition arrived (c : conn) (got : list bytes) (p : bytes) (w part : bytes) (q0 : Z) : Prop :=
  exists lost q1, framed (c_seq c) got w q0 /\ frames q0 p (part ++ lost) q1 /\ lost <> [] /\
    byte_ok (c_seq c) /\ s_in (c_stream c) = w ++ part.

Lemma arrived_nil : forall c p w part q0, arrived c [] p w part q0 ->
  exists q', conn_read c = (Err (lost_error c), drained c q') /\ byte_ok q' /\ (part = [] -> q' = q0).
Proof.
  intros c p w part q0 (lost & q1 & Hf & Hp & Hn & Hs & Hi). inversion Hf; subst. eapply conn_read_cut; eauto.
Qed.

Lemma arrived_cons : forall c g got p w part q0, arrived c (g :: got) p w part q0 ->
  exists rest q w', conn_read c = (Ok g, moved c rest q) /\ byte_ok q /\ arrived (moved c rest q) got p w' part q0 /\
    (length rest + 4 <= length (s_in (c_stream c)))%nat.
Proof.
  intros c g got p w part q0 (lost & q1 & Hf & Hp & Hn & Hs & Hi). inversion Hf as [|? ? w0 q ? w' ? F0 F1]; subst.
  rewrite <- app_assoc in Hi. exists (w' ++ part), q, w'.
  assert (byte_ok q) by (eapply frames_seq_ok; eauto).
  split; [|split; [assumption|split]].
  - eapply conn_read_frames; eauto.
  - exists lost, q1. auto.
  - rewrite Hi, !app_length. apply frames_wire_length in F0. lia.
Qed.

Lemma arrived_side : forall c got p w part q0 d b, arrived c got p w part q0 ->
  arrived (mkConn (c_stream c) (c_seq c) d b) got p w part q0.
Proof. intros c got p w part q0 d b H. exact H. Qed.

Lemma arrived_length : forall c got p w part q0, arrived c got p w part q0 -> (4 * length got <= length (s_in (c_stream c)))%nat.
Proof.
  intros c got p w part q0 (lost & q1 & Hf & _ & _ & _ & Hi). rewrite Hi, app_length. clear - Hf.
  enough (4 * length got <= length w)%nat by lia. induction Hf as [|q p0 w0 q' ps w' q'' F _ IH]; [cbn; lia|].
  apply frames_wire_length in F. rewrite app_length. cbn [length]. lia.
Qed.

(** ** Reading past what has arrived *)

Lemma column_defs_cut : forall defs cols k c p w part q0, Forall2 (column_layout_by short_name_text) cols defs ->
  arrived c defs p w part q0 -> (length defs < k)%nat ->
  exists q', read_column_defs k c = (Err (lost_error c), drained c q') /\ byte_ok q' /\ (part = [] -> q' = q0).
Proof.
  induction defs as [|def defs IH]; intros cols k c p w part q0 Hd Ha Hk; inversion Hd as [|col ? cols' ? Hc Hr]; subst;
    (destruct k as [|k]; [cbn in Hk; lia|]); cbn [read_column_defs]; rewrite iob.
  - destruct (arrived_nil _ _ _ _ _ Ha) as (q' & -> & H). exists q'. auto.
  - destruct (arrived_cons _ _ _ _ _ _ _ Ha) as (rest & q & w' & -> & Hq & Ha' & _).
    rewrite iob. unfold iores. rewrite (read_column_short _ _ Hc). unfold of_protocol. cbn [rmap_err].
    destruct (IH cols' k _ p w' part q0 Hr Ha') as (q' & E & H); [cbn in Hk; lia|].
    rewrite iob, E. exists q'. auto.
Qed.

Lemma skip_packets_cut : forall got k c p w part q0, arrived c got p w part q0 -> (length got < k)%nat ->
  exists q', skip_packets k c = (Err (lost_error c), drained c q') /\ byte_ok q'.
Proof.
  induction got as [|g got IH]; intros k c p w part q0 Ha Hk; (destruct k as [|k]; [cbn in Hk; lia|]);
    cbn [skip_packets]; rewrite iob.
  - destruct (arrived_nil _ _ _ _ _ Ha) as (q' & -> & H & _). exists q'. auto.
  - destruct (arrived_cons _ _ _ _ _ _ _ Ha) as (rest & q & w' & -> & Hq & Ha' & _).
    destruct (IH k _ p w' part q0 Ha') as (q' & E & H); [cbn in Hk; lia|]. rewrite E. exists q'. auto.
Qed.

Lemma cleanup_cut : forall got fuel c p w part q0, Z.testbit (c_caps c) DEPRECATE_EOF_BIT = true ->
  Forall row_packet got -> arrived c got p w part q0 -> (length (s_in (c_stream c)) < fuel)%nat ->
  exists q', cleanup_loop fuel c = (Err (lost_error c), drained c q') /\ byte_ok q'.
Proof.
  induction got as [|g got IH]; intros fuel c p w part q0 Hc Hr Ha Hk; (destruct fuel as [|fuel]; [lia|]);
    cbn [cleanup_loop]; rewrite iob.
  - destruct (arrived_nil _ _ _ _ _ Ha) as (q' & -> & H & _). exists q'. auto.
  - inversion_clear Hr as [|? ? Hg Hr'].
    destruct (arrived_cons _ _ _ _ _ _ _ Ha) as (rest & q & w' & -> & Hq & Ha' & Hl). rewrite iob. unfold iores.
    change (c_caps (moved c rest q)) with (c_caps c). rewrite is_last_row by assumption.
    destruct (IH fuel (moved c rest q) p w' part q0) as (q' & E & H); auto; [cbn in *; lia|]. rewrite E. exists q'. auto.
Qed.

Lemma repeat_snoc_firstn : forall B (e : B) k l, firstn k (l ++ repeat e (S k)) = firstn k (l ++ repeat e k).
Proof.
  intros B e k l. rewrite !firstn_app. f_equal. replace (S k) with (k + 1)%nat by lia. rewrite repeat_app, firstn_app, repeat_length.
  replace (k - length l - k)%nat with 0%nat by lia. cbn [firstn]. apply app_nil_r.
Qed.

(** Asking for [k] rows. *)
Lemma nexts_empty : forall A (decode : list column -> bytes -> res error A) k c cols, s_in (c_stream c) = [] -> byte_ok (c_seq c) ->
  nexts decode k (c, mkSet cols None) = (repeat (Err (lost_error c)) k, (c, mkSet cols None)).
Proof.
  intros A decode. induction k as [|k IH]; intros c cols Hi Hs; [reflexivity|]. cbn [nexts]. unfold rs_next. cbn [rs_ok].
  rewrite conn_read_empty by assumption.
  replace (drained c (c_seq c)) with c by (destruct c as [[i e o b] q d pd]; cbn in *; subst; reflexivity).
  rewrite IH by assumption. reflexivity.
Qed.

Lemma nexts_cut : forall A (decode : list column -> bytes -> res error A) cols k got c p w part q0,
  Z.testbit (c_caps c) DEPRECATE_EOF_BIT = true -> Forall row_packet got -> arrived c got p w part q0 ->
  exists c', nexts decode k (c, mkSet cols None) =
    (firstn k (map (fun p => match decode cols p with Ok a => Ok (Some a) | Err e => Err e | Panic => Panic end) got ++
               repeat (Err (lost_error c)) k), (c', mkSet cols None)) /\
    c_data c' = c_data c /\ c_pending c' = c_pending c /\ byte_ok (c_seq c') /\ (exists i, c_stream c' = with_in (c_stream c) i) /\
    ((exists got' w', Forall row_packet got' /\ arrived c' got' p w' part q0) \/
     (s_in (c_stream c') = [] /\ part <> [])).
Proof.
  intros A decode cols. induction k as [|k IH]; intros got c p w part q0 Hc Hr Ha.
  - exists c. cbn [nexts firstn]. splits; try reflexivity.
    + now destruct Ha as (? & ? & ? & ? & ? & ? & ?).
    + exists (s_in (c_stream c)). destruct (c_stream c); reflexivity.
    + left. exists got, w. auto.
  - cbn [nexts]. unfold rs_next at 1. cbn [rs_ok rs_columns]. destruct got as [|g got].
    + destruct (arrived_nil _ _ _ _ _ Ha) as (q' & -> & Hq & Hp0).
      rewrite (nexts_empty A decode k (drained c q') cols eq_refl Hq). exists (drained c q'). cbn [map app]. splits.
      * change (lost_error (drained c q')) with (lost_error c).
        change (Err (lost_error c) :: repeat (Err (lost_error c)) k) with (repeat (Err (lost_error c) : res error (option A)) (S k)).
        rewrite <- (repeat_length (Err (lost_error c) : res error (option A)) (S k)) at 2. rewrite firstn_all. reflexivity.
      * reflexivity.
      * reflexivity.
      * exact Hq.
      * eexists. reflexivity.
      * destruct part as [|x part]; [|right; split; [reflexivity | discriminate]].
        left. exists [], []. split; [constructor|]. destruct Ha as (lost & q1 & Hf & Hpp & Hn & Hs & Hi).
        exists lost, q1. rewrite <- (Hp0 eq_refl). splits; try assumption; try constructor. cbn. rewrite (Hp0 eq_refl). exact Hpp.
    + inversion_clear Hr as [|? ? Hg Hr'].
      destruct (arrived_cons _ _ _ _ _ _ _ Ha) as (rest & q & w' & -> & Hq & Ha' & Hl).
      change (c_caps (moved c rest q)) with (c_caps c). rewrite is_last_row by assumption.
      destruct (IH got (moved c rest q) p w' part q0 Hc Hr' Ha') as (c' & -> & H1 & H2 & H3 & (i & H4) & H5).
      exists c'. splits; try assumption.
      * f_equal. cbn [map app firstn]. unfold rbind. f_equal.
        change (Err (lost_error c) :: repeat (Err (lost_error c)) k) with (repeat (Err (lost_error c) : res error (option A)) (S k)).
        change (lost_error (moved c rest q)) with (lost_error c). now rewrite repeat_snoc_firstn.
      * exists i. exact H4.
Qed.

(** ** One use *)

Definition is_rows (a : answer) : Prop := exists cols rows, a = ARows cols rows.

(** The connection after an interrupted use: what has arrived of a result set may be unread;
    otherwise the input has run out. *)
Definition after_cut (c c' : conn) (a : answer) (n : nat) (p part : bytes) (q0 : Z) : Prop :=
  c_data c' = c_data c /\ (exists i, c_stream c' = with_in (c_stream c) i) /\ byte_ok (c_seq c') /\
  ((c_pending c' = true /\ exists got w, Forall row_packet got /\ arrived c' got p w part q0) \/
   (s_in (c_stream c') = [] /\ (part <> [] \/ n = 0%nat \/ ~ is_rows a))).

Lemma after_drained : forall c a n p part q0 q' b, byte_ok q' -> part <> [] \/ n = 0%nat \/ ~ is_rows a ->
  after_cut c (mkConn (with_in (c_stream c) []) q' (c_data c) b) a n p part q0.
Proof.
  intros c a n p part q0 q' b Hq H. unfold after_cut. splits; try assumption; try reflexivity.
  - eexists. reflexivity.
  - right. split; [reflexivity | assumption].
Qed.

Lemma single_cut : forall (x : bytes) got p more, [x] = got ++ p :: more -> got = [] /\ p = x /\ more = [].
Proof. intros x [|g [|g' got]] p more H; cbn in H; injection H as -> H; try discriminate; auto. Qed.

Lemma defs_rows : forall cols defs, Forall2 (column_layout_by short_name_text) cols defs -> Forall row_packet defs.
Proof.
  induction 1 as [|col def cols defs H _ IH]; constructor; [|assumption].
  destruct H as (db & wdb & wt & wot & wn & won & charset & len & code & decimals & filler & H).
  repeat (destruct H as (_ & H)). subst def. eexists _, _. split; [reflexivity|]. split; intros; lia.
Qed.

Lemma arrived_drained : forall c c0 got p w part q0 q' b, arrived c got p w part q0 -> part = [] -> q' = q0 -> byte_ok q' ->
  arrived (mkConn (with_in (c_stream c0) []) q' (c_data c0) b) [] p [] part q0.
Proof.
  intros c c0 got p w part q0 q' b (lost & q1 & Hf & Hp & Hn & Hs & Hi) -> -> Hq. exists lost, q1. splits; try assumption; try reflexivity; constructor.
Qed.

Section cuts.
  Variable A : Type.
  Variable decode : list column -> bytes -> res error A.
  Variables (c : conn) (w part p : bytes) (got more : list bytes) (q0 : Z).
  Hypothesis Hc : Z.testbit (c_caps c) DEPRECATE_EOF_BIT = true.
  Hypothesis Ha : arrived c got p w part q0.

  Lemma answer_rows_cut : forall a k q, answer_packets (c_caps c) a (got ++ p :: more) ->
    (exists y, expected decode (UQuery q k) a y) ->
    exists c', use_rows decode k (rs_read c) = (seen_part decode (lost_error c) (UQuery q k) a (length got), c') /\
      after_cut c c' a (length got) p part q0.
  Proof.
    intros a k q Hp (y & He).
    assert (First : got = [] -> exists c', use_rows decode k (rs_read c) = (SFailed (lost_error c), c') /\
      after_cut c c' a (length got) p part q0).
    { intros E. revert Ha. rewrite E. intros Ha'. destruct (arrived_nil _ _ _ _ _ Ha') as (q' & Er & Hq & _). eexists.
      unfold rs_read. rewrite iob, Er. split; [reflexivity|]. apply after_drained; auto. }
    remember (got ++ p :: more) as pkts eqn:Epk.
    destruct Hp as [f arows id status warnings msg st pkt Hf Hl Hk Hm | code state msg pkt Hl
      | cols defs rows status warnings last Hne Hd Hr Hend Hm Hcl | id params columns warnings body defs Hl Hdl];
      inversion He; subst.
    - apply single_cut in Epk. destruct Epk as (E & _ & _). destruct (First E) as (c' & -> & H). exists c'. auto.
    - apply single_cut in Epk. destruct Epk as (E & _ & _). destruct (First E) as (c' & -> & H). exists c'. auto.
    - destruct got as [|g got'] eqn:Eg.
      { destruct (First eq_refl) as (c' & -> & H). exists c'. split; [reflexivity | exact H]. }
      clear First. cbn [app] in Epk. injection Epk as <- Epk. unfold seen_part. cbn [reads].
      destruct (arrived_cons _ _ _ _ _ _ _ Ha) as (rest & qa & w' & Er & Hqa & Ha' & _).
      set (n := Z.of_nat (length cols)) in *.
      assert (Hn' : 1 <= n) by (subst n; destruct cols; [contradiction | cbn [length]; lia]).
      assert (Rd : forall x c', read_column_defs (Z.to_nat (Z.min n (lenZ rest + 1)))
                     (mkConn (with_in (c_stream c) rest) qa (c_data c) true) = (x, c') ->
                   rs_read c = match x with Ok cs => (Ok (mkSet cs None), c') | Err e => (Err e, c') | Panic => (Panic, c') end).
      { intros x c' Ex. unfold rs_read. rewrite iob, Er.
        destruct (wire_lenenc_first n) as (x0 & r & Ex0 & X0 & X1 & X2); [lia|].
        pose proof (checked_eat_lenenc_int_spec _ _ [] (wire_lenenc_lenenc n ltac:(lia))) as El.
        rewrite app_nil_r in El. rewrite El, Ex0. unfold first_is.
        replace (x0 =? 0) with false by lia. replace (x0 =? 251) with false by lia. replace (x0 =? 255) with false by lia.
        rewrite iob. unfold set_pending. rewrite iob. unfold iores at 1. cbn [of_protocol rmap_err fst].
        unfold capacity_overflow, COLUMN_SIZE. replace (2 ^ 63 - 1 <? n * 104) with false by lia.
        cbn [moved c_stream c_seq c_data with_in s_in]. rewrite iob. change (c_stream (mkConn (with_in (c_stream c) rest) qa (c_data c) true))
          with (with_in (c_stream c) rest) in Ex. change (s_in (with_in (c_stream c) rest)) with rest.
        change {| s_in := rest; s_end := s_end (c_stream c); s_out := s_out (c_stream c); s_budget := s_budget (c_stream c) |}
          with (with_in (c_stream c) rest). rewrite Ex. destruct x; reflexivity. }
      pose proof (arrived_length _ _ _ _ _ _ Ha') as Hal. cbn [moved c_stream with_in s_in] in Hal.
      pose proof (arrived_side _ _ _ _ _ _ (c_data c) true Ha') as Ha1. cbn [moved c_stream c_seq] in Ha1.
      pose proof (Forall2_len _ _ _ _ _ Hd) as Hdl.
      destruct (app_cut _ _ _ _ _ _ Epk) as [(m & Em) | (g' & Eg' & Eb)].
      + rewrite Em in Hd. apply Forall2_app_inv_r in Hd. destruct Hd as (cols1 & cols2 & Hd1 & Hd2 & Ec).
        assert (Hlt : (length got' < length cols)%nat).
        { rewrite Hdl, Em, app_length. cbn [length]. lia. }
        destruct (column_defs_cut got' cols1 (Z.to_nat (Z.min n (lenZ rest + 1))) _ p w' part q0 Hd1 Ha1) as (q' & E & Hq' & Hp0).
        { unfold lenZ, bytes in *. subst n. lia. }
        rewrite (Rd _ _ E). eexists. split.
        * cbn [use_rows]. match goal with |- context [(?x <=? ?y)%nat] => replace (x <=? y)%nat with true
            by (symmetry; apply Nat.leb_le; unfold bytes in *; cbn [length]; lia) end. reflexivity.
        * unfold after_cut, drained. cbn [c_stream c_data c_pending with_in].
          splits; try reflexivity; [eexists; reflexivity | assumption |].
          destruct part as [|x part'] eqn:Epart.
          -- left. split; [reflexivity|]. exists [], []. split; [constructor|].
             eapply (arrived_drained _ c); eauto.
          -- right. split; [reflexivity | left; discriminate].
      + subst got'.
        assert (HE : exists w1 w2 q1, framed qa defs w1 q1 /\ arrived (mkConn (with_in (c_stream c) (w2 ++ part)) q1 (c_data c) true) g' p w2 part q0 /\ rest = w1 ++ w2 ++ part).
        { destruct Ha' as (lost & q1 & Hf & Hpp & Hnn & Hs & Hi). cbn [moved c_seq c_stream with_in s_in] in *.
          destruct (framed_app _ _ _ _ _ Hf) as (w1 & q2 & w2 & F1 & F2 & ->). exists w1, w2, q2.
          split; [assumption|]. split; [|rewrite Hi, app_assoc; reflexivity]. exists lost, q1. splits; auto. cbn. eapply framed_seq_ok; eauto. }
        destruct HE as (w1 & w2 & q1 & F1 & Ha2 & Erest).
        assert (Ek : Z.to_nat (Z.min n (lenZ rest + 1)) = length cols).
        { rewrite app_length in Hal. unfold lenZ, bytes in *. subst n. lia. }
        assert (E : read_column_defs (Z.to_nat (Z.min n (lenZ rest + 1))) (mkConn (with_in (c_stream c) rest) qa (c_data c) true) =
                    (Ok cols, mkConn (with_in (c_stream c) (w2 ++ part)) q1 (c_data c) true)).
        { rewrite Ek. rewrite (column_defs_read cols defs _ w1 q1 (w2 ++ part) Hd); [reflexivity | exact F1 | exact Hqa | exact Erest]. }
        rewrite (Rd _ _ E). cbn [use_rows rs_ok rs_columns].
        assert (Hg' : g' = firstn (length g') rows).
        { destruct (app_cut _ _ _ _ _ _ Eb) as [(m & ->) | (g2 & -> & F)].
          - rewrite firstn_app, firstn_all, Nat.sub_diag. cbn. now rewrite app_nil_r.
          - destruct (single_cut _ _ _ _ F) as (-> & _ & _). rewrite app_nil_r. now rewrite firstn_all. }
        assert (Hrg : Forall row_packet g').
        { rewrite Hg'. rewrite <- (firstn_skipn (length g') rows) in Hr. apply Forall_app in Hr. apply Hr. }
        destruct (nexts_cut A decode cols k g' (mkConn (with_in (c_stream c) (w2 ++ part)) q1 (c_data c) true) p w2 part q0 Hc Hrg Ha2)
          as (c' & En & H1 & H2 & H3 & (i & H6) & H5).
        rewrite En. exists c'. split.
        * match goal with |- context [(?x <=? ?y)%nat] => replace (x <=? y)%nat with false
            by (symmetry; apply Nat.leb_gt; unfold bytes in *; cbn [length]; rewrite app_length; lia) end.
          match goal with |- context [firstn (?x - ?y)%nat rows] => replace (x - y)%nat with (length g')
            by (unfold bytes in *; cbn [length]; rewrite app_length; lia) end.
          rewrite <- Hg'. reflexivity.
        * unfold after_cut. splits; [exact H1 | exists i; exact H6 | exact H3 |].
          destruct H5 as [(got1 & w3 & H5 & H7) | (H5 & H7)].
          -- left. split; [exact H2|]. exists got1, w3. auto.
          -- right. split; [exact H5 | left; exact H7].
  Qed.
End cuts.

Lemma run_use_cut : forall A (decode : list column -> bytes -> res error A) u a y w q got p more wg q0 part lost q1 c,
  Z.testbit (c_caps c) DEPRECATE_EOF_BIT = true -> use_ok u -> requests (use_packets u) w q ->
  answer_packets (c_caps c) a (got ++ p :: more) -> framed q got wg q0 -> frames q0 p (part ++ lost) q1 -> lost <> [] ->
  expected decode u a y -> between c (wg ++ part) ->
  exists c1 c', run_use decode u c = (seen_part decode (lost_error c) u a (length got), c') /\
    asked c c1 (wg ++ part) w q /\ after_cut c1 c' a (length got) p part q0.
Proof.
  intros A decode u a y w q got p more wg q0 part lost q1 c Hc Hu Hr Ha Hf Hp Hl He Hb.
  destruct (use_packets_request u Hu) as (Hn & _).
  destruct (write_commands_between (use_packets u) c _ Hc Hb Hn) as (w0 & qq0 & R0 & Hq & c1 & E & As).
  destruct (requests_det _ _ _ R0 _ _ Hr) as (-> & ->).
  assert (Hc1 : c_caps c1 = c_caps c) by (rewrite As; reflexivity).
  assert (S1 : forall cmd data, use_packets u = [cmd :: data] -> execute_command cmd data c = (Ok tt, c1)).
  { intros cmd data Eu. rewrite execute_is_write. rewrite Eu in E. cbn [write_commands] in E. rewrite iob in E.
    revert E. destruct (write_command (cmd :: data) c) as [[[]|?|] c2]; unfold ioret; congruence. }
  assert (S2 : forall id values ps, execute_packets id values = Some ps -> use_packets u = ps ->
            send_execute id values c = (Ok tt, c1)).
  { intros id values ps Ep Eu. rewrite (send_execute_packets id values ps Ep), <- Eu. exact E. }
  rewrite <- Hc1 in Hc, Ha.
  assert (Le : lost_error c1 = lost_error c) by (rewrite As; reflexivity).
  assert (Hs : byte_ok (c_seq c1)) by (rewrite As; exact Hq).
  assert (Hrr : arrived c1 got p wg part q0).
  { exists lost, q1. rewrite As. cbn [c_seq c_stream s_in]. splits; auto. }
  assert (First : forall B (k : bytes -> IO conn B), got = [] -> exists c', iobind conn_read k c1 = (Err (lost_error c), c') /\
            after_cut c1 c' a (length got) p part q0).
  { intros B k Eg. rewrite Eg in Hrr. destruct (arrived_nil _ _ _ _ _ Hrr) as (q' & Er & Hq' & _).
    rewrite iob, Er, Le. eexists. split; [reflexivity|]. rewrite Eg. apply after_drained; auto. }
  exists c1. destruct u as [qq k|qq|qq|id params values k|id params values]; cbn [run_use].
  - destruct (answer_rows_cut A decode c1 wg part p got more q0 Hc Hrr a k qq Ha (ex_intro _ y He)) as (c' & Ec & H).
    exists c'. unfold query, COM_QUERY. rewrite iob, (S1 _ _ eq_refl), Ec, Le. auto.
  - assert (Eg : got = []).
    { inversion He; subst; inversion Ha; subst; match goal with Hx : [_] = got ++ _ |- _ => apply single_cut in Hx; apply Hx end. }
    destruct (First _ (fun packet => r <- decode_response packet ;; iores (of_server r)) Eg) as (c' & Ec & H).
    exists c'. unfold execute_query, COM_QUERY, read_response. rewrite iob, (S1 _ _ eq_refl), Ec.
    split; [|split; auto]. unfold seen_part. destruct a; reflexivity.
  - unfold prepare_statement, COM_STMT_PREPARE. rewrite iob, (S1 _ _ eq_refl).
    replace (seen_part decode (lost_error c) (UPrepare qq) a (length got)) with (@SFailed A (lost_error c)) by (destruct a; reflexivity).
    destruct got as [|g got'] eqn:Eg.
    { match goal with |- context [iobind conn_read ?k c1] => destruct (First _ k eq_refl) as (c' & Ec & H) end.
      exists c'. rewrite Ec. auto. }
    clear First. destruct (arrived_cons _ _ _ _ _ _ _ Hrr) as (rest & qa & w' & Er & Hqa & Ha' & _). rewrite iob, Er, iob.
    cbn [app] in Ha. inversion He; subst; inversion Ha; subst.
    + change (first_is 0 (0 :: body)) with true. cbn match. unfold iores at 1.
      match goal with H : stmt_layout _ _ _ _ _ |- _ => rewrite (read_stmt_layout _ _ _ _ _ H) end.
      cbn [of_protocol rmap_err st_params_len st_columns_len st_id].
      match goal with H : Z.of_nat (length _) = _ |- _ => rewrite <- H, Nat2Z.id end.
      destruct (skip_packets_cut got' (length (got' ++ p :: more)) _ p w' part q0 Ha') as (q' & Es & Hq').
      { unfold bytes. rewrite app_length. cbn [length]. lia. }
      unfold bytes in *. rewrite iob, Es. eexists. split; [unfold use_done; rewrite <- Le; reflexivity|]. split; [exact As|].
      unfold drained. cbn [moved c_stream c_data c_pending]. rewrite with_in_with_in. apply after_drained; [assumption|].
      right. right. intros (cols & rows & F). discriminate.
    + exfalso. destruct got'; discriminate.
  - destruct (answer_rows_cut A decode c1 wg part p got more q0 Hc Hrr a k [] Ha) as (c' & Ec & H).
    { inversion He; subst; eexists; constructor; eauto. }
    exists c'. destruct Hu as (U1 & U2 & U3 & U4). unfold stmt_query. cbn [ps_params ps_id].
    replace (lenZ values =? params) with true by (unfold lenZ; lia). cbn [negb].
    destruct (stmt_request_ok _ _ _ U1 U2 U3 U4) as (ps & Ep & _).
    rewrite iob, (S2 id values ps Ep). 2:{ cbn. now rewrite Ep. } rewrite Ec, Le. auto.
  - assert (Eg : got = []).
    { inversion He; subst; inversion Ha; subst; match goal with Hx : [_] = got ++ _ |- _ => apply single_cut in Hx; apply Hx end. }
    destruct (First _ (fun packet => r <- decode_response packet ;; iores (of_server r)) Eg) as (c' & Ec & H).
    exists c'. destruct Hu as (U1 & U2 & U3 & U4). unfold stmt_execute. cbn [ps_params ps_id].
    replace (lenZ values =? params) with true by (unfold lenZ; lia). cbn [negb].
    destruct (stmt_request_ok _ _ _ U1 U2 U3 U4) as (ps & Ep & _).
    rewrite iob, (S2 id values ps Ep). 2:{ cbn. now rewrite Ep. } unfold read_response. rewrite Ec.
    split; [|split; auto]. unfold seen_part. destruct a; reflexivity.
Qed.

(** ** No more input *)

(** Nothing more can be read but what is left of an interrupted result set. *)
Definition doomed (c : conn) : Prop :=
  Z.testbit (c_caps c) DEPRECATE_EOF_BIT = true /\ byte_ok (c_seq c) /\ s_budget (c_stream c) = None /\
  (s_in (c_stream c) = [] \/
   (c_pending c = true /\ exists got p w part q0, Forall row_packet got /\ arrived c got p w part q0)).

Lemma after_doomed : forall c c' a n p part q0, Z.testbit (c_caps c) DEPRECATE_EOF_BIT = true -> s_budget (c_stream c) = None ->
  after_cut c c' a n p part q0 -> doomed c' /\ lost_error c' = lost_error c.
Proof.
  intros c c' a n p part q0 Hc Hb (H1 & (i & H2) & H3 & H4). split; [|unfold lost_error; now rewrite H2].
  unfold doomed, c_caps. rewrite H1. splits; auto; [now rewrite H2|].
  destruct H4 as [(Hp & got & w & H) | (H & _)]; [right | left; assumption].
  split; [assumption|]. exists got, p, w, part, q0. assumption.
Qed.

Lemma cleanup_doomed : forall c, doomed c -> c_pending c = true ->
  exists q, cleanup c = (Err (lost_error c), drained c q) /\ byte_ok q.
Proof.
  intros c (Hc & Hs & Hb & H) Hp. unfold cleanup. rewrite Hp. destruct H as [H | (_ & got & p & w & part & q0 & Hr & Ha)].
  - exists (c_seq c). split; [|assumption]. cbn [cleanup_loop]. rewrite iob, conn_read_empty by assumption. reflexivity.
  - eapply cleanup_cut; eauto.
Qed.

Lemma drained_doomed : forall c q, doomed c -> byte_ok q -> doomed (drained c q).
Proof. intros c q (Hc & Hs & Hb & H) Hq. unfold doomed, drained, c_caps in *. cbn. auto. Qed.

Lemma write_commands_doomed : forall ps c, doomed c -> c_pending c = true -> ps <> [] ->
  exists q, write_commands ps c = (Err (lost_error c), drained c q) /\ byte_ok q.
Proof.
  intros [|p ps] c Hd Hp Hn; [contradiction|]. destruct (cleanup_doomed c Hd Hp) as (q & E & Hq).
  cbn [write_commands]. unfold write_command. rewrite !iob, E. exists q. auto.
Qed.

Lemma write_doomed : forall ps c, doomed c -> ps <> [] ->
  exists c1, (write_commands ps c = (Err (lost_error c), c1) \/
     (write_commands ps c = (Ok tt, c1) /\ s_in (c_stream c1) = [])) /\ doomed c1 /\ lost_error c1 = lost_error c.
Proof.
  intros ps c Hd Hn. destruct (c_pending c) eqn:Hp.
  - destruct (write_commands_doomed ps c Hd Hp Hn) as (q & E & Hq). exists (drained c q). split; [auto|].
    split; [now apply drained_doomed | reflexivity].
  - pose proof Hd as (Hc & Hs & Hb & H). destruct H as [H | (F & _)]; [|congruence].
    destruct (write_commands_between ps c [] Hc) as (w & q & R & Hq & c1 & E & As); auto.
    { split; [assumption|]. split; [assumption|]. left. auto. }
    exists c1. rewrite As. split; [right; rewrite E, As; auto|]. split; [|reflexivity].
    unfold doomed, c_caps. cbn. auto.
Qed.

Lemma run_use_doomed : forall A (decode : list column -> bytes -> res error A) u c, doomed c -> use_ok u ->
  exists c', run_use decode u c = (SFailed (lost_error c), c') /\ doomed c' /\ lost_error c' = lost_error c.
Proof.
  intros A decode u c Hd Hu. destruct (use_packets_request u Hu) as (Hn & _).
  destruct (write_doomed (use_packets u) c Hd Hn) as (c1 & Hw & Hd1 & Le).
  assert (Go : forall B (k : unit -> IO conn B) (f : res error B * conn -> seen A * conn) send,
    (forall e c, f (Err e, c) = (SFailed e, c)) ->
    send c = write_commands (use_packets u) c ->
    (s_in (c_stream c1) = [] -> k tt c1 = (Err (lost_error c1), drained c1 (c_seq c1))) ->
    exists c', f (iobind send k c) = (SFailed (lost_error c), c') /\ doomed c' /\ lost_error c' = lost_error c).
  { intros B k f send Hf Hsend Hk. rewrite iob, Hsend. destruct Hw as [Hw | (Hw & Hi)]; rewrite Hw.
    - rewrite Hf. exists c1. auto.
    - rewrite (Hk Hi), Hf, Le. eexists. split; [reflexivity|]. split; [|exact Le]. apply drained_doomed; [assumption|]. apply Hd1. }
  assert (S1 : forall cmd data, use_packets u = [cmd :: data] -> execute_command cmd data c = write_commands (use_packets u) c).
  { intros cmd data Eu. rewrite execute_is_write, Eu. cbn [write_commands]. rewrite iob.
    destruct (write_command (cmd :: data) c) as [[[]|?|] c2]; reflexivity. }
  assert (Hr : s_in (c_stream c1) = [] -> conn_read c1 = (Err (lost_error c1), drained c1 (c_seq c1))).
  { intros Hi. apply conn_read_empty; [assumption|]. apply Hd1. }
  destruct u as [qq k|qq|qq|id params values k|id params values]; cbn [run_use].
  - unfold query, COM_QUERY. apply Go; [reflexivity | apply (S1 _ _ eq_refl) |].
    intros Hi. unfold rs_read. rewrite iob, (Hr Hi). reflexivity.
  - unfold execute_query, COM_QUERY. apply Go; [reflexivity | apply (S1 _ _ eq_refl) |].
    intros Hi. unfold read_response. rewrite iob, (Hr Hi). reflexivity.
  - unfold prepare_statement, COM_STMT_PREPARE. apply Go; [reflexivity | apply (S1 _ _ eq_refl) |].
    intros Hi. rewrite iob, (Hr Hi). reflexivity.
  - pose proof Hu as (U1 & U2 & U3 & U4). unfold stmt_query. cbn [ps_params ps_id].
    replace (lenZ values =? params) with true by (unfold lenZ; lia). cbn [negb].
    destruct (stmt_request_ok _ _ _ U1 U2 U3 U4) as (ps & Ep & _).
    apply Go; [reflexivity | cbn [use_packets]; rewrite (send_execute_packets id values ps Ep), Ep; reflexivity |].
    intros Hi. unfold rs_read. rewrite iob, (Hr Hi). reflexivity.
  - pose proof Hu as (U1 & U2 & U3 & U4). unfold stmt_execute. cbn [ps_params ps_id].
    replace (lenZ values =? params) with true by (unfold lenZ; lia). cbn [negb].
    destruct (stmt_request_ok _ _ _ U1 U2 U3 U4) as (ps & Ep & _).
    apply Go; [reflexivity | cbn [use_packets]; rewrite (send_execute_packets id values ps Ep), Ep; reflexivity |].
    intros Hi. unfold read_response. rewrite iob, (Hr Hi). reflexivity.
Qed.

Lemma run_uses_doomed : forall A (decode : list column -> bytes -> res error A) us c, doomed c -> Forall use_ok us ->
  fst (run_uses decode us c) = map (fun _ => SFailed (lost_error c)) us.
Proof.
  induction us as [|u us IH]; intros c Hd Hu; [reflexivity|]. inversion_clear Hu as [|? ? U1 U2].
  destruct (run_use_doomed A decode u c Hd U1) as (c1 & E & D & L). cbn [run_uses map]. rewrite E.
  specialize (IH c1 D U2). destruct (run_uses decode us c1) as [xs c2]. cbn in *. rewrite IH, L. reflexivity.
Qed.

Lemma run_uses_app : forall A (decode : list column -> bytes -> res error A) us vs c xs c1,
  run_uses decode us c = (xs, c1) ->
  run_uses decode (us ++ vs) c = (xs ++ fst (run_uses decode vs c1), snd (run_uses decode vs c1)).
Proof.
  induction us as [|u us IH]; intros vs c xs c1 H; cbn [app run_uses] in *.
  - injection H as <- <-. destruct (run_uses decode vs c); reflexivity.
  - destruct (run_use decode u c) as [x c2]. destruct (run_uses decode us c2) as [xs' c3] eqn:E. injection H as <- <-.
    rewrite (IH vs c2 xs' c3 E). reflexivity.
Qed.

(** A proper prefix of the bytes of an answer is cut after some packet. *)
Lemma cut_after_exists : forall pkts q w q' i lost, framed q pkts w q' -> w = i ++ lost -> lost <> [] ->
  exists n, cut_after q pkts n i.
Proof.
  intros pkts q w q' i lost H. revert i lost. induction H as [q | q p w q1 ps w' q2 Hf Hr IH]; intros i lost E Hn.
  - destruct i; [|discriminate]. cbn in E. congruence.
  - destruct (prefix_cut _ _ _ _ _ E) as [([|x l] & Ex) | (y & Ey & E')].
    + rewrite app_nil_r in Ex. subst i. apply app_inv_head in E. destruct (IH [] lost E Hn) as (n & p0 & more & w0 & q0 & part & l0 & q3 & A1 & A2 & A3 & A4 & A5).
      exists (S n), p0, more, (w ++ w0), q0, part, l0, q3. cbn [skipn firstn]. splits; auto.
      * econstructor; eauto.
      * rewrite <- app_assoc, <- A5, app_nil_r. reflexivity.
    + exists 0%nat, p, ps, [], q, i, (x :: l), q1. cbn [skipn firstn]. rewrite <- Ex. splits; auto; [constructor | discriminate].
    + destruct (IH y lost E' Hn) as (n & p0 & more & w0 & q0 & part & l0 & q3 & A1 & A2 & A3 & A4 & A5).
      exists (S n), p0, more, (w ++ w0), q0, part, l0, q3. cbn [skipn firstn]. splits; auto.
      * econstructor; eauto.
      * rewrite <- app_assoc, <- A5. exact Ey.
Qed.

(** ** The rest of an interrupted answer arrives *)

Definition arrive (more : bytes) (c : conn) : conn :=
  mkConn (with_in (c_stream c) (s_in (c_stream c) ++ more)) (c_seq c) (c_data c) (c_pending c).

Lemma rows_tail : forall got l (last : bytes) p more, l ++ [last] = got ++ p :: more -> Forall row_packet l ->
  exists r, p :: more = r ++ [last] /\ Forall row_packet r.
Proof.
  induction got as [|g got IH]; intros l last p more E Hl.
  - exists l. auto.
  - destruct l as [|x l]; cbn in E; injection E as -> E.
    + destruct got; discriminate.
    + inversion_clear Hl. eapply IH; eauto.
Qed.

Lemma late_rest : forall c c' a got p more q0 q1 lost wm q2 rest,
  s_budget (c_stream c) = None ->
  answer_packets (c_caps c) a (got ++ p :: more) -> is_rows a -> got <> [] ->
  frames q0 p lost q1 -> framed q1 more wm q2 ->
  after_cut c c' a (length got) p [] q0 ->
  between (arrive (lost ++ wm ++ rest) c') rest.
Proof.
  intros c c' a got p more q0 q1 lost wm q2 rest Hb Ha (cols & rows & ->) Hg Hf Hm (H1 & (i & H2) & H3 & H4).
  assert (T : exists r status warnings last, p :: more = r ++ [last] /\ Forall row_packet r /\ end_of_rows status warnings last).
  { remember (got ++ p :: more) as pkts eqn:Ep. remember (ARows cols rows) as a eqn:Ea.
    destruct Ha as [| |cols' defs rows' status warnings last Hne Hd Hr He Hmr Hcl|]; try discriminate.
    destruct got as [|g got]; [contradiction|]. cbn [app] in Ep. injection Ep as _ Ep. rewrite app_assoc in Ep.
    destruct (rows_tail _ _ _ _ _ Ep) as (r & Er & Hrr).
    - apply Forall_app. split; [eapply defs_rows; eauto | assumption].
    - exists r, status, warnings, last. auto. }
  destruct T as (r & status & warnings & last & Er & Hrr & He).
  destruct H4 as [(Hp & got' & w & Hg' & (lost' & q1' & F1 & F2 & F3 & F4 & F5)) | (_ & [F | [F | F]])];
    [|contradiction|destruct got; [contradiction | discriminate] | exfalso; apply F; now exists cols, rows].
  split; [exact H3|]. split; [cbn; rewrite H2; exact Hb|]. right. split; [exact Hp|].
  exists (got' ++ r), status, warnings, last, (w ++ lost ++ wm), q2. split; [apply Forall_app; auto|]. split; [assumption|]. split.
  - rewrite <- app_assoc. eapply framed_app_intro; [exact F1|]. rewrite <- Er. econstructor; eauto.
  - cbn [arrive c_stream with_in s_in]. rewrite F5, app_nil_r, <- !app_assoc. reflexivity.
Qed.

(** ** What never changes *)

Definition keeps {A} (m : IO conn A) : Prop := forall c,
  s_end (c_stream (snd (m c))) = s_end (c_stream c) /\ c_data (snd (m c)) = c_data c.

Lemma keeps_bind : forall A B (m : IO conn A) (f : A -> IO conn B), keeps m -> (forall a, keeps (f a)) -> keeps (iobind m f).
Proof.
  intros A B m f Hm Hf c. rewrite iob. specialize (Hm c). destruct (m c) as [[a|e|] c']; cbn in *; auto.
  destruct (Hf a c') as (E1 & E2). destruct Hm. split; congruence.
Qed.
Lemma keeps_res : forall A (r : res error A), keeps (iores r).
Proof. intros A r c. split; reflexivity. Qed.
Lemma keeps_ret : forall A (a : A), keeps (ioret a).
Proof. intros A a c. split; reflexivity. Qed.
Lemma keeps_read : keeps conn_read.
Proof.
  intros c. unfold conn_read, read_packet. destruct (read_packet_to_buf _ _ _ _) as [[r q] s] eqn:E.
  apply read_packet_rest in E. cbn. destruct E as (_ & E & _). auto.
Qed.
Lemma write_chunks_end : forall fuel seq b s r s', write_chunks fuel seq b s = (r, s') -> s_end s' = s_end s.
Proof.
  assert (W : forall b s r s', write_all b s = (r, s') -> s_end s' = s_end s).
  { intros b s r s' H. unfold write_all in H. destruct (s_budget s) as [n|]; [destruct (_ <=? _)|]; injection H as _ <-; reflexivity. }
  induction fuel as [|fuel IH]; intros seq b s r s' H; cbn [write_chunks] in H; [injection H as _ <-; reflexivity|].
  destruct b as [|x b]; [injection H as _ <-; reflexivity|]. rewrite iob in H.
  destruct (write_all _ s) as [[u|e|] s1] eqn:E1; [|injection H as _ <-; eapply W; eauto..].
  destruct (write_all _ s1) as [[u'|e|] s2] eqn:E2; apply W in E1; [|injection H as _ <-; apply W in E2; congruence..].
  apply W in E2. apply IH in H. congruence.
Qed.
Lemma keeps_write : forall p, keeps (conn_write p).
Proof.
  intros p c. unfold conn_write, write_packet. destruct (write_chunks _ _ _ _) as [[r q] s] eqn:E. apply write_chunks_end in E.
  destruct r as [u|e|]; [|cbn; auto..]. destruct (_ =? 0); [|cbn; auto].
  unfold write_all. destruct (s_budget s) as [n|]; [destruct (_ <=? _)|]; cbn; auto.
Qed.
Lemma keeps_pending : forall b, keeps (set_pending b).
Proof. intros b c. split; reflexivity. Qed.
Lemma keeps_reset : keeps reset_seq.
Proof. intros c. split; reflexivity. Qed.
Lemma keeps_here : forall A (m : conn -> IO conn A), (forall c, keeps (m c)) -> keeps (fun c => m c c).
Proof. intros A m H c. apply H. Qed.
Global Hint Resolve keeps_bind keeps_res keeps_ret keeps_read keeps_write keeps_pending keeps_reset : keeps.

Lemma keeps_cleanup : keeps cleanup.
Proof.
  intros c. unfold cleanup. destruct (c_pending c); [|split; reflexivity]. generalize (S (length (s_in (c_stream c)))). intros n. revert c.
  change (keeps (cleanup_loop n)). induction n as [|n IH]; [intros c; split; reflexivity|]. cbn [cleanup_loop].
  apply keeps_bind; [auto with keeps|]. intros p.
  apply (keeps_here _ (fun c => last <- iores (is_last (c_caps c) p) ;; if last then
         set_pending false ;;; x <- iores (of_protocol (read_eof p (c_caps c))) ;; ioret (Some x) else cleanup_loop n)).
  intros c. apply keeps_bind; [auto with keeps|]. intros [|]; auto 6 with keeps.
Qed.
Lemma keeps_command : forall p, keeps (write_command p).
Proof. intros p. unfold write_command. auto using keeps_cleanup with keeps. Qed.
Lemma keeps_commands : forall ps, keeps (write_commands ps).
Proof. induction ps; cbn [write_commands]; auto using keeps_command with keeps. Qed.
Lemma keeps_execute : forall id values, keeps (send_execute id values).
Proof.
  intros id values. unfold send_execute. destruct (execute_new id values) as [r|]; [|auto with keeps].
  apply keeps_bind; [|intros; apply keeps_command]. unfold send_long_data. destruct (ex_as_long_data r); auto using keeps_commands with keeps.
Qed.
Lemma keeps_decode : forall p, keeps (decode_response p).
Proof.
  intros p c. unfold decode_response. destruct p as [|x p]; [split; reflexivity|].
  destruct (x =? 0); [|destruct (x =? 255); [|split; reflexivity]];
    match goal with |- context [?m c] => match type of m with IO conn _ => assert (H : keeps m) by auto with keeps; apply H end end.
Qed.
Lemma keeps_response : keeps read_response.
Proof. unfold read_response. auto using keeps_decode with keeps. Qed.
Lemma keeps_defs : forall n, keeps (read_column_defs n).
Proof. induction n; cbn [read_column_defs]; auto 8 with keeps. Qed.
Lemma keeps_rs_read : keeps rs_read.
Proof.
  unfold rs_read. apply keeps_bind; [auto with keeps|]. intros p. destruct (first_is 0 p); [auto using keeps_decode with keeps|].
  destruct (first_is 251 p); [auto with keeps|]. destruct (first_is 255 p).
  - intros c. split; reflexivity.
  - apply keeps_bind; [auto with keeps|]. intros _. apply keeps_bind; [auto with keeps|]. intros n.
    destruct (capacity_overflow n); [auto with keeps|].
    apply (keeps_here _ (fun c => columns <- read_column_defs (Z.to_nat (Z.min n (lenZ (s_in (c_stream c)) + 1))) ;;
       ioret (mkSet columns None))). intros c. auto using keeps_defs with keeps.
Qed.
Lemma keeps_skip : forall n, keeps (skip_packets n).
Proof. induction n; cbn [skip_packets]; auto with keeps. Qed.

Lemma nexts_keeps : forall A (decode : list column -> bytes -> res error A) k c rs,
  let c' := fst (snd (nexts decode k (c, rs))) in
  s_end (c_stream c') = s_end (c_stream c) /\ c_data c' = c_data c.
Proof.
  intros A decode. induction k as [|k IH]; intros c rs; [split; reflexivity|]. cbn [nexts].
  assert (N : s_end (c_stream (fst (snd (rs_next decode (c, rs))))) = s_end (c_stream c) /\
              c_data (fst (snd (rs_next decode (c, rs)))) = c_data c).
  { unfold rs_next. destruct (rs_ok rs); [split; reflexivity|]. pose proof (keeps_read c) as K.
    destruct (conn_read c) as [[p|e|] c1]; cbn in *; auto. destruct (is_last (c_caps c1) p) as [[|]|e|]; cbn; auto.
    destruct (read_eof p (c_caps c1)); cbn; auto. }
  destruct (rs_next decode (c, rs)) as [r [c1 rs1]]. cbn [fst snd] in N. specialize (IH c1 rs1).
  destruct (nexts decode k (c1, rs1)) as [l [c2 rs2]]. cbn in *. destruct N, IH. split; congruence.
Qed.

Lemma run_use_keeps : forall A (decode : list column -> bytes -> res error A) u c,
  s_end (c_stream (snd (run_use decode u c))) = s_end (c_stream c) /\ c_data (snd (run_use decode u c)) = c_data c.
Proof.
  intros A decode u c.
  assert (R : forall (m : IO conn result_set) k, keeps m -> s_end (c_stream (snd (use_rows decode k (m c)))) = s_end (c_stream c) /\
    c_data (snd (use_rows decode k (m c))) = c_data c).
  { intros m k H. specialize (H c). destruct (m c) as [[rs|e|] c1]; cbn in H |- *; auto.
    pose proof (nexts_keeps A decode k c1 rs) as N. destruct (nexts decode k (c1, rs)) as [l [c2 rs2]]. cbn in *.
    destruct H, N. split; congruence. }
  assert (D : forall B (f : B -> seen A) (m : IO conn B), keeps m -> s_end (c_stream (snd (use_done f (m c)))) = s_end (c_stream c) /\
    c_data (snd (use_done f (m c))) = c_data c).
  { intros B f m H. specialize (H c). destruct (m c) as [[b|e|] c1]; exact H. }
  destruct u; cbn [run_use].
  - apply R. unfold query, execute_command. auto using keeps_rs_read, keeps_cleanup with keeps.
  - apply D. unfold execute_query, execute_command. auto using keeps_response, keeps_cleanup with keeps.
  - apply D. unfold prepare_statement, execute_command. apply keeps_bind; [auto using keeps_cleanup with keeps|]. intros _.
    apply keeps_bind; [auto with keeps|]. intros p. apply keeps_bind; [|auto using keeps_skip with keeps].
    intros c1. destruct (first_is 0 p); [|destruct (first_is 255 p)]; split; reflexivity.
  - apply R. unfold stmt_query. destruct (negb _); auto using keeps_rs_read, keeps_execute with keeps.
  - apply D. unfold stmt_execute. destruct (negb _); auto using keeps_response, keeps_execute with keeps.
Qed.

Lemma run_uses_keeps : forall A (decode : list column -> bytes -> res error A) us c,
  s_end (c_stream (snd (run_uses decode us c))) = s_end (c_stream c) /\ c_data (snd (run_uses decode us c)) = c_data c.
Proof.
  intros A decode. induction us as [|u us IH]; intros c; [split; reflexivity|]. cbn [run_uses].
  pose proof (run_use_keeps A decode u c) as K. destruct (run_use decode u c) as [x c1]. specialize (IH c1).
  destruct (run_uses decode us c1) as [xs c2]. cbn in *. destruct K, IH. split; congruence.
Qed.
