(** Lemmas for C102: every outcome is told by packets in the input. *)
From Coq Require Import String ZArith List Bool Lia.
From Verif Require Import Base BaseFacts Types Utf8 ParseBuf BufMut Spec_Wire Spec_Conv ParseBuf_proofs Framing Framing_proofs
  Packets Spec_Packets Packets_proofs Crypt Handshake ValueBin Spec_Stmt StmtPackets StmtPackets_proofs ValueText Rows Rows_proofs
  Conversion Auth Auth_proofs Conn Spec_Conn Conn_proofs Spec_Panic Panic_proofs Spec_Report.
Import ListNotations.
Open Scope Z_scope.
Open Scope io_scope.

(** ** Packets *)

Lemma checked_slice_iff : forall b s r, bytes_ok b ->
  checked_eat_lenenc_slice b = (Ok s, r) <-> exists l, loose_int (lenZ s) l /\ b = l ++ s ++ r.
Proof.
  intros b s r Hb. unfold checked_eat_lenenc_slice. split.
  - intros H. apply pbind_inv in H. destruct H as (n & b1 & E & H).
    apply checked_int_iff in E; [|exact Hb]. destruct E as (l & Hl & ->).
    assert (Hn : 0 <= n).
    { destruct Hl as [n w Hw| |]; [|lia|lia]. destruct Hw; lia. }
    apply checked_eat_inv in H; [|exact Hn]. destruct H as (-> & L). exists l. rewrite L. split; [exact Hl | reflexivity].
  - intros (l & Hl & ->). erewrite pbind_ok by (apply checked_int_iff; [exact Hb|]; eauto).
    apply checked_eat_app. reflexivity.
Qed.

(** What a parser leaves is the end of what it was given. *)
Definition trims {B} (m : P B) : Prop := forall b r b', m b = (r, b') -> exists pre, b = pre ++ b'.

Lemma trims_bind : forall B C (m : P B) (f : B -> P C), trims m -> (forall x, trims (f x)) -> trims (pbind m f).
Proof.
  intros B C m f Hm Hf b r b' H. unfold pbind in H. destruct (m b) as [[x|e|] b1] eqn:E; apply Hm in E; destruct E as (p1 & ->);
    try (injection H as <- <-; eauto; fail).
  apply Hf in H. destruct H as (p2 & ->). exists (p1 ++ p2). now rewrite app_assoc.
Qed.

Lemma trims_ret : forall B (x : B), trims (pret x).
Proof. intros B x b r b' H. injection H as <- <-. now exists []. Qed.

Lemma trims_lift : forall B (x : res protocol_error B), trims (plift x).
Proof. intros B x b r b' H. injection H as <- <-. now exists []. Qed.

Lemma trims_checked : forall n, trims (checked_eat n).
Proof.
  intros n b r b' H. unfold checked_eat, eat in H. destruct (_ >=? _); [destruct (_ <? _)|]; injection H as <- <-; try (now exists []).
  exists (takeZ n b). rewrite takeZ_firstn, dropZ_skipn. now rewrite firstn_skipn.
Qed.

Lemma trims_uint : forall k, trims (checked_eat_uint k).
Proof. intros k. apply trims_bind; [apply trims_checked|]. intros x. apply trims_ret. Qed.

Lemma trims_int : trims checked_eat_lenenc_int.
Proof.
  apply trims_bind; [apply trims_uint|]. intros x. destruct (x <=? 250); [apply trims_ret|].
  destruct (x =? 252); [apply trims_uint|]. destruct (x =? 253); [apply trims_uint|]. destruct (x =? 254); [apply trims_uint | apply trims_ret].
Qed.

Lemma trims_str : trims checked_eat_lenenc_str.
Proof.
  apply trims_bind; [apply trims_bind; [apply trims_int | intros; apply trims_checked] | intros; apply trims_lift].
Qed.

Lemma optional_str_iff : forall b o r, bytes_ok b -> optional_str b = (Ok o, r) ->
  (forall t, o = Some t <-> t <> [] /\ exists w r', b = w ++ r' /\ loose_text t w) /\
  (exists pre, b = pre ++ r).
Proof.
  intros b o r Hb H. unfold optional_str in H. destruct (checked_eat_lenenc_str b) as [x b'] eqn:E.
  assert (T : exists pre, b = pre ++ b') by (eapply trims_str; exact E).
  assert (U : forall t, (t <> [] /\ exists w r', b = w ++ r' /\ loose_text t w) -> x = Ok t).
  { intros t (_ & w & r' & -> & bb & l & Ht & Hl & ->). rewrite <- app_assoc in E.
    unfold checked_eat_lenenc_str in E. rewrite <- app_assoc in Hb.
    erewrite pbind_ok in E by (apply checked_slice_iff; [exact Hb|]; exists l; split; [exact Hl | reflexivity]).
    unfold plift, from_utf8 in E. rewrite (from_utf8_text _ _ Ht) in E. injection E as <- _. reflexivity. }
  assert (V : forall t, x = Ok t -> exists w r', b = w ++ r' /\ loose_text t w).
  { intros t ->. unfold checked_eat_lenenc_str in E. apply pbind_inv in E. destruct E as (s & b1 & E & D).
    apply checked_slice_iff in E; [|exact Hb]. destruct E as (l & Hl & ->).
    apply from_utf8_inv in D.
    - destruct D as (D & <-). exists (l ++ s), b1. rewrite <- app_assoc. split; [reflexivity|]. exists s, l. split; [exact D|]. split; [exact Hl | reflexivity].
    - apply BaseFacts.bytes_ok_app in Hb. destruct Hb as (_ & Hb). apply BaseFacts.bytes_ok_app in Hb. tauto. }
  destruct x as [[|c s]|e|]; [| | |discriminate]; injection H as <- <-.
  - split; [|exact T]. intros t. split; [discriminate|]. intros Ht. pose proof (U t Ht) as X. injection X as <-. destruct Ht as (Ht & _). contradiction.
  - split; [|exact T]. intros t. split.
    + intros X. injection X as <-. split; [discriminate|]. apply V. reflexivity.
    + intros Ht. apply U in Ht. injection Ht as <-. reflexivity.
  - split; [|exact T]. intros t. split; [discriminate|]. intros Ht. apply U in Ht. discriminate.
Qed.

Lemma ok_reported : forall caps pkt x, bytes_ok pkt -> read_ok pkt caps = Ok x ->
  ok_report (Z.testbit caps SESSION_TRACK_BIT) (ok_affected_rows x) (ok_last_insert_id x) (ok_status x) (ok_warnings x)
    (ok_message x) (ok_session_state_info x) pkt.
Proof.
  intros caps pkt x Hb H. unfold read_ok in H. destruct (read_ok_p caps pkt) as [y b'] eqn:E. cbn [fst] in H. subst y.
  unfold read_ok_p in E. apply pbind_inv in E. destruct E as (h & b1 & E1 & E).
  apply checked_uint_iff in E1; [|exact Hb]. destruct E1 as [Hh ->]. pose proof (bytes_ok_app _ _ Hb) as Hb1.
  destruct (Z.eqb_spec h 0) as [->|]; [|discriminate]. cbn [negb] in E.
  apply pbind_inv in E. destruct E as (rows & b2 & E1 & E). apply checked_int_iff in E1; [|exact Hb1].
  destruct E1 as (a & Ha & ->). pose proof (bytes_ok_app _ _ Hb1) as Hb2.
  apply pbind_inv in E. destruct E as (id & b3 & E1 & E). apply checked_int_iff in E1; [|exact Hb2].
  destruct E1 as (b & Hbi & ->). pose proof (bytes_ok_app _ _ Hb2) as Hb3.
  apply pbind_inv in E. destruct E as (status & b4 & E1 & E). apply checked_uint_iff in E1; [|exact Hb3].
  destruct E1 as [Hs ->]. pose proof (bytes_ok_app _ _ Hb3) as Hb4.
  unfold ok_tail in E. apply pbind_inv in E. destruct E as (w & b5 & E1 & E). apply checked_uint_iff in E1; [|exact Hb4].
  destruct E1 as [Hw ->]. pose proof (bytes_ok_app _ _ Hb4) as Hb5.
  apply pbind_inv in E. destruct E as (m & b6 & E1 & E). apply optional_str_iff in E1; [|exact Hb5]. destruct E1 as (Hm & pre & Hp).
  change (256 ^ Z.of_nat 2) with 65536 in *.
  exists a, b, status, b5.
  assert (T : forall i, Z.testbit (status_truncate status) i = Z.testbit status i && negb (i =? 2)).
  { intros i. apply status_truncate_bit. exact Hs. }
  rewrite session_track_flag, changed_flag, T in E. rewrite andb_true_r in E.
  destruct (Z.testbit caps SESSION_TRACK_BIT && Z.testbit status SESSION_STATE_CHANGED_BIT) eqn:F.
  - apply pbind_inv in E. destruct E as (i & b7 & E1 & E). injection E as <- _.
    assert (Hb6 : bytes_ok b6). { rewrite Hp in Hb5. now apply bytes_ok_app in Hb5. }
    apply optional_str_iff in E1; [|exact Hb6]. destruct E1 as (Hi & _).
    cbn [ok_affected_rows ok_last_insert_id ok_status ok_warnings ok_message ok_session_state_info].
    splits; try assumption; try reflexivity; try discriminate; try lia; try tauto.
    intros t Ht. apply Hi in Ht. destruct Ht as (Ht & w' & r' & E1 & Ht'). split; [exact Ht|]. exists pre, w', r'. rewrite Hp, E1. auto.
  - injection E as <- _. cbn [ok_affected_rows ok_last_insert_id ok_status ok_warnings ok_message ok_session_state_info].
    splits; try assumption; try reflexivity; try discriminate; try lia; try tauto.
Qed.

Lemma err_reported : forall caps pkt e, bytes_ok pkt -> read_err pkt caps = Ok e ->
  err_report (Z.testbit caps PROTOCOL_41_BIT) (Z.testbit caps PROGRESS_BIT) e pkt.
Proof.
  intros caps pkt [code state msg|stage max_stage prog info] Hb H; [cbn [err_report]; now apply read_err_inv|].
  unfold read_err in H. destruct (read_err_p caps pkt) as [r rest] eqn:E. cbn [fst] in H. subst r.
  apply pbind_inv in E. destruct E as (u & b1 & E1 & E).
  unfold check_len in E1. destruct (lenZ pkt <? 3); [discriminate|]. injection E1 as <- <-.
  apply pbind_inv in E. destruct E as (h & b2 & E1 & E).
  apply eat_uint_inv in E1; [|assumption]. destruct E1 as (-> & Hh & Hb2).
  change (256 ^ Z.of_nat 1) with 256 in Hh. rewrite wire_1 by assumption.
  destruct (Z.eqb_spec h 255); [subst h; cbn [negb] in E | discriminate].
  apply pbind_inv in E. destruct E as (c & b3 & E1 & E).
  apply eat_uint_inv in E1; [|assumption]. destruct E1 as (-> & Hc & Hb3).
  rewrite progress_flag, protocol_41_flag in E.
  destruct ((c =? 65535) && Z.testbit caps PROGRESS_BIT) eqn:EP.
  2:{ exfalso. unfold error_packet in E. apply pbind_inv in E. destruct E as (? & ? & _ & E).
      apply pbind_inv in E. destruct E as (? & ? & _ & E). apply pbind_inv in E. destruct E as (? & ? & _ & E). discriminate. }
  apply andb_true_iff in EP. destruct EP as (Ec & EP). apply Z.eqb_eq in Ec. subst c.
  unfold progress_packet in E. apply pbind_inv in E. destruct E as (u2 & b4 & E1 & E).
  apply check_len_inv in E1. destruct E1 as (-> & L).
  apply pbind_inv in E. destruct E as (u3 & b4 & E1 & E).
  destruct b3 as [|n b3]; [unfold lenZ in L; cbn in L; lia|]. rewrite skip_cons in E1. injection E1 as <- <-.
  inversion_clear Hb3 as [|? ? Hn Hb4].
  apply pbind_inv in E. destruct E as (x1 & b5 & E1 & E). apply eat_uint_inv in E1; [|assumption]. destruct E1 as (-> & H1 & Hb5).
  apply pbind_inv in E. destruct E as (x2 & b6 & E1 & E). apply eat_uint_inv in E1; [|assumption]. destruct E1 as (-> & H2 & Hb6).
  apply pbind_inv in E. destruct E as (x3 & b7 & E1 & E). apply eat_uint_inv in E1; [|assumption]. destruct E1 as (-> & H3 & Hb7).
  apply pbind_inv in E. destruct E as (x4 & b8 & E1 & E). apply checked_slice_iff in E1; [|assumption]. destruct E1 as (l & Hl & ->).
  injection E as <- <- <- <- _. change (256 ^ Z.of_nat 1) with 256 in *. change (256 ^ Z.of_nat 3) with 16777216 in *.
  cbn [err_report]. splits; try lia; try assumption. exists n, l, b8. split; [exact Hl|].
  rewrite !wire_1 by assumption. cbn [app]. reflexivity.
Qed.

(** ** What every operation keeps *)

Definition sane (c : conn) : Prop := wire_ok c /\ budget_ok (c_stream c).

Lemma read_exact_budget : forall n s r s', read_exact n s = (r, s') -> s_budget s' = s_budget s.
Proof. intros n s r s' H. unfold read_exact in H. destruct (_ <? _); injection H as <- <-; reflexivity. Qed.

Lemma read_chunk_budget : forall dst s r s', read_chunk_to_buf dst s = (r, s') -> s_budget s' = s_budget s.
Proof.
  intros dst s r s' H. unfold read_chunk_to_buf, iobind in H.
  destruct (read_exact 4 s) as [[m|e|] s1] eqn:E; apply read_exact_budget in E; try (injection H as <- <-; exact E).
  destruct (_ =? 0); [injection H as <- <-; exact E|].
  destruct (read_exact _ s1) as [[b|e|] s2] eqn:E2; apply read_exact_budget in E2; injection H as <- <-; congruence.
Qed.

Lemma read_packet_budget : forall fuel seq dst s r q s', read_packet_to_buf fuel seq dst s = ((r, q), s') -> s_budget s' = s_budget s.
Proof.
  induction fuel as [|fuel IH]; intros seq dst s r q s' H; cbn [read_packet_to_buf] in H.
  { injection H as <- <- <-. reflexivity. }
  destruct (read_chunk_to_buf dst s) as [[[[d sq] last]|e|] s1] eqn:E; apply read_chunk_budget in E;
    try (injection H as <- <- <-; exact E).
  destruct (negb _); [injection H as <- <- <-; exact E|].
  destruct last; [injection H as <- <- <-; exact E|]. apply IH in H. congruence.
Qed.

Lemma frames_payload_ok : forall q p w q', frames q p w q' -> bytes_ok w -> bytes_ok p.
Proof.
  intros q p w q' H. induction H; intros Hw.
  - repeat (apply BaseFacts.bytes_ok_app in Hw; destruct Hw as (_ & Hw)). exact Hw.
  - apply BaseFacts.bytes_ok_app in Hw. destruct Hw as (_ & Hw). apply BaseFacts.bytes_ok_app in Hw. destruct Hw as (_ & Hw).
    apply BaseFacts.bytes_ok_app in Hw. destruct Hw as (Hw & Hw2). apply BaseFacts.bytes_ok_app. split; [exact Hw | now apply IHframes].
Qed.

Definition good {B} (m : IO conn B) : Prop := forall c r c', sane c -> m c = (r, c') -> sane c' /\ taken c c' /\ c_data c' = c_data c.

Lemma good_bind : forall B C (m : IO conn B) (f : B -> IO conn C), good m -> (forall b, good (f b)) -> good (iobind m f).
Proof.
  intros B C m f Hm Hf c r c' Hc H. rewrite iob in H. destruct (m c) as [[b|e|] c1] eqn:E;
    destruct (Hm c _ c1 Hc E) as (S1 & T1 & D1); try (injection H as <- <-; auto; fail).
  destruct (Hf b c1 r c' S1 H) as (S2 & T2 & D2). splits; auto; [eapply taken_trans; eauto | congruence].
Qed.

Lemma good_ret : forall B (b : B), good (ioret b).
Proof. intros B b c r c' Hc H. injection H as <- <-. splits; auto using taken_refl. Qed.

Lemma good_res : forall B (x : res error B), good (iores x).
Proof. intros B x c r c' Hc H. injection H as <- <-. splits; auto using taken_refl. Qed.

Lemma good_here : forall B (m : conn -> IO conn B), (forall x, good (m x)) -> good (fun c => m c c).
Proof. intros B m Hm c r c' Hc H. exact (Hm c c r c' Hc H). Qed.

Lemma good_reset : good reset_seq.
Proof.
  intros c r c' ((Hs & Hb) & Hg) H. injection H as <- <-. split; [split; [split; [unfold byte_ok; cbn; lia | exact Hb] | exact Hg]|].
  split; [now apply taken_same | reflexivity].
Qed.

Lemma good_pending : forall b, good (set_pending b).
Proof.
  intros b c r c' ((Hs & Hb) & Hg) H. injection H as <- <-. split; [split; [split; assumption | exact Hg]|].
  split; [now apply taken_same | reflexivity].
Qed.

(** Reading a packet. *)
Lemma conn_read_told : forall c r c', sane c -> conn_read c = (r, c') ->
  sane c' /\ taken c c' /\ c_data c' = c_data c /\ c_pending c' = c_pending c /\
  match r with
  | Ok p => bytes_ok p /\ exists w, frames (c_seq c) p w (c_seq c') /\ s_in (c_stream c) = w ++ s_in (c_stream c')
  | Err e => lost_packet e
  | Panic => False
  end.
Proof.
  intros c r c' (Hc & Hg) H. destruct (conn_read_in c r c' Hc H) as (O & T & N & _).
  unfold conn_read in H. destruct (read_packet (c_seq c) (c_stream c)) as [[r1 q] s1] eqn:E. injection H as <- <-. cbn [c_stream c_seq c_data c_pending] in *.
  assert (G : budget_ok s1). { unfold budget_ok. unfold read_packet in E. rewrite (read_packet_budget _ _ _ _ _ _ _ E). exact Hg. }
  splits; auto; [split; assumption|].
  destruct r1 as [p|e|]; [| |contradiction].
  - apply read_packet_iff in E as (w & F & I & _); [|exact (proj1 Hc)|exact (proj2 Hc)].
    split; [|eauto]. eapply frames_payload_ok; [exact F|]. destruct Hc as (_ & Hb). rewrite I in Hb. now apply BaseFacts.bytes_ok_app in Hb.
  - unfold read_packet in E. apply read_packet_errors in E. destruct E as [-> | ->]; [now left | right; eauto].
Qed.

Lemma good_read : good conn_read.
Proof. intros c r c' Hc H. destruct (conn_read_told c r c' Hc H) as (S & T & D & _). auto. Qed.

(** Writing a packet. *)
Lemma conn_write_told : forall p c r c', sane c -> conn_write p c = (r, c') ->
  sane c' /\ s_in (c_stream c') = s_in (c_stream c) /\ c_data c' = c_data c /\ c_pending c' = c_pending c /\
  match r with
  | Ok _ => exists w, frames (c_seq c) p w (c_seq c')
  | Err e => forall x, e <> EServer x
  | Panic => False
  end.
Proof.
  intros p c r c' (Hc & Hg) H. destruct (conn_write_in p c r c' Hc H) as (O & I & N).
  unfold conn_write in H. destruct (write_packet_spec (c_seq c) p (proj1 Hc)) as (w & q & F & W). specialize (W _ Hg).
  destruct (write_all w (c_stream c)) as [[u|e|] s1] eqn:Ew.
  - rewrite W in H. injection H as <- <-. pose proof (write_all_budget _ _ _ _ Hg Ew) as G. splits; auto; [split; assumption|]. eauto.
  - destruct W as (q2 & W). rewrite W in H. injection H as <- <-. pose proof (write_all_budget _ _ _ _ Hg Ew) as G. splits; auto; [split; assumption|].
    unfold write_all in Ew. intros x ->. destruct (s_budget (c_stream c)) as [n|]; [destruct (_ <=? _)|]; discriminate.
  - contradiction.
Qed.

Lemma good_write : forall p, good (conn_write p).
Proof. intros p c r c' Hc H. destruct (conn_write_told p c r c' Hc H) as (S & I & D & _). splits; auto using taken_same. Qed.

Create HintDb good.
#[export] Hint Resolve good_bind good_ret good_res good_read good_write good_reset good_pending : good.

Lemma good_cleanup : good cleanup.
Proof.
  assert (L : forall fuel, good (cleanup_loop fuel)).
  { induction fuel as [|fuel IH].
    - intros c r c' Hc H. injection H as <- <-. splits; auto using taken_refl.
    - cbn [cleanup_loop]. apply good_bind; [auto with good|]. intros p.
      apply (good_here _ (fun x => last <- iores (is_last (c_caps x) p) ;; if last then
         set_pending false ;;; y <- iores (of_protocol (read_eof p (c_caps x))) ;; ioret (Some y) else cleanup_loop fuel)).
      intros x. apply good_bind; [auto with good|]. intros [|]; auto with good. }
  intros c r c' Hc H. unfold cleanup in H. destruct (c_pending c); [exact (L _ c r c' Hc H)|].
  injection H as <- <-. splits; auto using taken_refl.
Qed.
#[export] Hint Resolve good_cleanup : good.

Lemma good_command : forall p, good (write_command p).
Proof. intros p. unfold write_command. auto with good. Qed.
#[export] Hint Resolve good_command : good.

Lemma good_commands : forall ps, good (write_commands ps).
Proof. induction ps as [|p ps IH]; cbn [write_commands]; auto with good. Qed.
#[export] Hint Resolve good_commands : good.

Lemma good_decode : forall p, good (decode_response p).
Proof.
  intros p. apply (good_here _ (fun x c => match p with
      | [] => (Err (EProtocol peof), c)
      | y :: _ =>
        if y =? 0 then (z <- iores (of_protocol (read_ok p (c_caps x))) ;; ioret (Ok z)) c
        else if y =? 255 then (e <- iores (of_protocol (read_err p (c_caps x))) ;; ioret (Err e)) c
        else (Err (EProtocol (PUnexpectedPacket p)), c) end)).
  intros x. destruct p as [|y p]; [apply (good_res _ (Err _))|].
  destruct (y =? 0); [auto with good|]. destruct (y =? 255); [auto with good|]. apply (good_res _ (Err _)).
Qed.
#[export] Hint Resolve good_decode : good.

Lemma good_response : good read_response.
Proof. unfold read_response. auto with good. Qed.
#[export] Hint Resolve good_response : good.

Lemma good_defs : forall n, good (read_column_defs n).
Proof. induction n as [|n IH]; cbn [read_column_defs]; auto with good. Qed.
#[export] Hint Resolve good_defs : good.

Lemma good_rs_read : good rs_read.
Proof.
  unfold rs_read. apply good_bind; [auto with good|]. intros p. destruct (first_is 0 p); [auto 6 with good|].
  destruct (first_is 251 p); [auto with good|]. destruct (first_is 255 p).
  - apply (good_here _ (fun x c => (server_error p (c_caps x), c))). intros x. apply good_res.
  - apply good_bind; [auto with good|]. intros _. apply good_bind; [auto with good|]. intros n.
    destruct (capacity_overflow n); [auto with good|].
    apply (good_here _ (fun x => columns <- read_column_defs (Z.to_nat (Z.min n (lenZ (s_in (c_stream x)) + 1))) ;; ioret (mkSet columns None))).
    intros x. auto with good.
Qed.
#[export] Hint Resolve good_rs_read : good.

Lemma good_skip : forall n, good (skip_packets n).
Proof. induction n as [|n IH]; cbn [skip_packets]; auto with good. Qed.
#[export] Hint Resolve good_skip : good.

Lemma good_send : forall id values, good (send_execute id values).
Proof.
  intros id values. unfold send_execute. destruct (execute_new id values) as [r|]; [|auto with good].
  unfold send_long_data. destruct (ex_as_long_data r); auto with good.
Qed.
#[export] Hint Resolve good_send : good.

(** ** The end of a result set *)

Lemma is_last_told : forall caps p,
  match is_last caps p with
  | Ok true => last_packet caps p
  | Ok false => p <> [] /\ ~ last_packet caps p
  | Err _ => False
  | Panic => p = []
  end.
Proof.
  intros caps [|x r]; [reflexivity|]. unfold is_last. rewrite deprecate_flag.
  assert (E : (lenZ (x :: r) <? (if Z.testbit caps DEPRECATE_EOF_BIT then MAX_PAYLOAD_LEN else 8)) = true <->
    Z.of_nat (length (x :: r)) < (if Z.testbit caps DEPRECATE_EOF_BIT then 2 ^ 24 - 1 else 8)).
  { rewrite Z.ltb_lt. unfold lenZ. destruct (Z.testbit caps DEPRECATE_EOF_BIT); [rewrite MAX_eq|]; reflexivity. }
  destruct (Z.eqb_spec x 254) as [->|N]; cbn [andb].
  - destruct (lenZ (254 :: r) <? _) eqn:F.
    + exists r. split; [reflexivity|]. now apply E.
    + split; [discriminate|]. intros (r' & _ & H). apply E in H. discriminate.
  - split; [discriminate|]. intros (r' & H & _). congruence.
Qed.

(** ** The end of a set *)

Lemma ignore_int_iff : forall b b', bytes_ok b -> (4 <= length b')%nat ->
  ignore_lenenc_int b = (Ok tt, b') <-> exists w, b = w ++ b' /\ skipped w b'.
Proof.
  intros b b' Hb L. unfold ignore_lenenc_int. split.
  - intros H. destruct (checked_eat_lenenc_int b) as [[n|e|] b1] eqn:E; try discriminate; injection H as <-.
    + apply checked_int_iff in E; [|exact Hb]. destruct E as (w & W & ->). exists w. split; [reflexivity | left; eauto].
    + assert (S : forall k x, checked_eat_uint k x = (Err e, b1) -> b1 = x /\ (length x < k)%nat).
      { intros k x H. unfold checked_eat_uint, pbind, checked_eat, eat in H. destruct (Z.geb_spec (lenZ x) (Z.of_nat k)) as [G|G].
        - destruct (Z.ltb_spec (lenZ x) (Z.of_nat k)); [lia | discriminate].
        - injection H as _ <-. unfold lenZ in G. split; [reflexivity | lia]. }
      unfold checked_eat_lenenc_int, pbind in E. destruct (checked_eat_uint 1 b) as [[x|e'|] b2] eqn:E1; try discriminate.
      2:{ injection E as -> ->. apply S in E1. destruct E1 as [-> E1]. cbn in L. lia. }
      apply checked_uint_iff in E1; [|exact Hb]. destruct E1 as (R & ->). change (256 ^ Z.of_nat 1) with 256 in R. rewrite wire_1 by exact R.
      destruct (x <=? 250); [discriminate|].
      destruct (x =? 252); [apply S in E; destruct E as [-> E]; cbn in E; lia|].
      destruct (x =? 253); [apply S in E; destruct E as [-> E]; cbn in E; lia|].
      destruct (Z.eqb_spec x 254) as [->|]; [|discriminate]. apply S in E. destruct E as [-> E].
      exists [254]. split; [reflexivity | right; auto].
  - intros (w & -> & [(n & W) | (-> & S)]).
    + replace (checked_eat_lenenc_int (w ++ b')) with (@Ok protocol_error Z n, b'); [reflexivity|].
      symmetry. apply checked_int_iff; [exact Hb | eauto].
    + cbn [app]. unfold checked_eat_lenenc_int. erewrite pbind_ok by apply checked_eat_u8_cons.
      change (254 <=? 250) with false. change (254 =? 252) with false. change (254 =? 253) with false. change (254 =? 254) with true. cbn match.
      unfold checked_eat_uint, pbind. rewrite checked_eat_short; [reflexivity|]. unfold lenZ. lia.
Qed.

Lemma ignore_int_ok : forall b, bytes_ok b -> exists b' w, ignore_lenenc_int b = (Ok tt, b') /\ b = w ++ b'.
Proof.
  intros b Hb. unfold ignore_lenenc_int. pose proof (np_checked_eat_lenenc_int b) as N.
  assert (T : exists w, b = w ++ snd (checked_eat_lenenc_int b)).
  { unfold checked_eat_lenenc_int, pbind.
    assert (U : forall k x, exists w, x = w ++ snd (checked_eat_uint k x)).
    { intros k x. unfold checked_eat_uint, pbind, checked_eat, eat. destruct (lenZ x >=? Z.of_nat k); [|now exists []].
      destruct (lenZ x <? Z.of_nat k); [now exists []|]. cbn [snd pret]. exists (takeZ (Z.of_nat k) x). now rewrite take_drop. }
    destruct (U 1%nat b) as (w1 & E1). destruct (checked_eat_uint 1 b) as [[x|e|] b1]; cbn [snd] in *; eauto.
    assert (V : forall k, exists w, b = w ++ snd (checked_eat_uint k b1)).
    { intros k. destruct (U k b1) as (w2 & E2). exists (w1 ++ w2). now rewrite <- app_assoc, <- E2. }
    destruct (x <=? 250); [exists w1; exact E1|]. destruct (x =? 252); [apply V|]. destruct (x =? 253); [apply V|].
    destruct (x =? 254); [apply V | exists w1; exact E1]. }
  destruct T as (w & T). destruct (checked_eat_lenenc_int b) as [[n|e|] b']; cbn [snd fst] in *; [eauto | eauto | now elim N].
Qed.

Lemma eof_told : forall caps pkt s warnings, bytes_ok pkt ->
  (exists x, read_eof pkt caps = Ok x /\ ok_status x = s /\ ok_warnings x = warnings) <-> end_report s warnings pkt.
Proof.
  intros caps pkt s warnings Hb. unfold read_eof, read_eof_p. split.
  - intros (x & H & <- & <-).
    destruct (ignore_int_ok pkt Hb) as (b1 & w1 & E1 & ->). erewrite pbind_ok in H by exact E1.
    assert (Hb1 : bytes_ok b1) by (unfold bytes_ok in *; rewrite Forall_app in Hb; tauto).
    destruct (ignore_int_ok b1 Hb1) as (b2 & w2 & E2 & ->). erewrite pbind_ok in H by exact E2.
    assert (Hb2 : bytes_ok b2) by (unfold bytes_ok in *; rewrite Forall_app in Hb1; tauto).
    unfold pbind in H. destruct (checked_eat_uint 2 b2) as [[full|e|] b3] eqn:E; try discriminate.
    apply checked_uint_iff in E; [|exact Hb2]. destruct E as (Hf & ->).
    assert (Hb3 : bytes_ok b3) by (unfold bytes_ok in *; rewrite Forall_app in Hb2; tauto).
    pose proof (ok_tail_ok caps 0 0 (status_truncate full) b3 Hb3) as T.
    destruct (checked_eat_uint 2 b3) as [[w|e|] b4] eqn:E4.
    + destruct T as (x' & b' & T & _ & _ & Ts & Tw). rewrite T in H. injection H as <-.
      apply checked_uint_iff in E4; [|exact Hb3]. destruct E4 as (Hw & ->).
      apply ignore_int_iff in E1; [|exact Hb|rewrite !app_length, !wire_uint_le, !le_bytes_length; lia].
      apply ignore_int_iff in E2; [|exact Hb1|rewrite !app_length, !wire_uint_le, !le_bytes_length; lia].
      destruct E1 as (v1 & E1 & K1), E2 as (v2 & E2 & K2). apply app_inv_tail in E1, E2. subst v1 v2. rewrite Tw.
      exists w1, w2, full, b4. splits; auto; try apply Hf; try apply Hw. intros i. rewrite Ts. now apply status_truncate_bit.
    + destruct (ok_tail caps 0 0 (status_truncate full) b3) as [[y|e'|] b']; discriminate.
    + exfalso. eapply (np_checked_eat_uint 2). rewrite E4. reflexivity.
  - intros (a & b & full & rest & Hf & Hw & Ka & Kb & -> & Hst).
    assert (Es : status_truncate full = s).
    { apply Z.bits_inj. intros i. rewrite Hst. now apply status_truncate_bit. }
    assert (Hb1 : bytes_ok (b ++ wire_uint 2 full ++ wire_uint 2 warnings ++ rest)) by (unfold bytes_ok in *; rewrite Forall_app in Hb; tauto).
    assert (Hb2 : bytes_ok (wire_uint 2 full ++ wire_uint 2 warnings ++ rest)) by (unfold bytes_ok in *; rewrite Forall_app in Hb1; tauto).
    assert (Hb3 : bytes_ok (wire_uint 2 warnings ++ rest)) by (unfold bytes_ok in *; rewrite Forall_app in Hb2; tauto).
    pose proof (ok_tail_ok caps 0 0 (status_truncate full) (wire_uint 2 warnings ++ rest) Hb3) as T.
    assert (E : checked_eat_uint 2 (wire_uint 2 warnings ++ rest) = (Ok warnings, rest)).
    { apply checked_uint_iff; [exact Hb3|]. split; [exact Hw|reflexivity]. }
    rewrite E in T. destruct T as (x & b' & T & _ & _ & Ts & Tw). exists x. splits; try assumption; [|congruence].
    assert (L : (4 <= length (wire_uint 2 full ++ wire_uint 2 warnings ++ rest))%nat) by (rewrite !app_length, !wire_uint_le, !le_bytes_length; lia).
    assert (E1 : ignore_lenenc_int (a ++ b ++ wire_uint 2 full ++ wire_uint 2 warnings ++ rest) =
      (Ok tt, b ++ wire_uint 2 full ++ wire_uint 2 warnings ++ rest)) by (apply ignore_int_iff; [exact Hb | rewrite app_length; lia | eauto]).
    assert (E2 : ignore_lenenc_int (b ++ wire_uint 2 full ++ wire_uint 2 warnings ++ rest) =
      (Ok tt, wire_uint 2 full ++ wire_uint 2 warnings ++ rest)) by (apply ignore_int_iff; eauto).
    erewrite pbind_ok by exact E1. erewrite pbind_ok by exact E2.
    erewrite pbind_ok by (apply checked_uint_iff; [exact Hb2|]; split; [exact Hf|reflexivity]).
    now rewrite T.
Qed.

Lemma eof_bad : forall caps pkt e, bytes_ok pkt -> read_eof pkt caps = Err e -> e = peof /\ ~ readable_end pkt.
Proof.
  intros caps pkt e Hb H. split.
  - unfold read_eof, read_eof_p in H.
    destruct (ignore_int_ok pkt Hb) as (b1 & w1 & E1 & ->). erewrite pbind_ok in H by exact E1.
    assert (Hb1 : bytes_ok b1) by (unfold bytes_ok in *; rewrite Forall_app in Hb; tauto).
    destruct (ignore_int_ok b1 Hb1) as (b2 & w2 & E2 & ->). erewrite pbind_ok in H by exact E2.
    assert (Hb2 : bytes_ok b2) by (unfold bytes_ok in *; rewrite Forall_app in Hb1; tauto).
    unfold pbind in H. destruct (checked_eat_uint 2 b2) as [[full|e'|] b3] eqn:E; try discriminate.
    2:{ injection H as <-. eapply checked_uint_err; eassumption. }
    apply checked_uint_iff in E; [|exact Hb2]. destruct E as (Hf & ->).
    assert (Hb3 : bytes_ok b3) by (unfold bytes_ok in *; rewrite Forall_app in Hb2; tauto).
    pose proof (ok_tail_ok caps 0 0 (status_truncate full) b3 Hb3) as T.
    destruct (checked_eat_uint 2 b3) as [[w|e'|] b4] eqn:E4.
    + destruct T as (x' & b' & T & _). rewrite T in H. discriminate.
    + destruct (ok_tail caps 0 0 (status_truncate full) b3) as [[y|e''|] b']; try discriminate. cbn [fst] in *. injection T as ->.
      injection H as <-. eapply checked_uint_err; eassumption.
    + exfalso. eapply (np_checked_eat_uint 2). rewrite E4. reflexivity.
  - intros (s & w & R). apply (eof_told caps) in R; [|exact Hb]. destruct R as (x & R & _). congruence.
Qed.

Lemma eof_good : forall caps pkt x, bytes_ok pkt -> read_eof pkt caps = Ok x -> readable_end pkt.
Proof. intros caps pkt x Hb H. exists (ok_status x), (ok_warnings x). apply (eof_told caps); eauto. Qed.

(** What is left of an open set. *)
Definition left_over (caps : Z) (open : bool) (q : Z) (wl : bytes) : Prop :=
  if open then exists rows last ql, framed q (rows ++ [last]) wl ql /\
    Forall (fun p => p <> [] /\ ~ last_packet caps p) rows /\ last_packet caps last /\ readable_end last
  else wl = [].

Lemma cleanup_loop_told : forall fuel c x c', sane c -> cleanup_loop fuel c = (Ok x, c') ->
  c_pending c' = false /\ exists wl, left_over (c_caps c) true (c_seq c) wl /\ s_in (c_stream c) = wl ++ s_in (c_stream c').
Proof.
  induction fuel as [|fuel IH]; intros c x c' Hc H; [discriminate|]. cbn [cleanup_loop] in H. rewrite iob in H.
  destruct (conn_read c) as [[p|e|] c1] eqn:E; try discriminate. destruct (conn_read_told _ _ _ Hc E) as (S1 & T1 & D1 & _ & B & w & F & I).
  rewrite iob in H. unfold iores in H. pose proof (is_last_told (c_caps c1) p) as L.
  assert (C : c_caps c1 = c_caps c) by (unfold c_caps; now rewrite D1).
  destruct (is_last (c_caps c1) p) as [[|]|e|]; try discriminate.
  - rewrite !iob in H. unfold set_pending in H. destruct (read_eof p (c_caps c1)) eqn:Er; try discriminate. injection H as <- <-.
    pose proof (eof_good _ _ _ B Er) as Rd. split; [reflexivity|]. exists w. cbn [c_stream]. split; [|exact I]. rewrite <- C. exists [], p, (c_seq c1). splits; auto.
    rewrite <- (app_nil_r w). econstructor; [exact F | constructor].
  - destruct (IH c1 x c' S1 H) as (P & wl & (rows & last & ql & F2 & R & La & Rd) & I2). split; [exact P|]. exists (w ++ wl).
    split; [|now rewrite I, I2, app_assoc]. rewrite C in *. exists (p :: rows), last, ql. splits; auto.
    cbn [app]. econstructor; eauto.
Qed.

Lemma cleanup_told : forall c x c', sane c -> cleanup c = (Ok x, c') ->
  c_pending c' = false /\ exists wl, left_over (c_caps c) (c_pending c) (c_seq c) wl /\ s_in (c_stream c) = wl ++ s_in (c_stream c').
Proof.
  intros c x c' Hc H. unfold cleanup in H. destruct (c_pending c) eqn:P; [now apply cleanup_loop_told in H|].
  injection H as <- <-. split; [exact P|]. exists []. split; reflexivity.
Qed.

(** ** Errors that are not the server's *)

Definition mine {B} (m : IO conn B) : Prop := forall c e c', sane c -> m c = (Err e, c') -> forall x, e <> EServer x.

Lemma mine_bind : forall B C (m : IO conn B) (f : B -> IO conn C), good m -> mine m -> (forall b, mine (f b)) -> mine (iobind m f).
Proof.
  intros B C m f Gm Hm Hf c e c' Hc H. rewrite iob in H. destruct (m c) as [[b|e1|] c1] eqn:E; try discriminate.
  - destruct (Gm _ _ _ Hc E) as (S1 & _). eapply Hf; eauto.
  - injection H as <- <-. eapply Hm; eauto.
Qed.

Lemma mine_ret : forall B (b : B), mine (ioret b).
Proof. intros B b c e c' Hc H. discriminate. Qed.

Lemma mine_protocol : forall B (x : res protocol_error B), mine (iores (of_protocol x)).
Proof. intros B [b|p|] c e c' Hc H; try discriminate. injection H as <- <-. discriminate. Qed.

Lemma mine_read : mine conn_read.
Proof.
  intros c e c' Hc H. destruct (conn_read_told _ _ _ Hc H) as (_ & _ & _ & _ & [-> | (k & ->)]); discriminate.
Qed.

Lemma mine_write : forall p, mine (conn_write p).
Proof. intros p c e c' Hc H. destruct (conn_write_told _ _ _ _ Hc H) as (_ & _ & _ & _ & M). exact M. Qed.

Lemma mine_reset : mine reset_seq.
Proof. intros c e c' Hc H. discriminate. Qed.
Lemma mine_pending : forall b, mine (set_pending b).
Proof. intros b c e c' Hc H. discriminate. Qed.
Lemma mine_panic : forall B, mine (iores (@Panic error B)).
Proof. intros B c e c' Hc H. discriminate. Qed.
Lemma mine_runtime : forall B e, mine (iores (@Err error B (ERuntime e))).
Proof. intros B e c e' c' Hc H. injection H as <- <-. discriminate. Qed.
Create HintDb mine.
#[export] Hint Resolve mine_bind mine_ret mine_protocol mine_read mine_write mine_reset mine_pending mine_panic mine_runtime : mine.

Lemma mine_cleanup : mine cleanup.
Proof.
  assert (L : forall fuel, mine (cleanup_loop fuel)).
  { induction fuel as [|fuel IH]; intros c e c' Hc H; [discriminate|]. cbn [cleanup_loop] in H. rewrite iob in H.
    destruct (conn_read c) as [[p|e1|] c1] eqn:E; try discriminate.
    - destruct (good_read _ _ _ Hc E) as (S1 & _). rewrite iob in H. unfold iores in H. pose proof (is_last_told (c_caps c1) p) as La.
      destruct (is_last (c_caps c1) p) as [[|]|e1|]; try contradiction; try discriminate.
      + rewrite !iob in H. unfold set_pending in H. destruct (read_eof p (c_caps c1)); try discriminate. injection H as <- <-. discriminate.
      + eapply IH; eauto.
    - injection H as <- <-. eapply mine_read; eauto. }
  intros c e c' Hc H. unfold cleanup in H. destruct (c_pending c); [|discriminate]. eapply L; eauto.
Qed.
#[export] Hint Resolve mine_cleanup : mine.

Lemma mine_command : forall p, mine (write_command p).
Proof. intros p. unfold write_command. auto with good mine. Qed.
#[export] Hint Resolve mine_command : mine.

Lemma mine_commands : forall ps, mine (write_commands ps).
Proof. induction ps as [|p ps IH]; cbn [write_commands]; auto with good mine. Qed.
#[export] Hint Resolve mine_commands : mine.

Lemma mine_defs : forall n, mine (read_column_defs n).
Proof. induction n as [|n IH]; cbn [read_column_defs]; auto 8 with good mine. Qed.
Lemma mine_skip : forall n, mine (skip_packets n).
Proof. induction n as [|n IH]; cbn [skip_packets]; auto with good mine. Qed.
#[export] Hint Resolve mine_defs mine_skip : mine.

(** ** Requests *)

Lemma command_told : forall p c u c', sane c -> write_command p c = (Ok u, c') ->
  c_pending c' = false /\ (exists w, frames 0 p w (c_seq c')) /\
  exists wl, left_over (c_caps c) (c_pending c) (c_seq c) wl /\ s_in (c_stream c) = wl ++ s_in (c_stream c').
Proof.
  intros p c u c' Hc H. unfold write_command in H. rewrite iob in H. destruct (cleanup c) as [[x|e|] c1] eqn:E; try discriminate.
  destruct (good_cleanup _ _ _ Hc E) as (S1 & _). destruct (cleanup_told _ _ _ Hc E) as (P1 & wl & L & I).
  rewrite iob in H. unfold reset_seq in H.
  assert (S2 : sane (mkConn (c_stream c1) 0 (c_data c1) (c_pending c1))) by (now apply (good_reset c1 (Ok tt))).
  destruct (conn_write_told _ _ _ _ S2 H) as (_ & I2 & _ & P2 & F). cbn [c_stream c_seq c_pending] in *.
  split; [congruence|]. split; [exact F|]. exists wl. split; [exact L|]. now rewrite I, I2.
Qed.

Lemma commands_told : forall ps c u c', sane c -> ps <> [] -> write_commands ps c = (Ok u, c') ->
  c_pending c' = false /\ (exists w, requests ps w (c_seq c')) /\
  exists wl, left_over (c_caps c) (c_pending c) (c_seq c) wl /\ s_in (c_stream c) = wl ++ s_in (c_stream c').
Proof.
  induction ps as [|p ps IH]; intros c u c' Hc Hn H; [contradiction|]. cbn [write_commands] in H. rewrite iob in H.
  destruct (write_command p c) as [[x|e|] c1] eqn:E; try discriminate.
  destruct (good_command _ _ _ _ Hc E) as (S1 & _). destruct (command_told _ _ _ _ Hc E) as (P1 & (w1 & F1) & wl & L & I).
  destruct ps as [|p2 ps].
  - injection H as <- <-. split; [exact P1|]. split; [exists w1; now constructor|]. eauto.
  - destruct (IH c1 u c' S1) as (P2 & (w2 & F2) & wl2 & L2 & I2); [discriminate | exact H|].
    split; [exact P2|]. split; [exists (w1 ++ w2); econstructor; eauto|]. exists wl. split; [exact L|].
    rewrite P1 in L2. cbn in L2. subst wl2. now rewrite I, I2.
Qed.

(** ** Answers *)

(** A server error read from the next packet. *)
Definition error_told (c c' : conn) (e : error) : Prop :=
  exists x p w, e = EServer x /\ frames (c_seq c) p w (c_seq c') /\ s_in (c_stream c) = w ++ s_in (c_stream c') /\
    c_pending c' = c_pending c /\
    err_report (Z.testbit (c_caps c) PROTOCOL_41_BIT) (Z.testbit (c_caps c) PROGRESS_BIT) x p.

Definition ok_told (c c' : conn) (x : ok_packet) : Prop :=
  exists p w, frames (c_seq c) p w (c_seq c') /\ s_in (c_stream c) = w ++ s_in (c_stream c') /\
    c_pending c' = c_pending c /\
    ok_report (Z.testbit (c_caps c) SESSION_TRACK_BIT) (ok_affected_rows x) (ok_last_insert_id x) (ok_status x) (ok_warnings x)
      (ok_message x) (ok_session_state_info x) p.

Lemma decode_response_told : forall p c r c1, bytes_ok p -> decode_response p c = (r, c1) -> c1 = c /\
  match r with
  | Ok (Ok x) => ok_report (Z.testbit (c_caps c) SESSION_TRACK_BIT) (ok_affected_rows x) (ok_last_insert_id x) (ok_status x)
      (ok_warnings x) (ok_message x) (ok_session_state_info x) p
  | Ok (Err e) => err_report (Z.testbit (c_caps c) PROTOCOL_41_BIT) (Z.testbit (c_caps c) PROGRESS_BIT) e p
  | Err e => forall x, e <> EServer x
  | _ => True
  end.
Proof.
  intros p c r c1 Hp H. unfold decode_response in H. destruct p as [|y p]; [injection H as <- <-; split; [reflexivity | discriminate]|].
  destruct (y =? 0).
  - rewrite iob in H. unfold iores in H. destruct (read_ok (y :: p) (c_caps c)) as [x|e|] eqn:E; injection H as <- <-; (split; [reflexivity|]); auto; [|discriminate].
    now apply ok_reported.
  - destruct (y =? 255); [|injection H as <- <-; split; [reflexivity | discriminate]].
    rewrite iob in H. unfold iores in H. destruct (read_err (y :: p) (c_caps c)) as [x|e|] eqn:E; injection H as <- <-; (split; [reflexivity|]); auto; [|discriminate].
    now apply err_reported.
Qed.

Lemma response_told : forall c r c', sane c -> read_response c = (r, c') ->
  match r with
  | Ok x => ok_told c c' x
  | Err e => (forall x, e <> EServer x) \/ error_told c c' e
  | Panic => True
  end.
Proof.
  intros c r c' Hc H. unfold read_response in H. rewrite iob in H. destruct (conn_read c) as [[p|e|] c1] eqn:E.
  2:{ injection H as <- <-. left. eapply mine_read; eauto. } 2:{ now injection H as <- <-. }
  destruct (conn_read_told _ _ _ Hc E) as (S1 & T1 & D1 & P1 & B1 & w & F & I).
  rewrite iob in H. destruct (decode_response p c1) as [r1 c2] eqn:E2. apply decode_response_told in E2; [|exact B1]. destruct E2 as (-> & M).
  assert (C : c_caps c1 = c_caps c) by (unfold c_caps; now rewrite D1). rewrite C in M.
  destruct r1 as [[x|e|]|e|]; injection H as <- <-; auto.
  - exists p, w. auto.
  - right. exists e, p, w. auto.
Qed.

Lemma defs_told : forall n c cols c', sane c -> read_column_defs n c = (Ok cols, c') ->
  length cols = n /\ c_pending c' = c_pending c /\ exists defs w, framed (c_seq c) defs w (c_seq c') /\
    Forall2 (column_layout_by u8_text) cols defs /\ s_in (c_stream c) = w ++ s_in (c_stream c').
Proof.
  induction n as [|n IH]; intros c cols c' Hc H; cbn [read_column_defs] in H.
  { injection H as <- <-. split; [reflexivity|]. split; [reflexivity|]. exists [], []. splits; auto; constructor. }
  rewrite iob in H. destruct (conn_read c) as [[p|e|] c1] eqn:E; try discriminate.
  destruct (conn_read_told _ _ _ Hc E) as (S1 & T1 & D1 & P1 & B1 & w & F & I).
  rewrite iob in H. unfold iores in H. destruct (read_column p) as [x|e|] eqn:Ex; try discriminate. cbn [of_protocol rmap_err] in H.
  rewrite iob in H. destruct (read_column_defs n c1) as [[l|e|] c2] eqn:E2; try discriminate. injection H as <- <-.
  destruct (IH _ _ _ S1 E2) as (L & P2 & defs & w2 & F2 & C2 & I2).
  split; [cbn [length]; now rewrite L|]. split; [congruence|]. exists (p :: defs), (w ++ w2).
  split; [econstructor; eauto|]. split; [constructor; [now apply read_column_iff | exact C2]|]. now rewrite I, I2, app_assoc.
Qed.

Lemma skip_told : forall n c u c', sane c -> skip_packets n c = (Ok u, c') ->
  c_pending c' = c_pending c /\ exists defs w, framed (c_seq c) defs w (c_seq c') /\ length defs = n /\ s_in (c_stream c) = w ++ s_in (c_stream c').
Proof.
  induction n as [|n IH]; intros c u c' Hc H; cbn [skip_packets] in H.
  { injection H as <- <-. split; [reflexivity|]. exists [], []. splits; auto; constructor. }
  rewrite iob in H. destruct (conn_read c) as [[p|e|] c1] eqn:E; try discriminate.
  destruct (conn_read_told _ _ _ Hc E) as (S1 & T1 & D1 & P1 & B1 & w & F & I).
  destruct (IH _ _ _ S1 H) as (P2 & defs & w2 & F2 & L & I2). split; [congruence|]. exists (p :: defs), (w ++ w2).
  split; [econstructor; eauto|]. split; [cbn [length]; now rewrite L|]. now rewrite I, I2, app_assoc.
Qed.

(** The beginning of a result set. *)
Definition set_told (c c' : conn) (cols : list column) : Prop :=
  exists p w q1 n l rest defs wd,
    frames (c_seq c) p w q1 /\ loose_int n l /\ p = l ++ rest /\ (forall r, p <> 0 :: r /\ p <> 251 :: r /\ p <> 255 :: r) /\
    n = Z.of_nat (length cols) /\ framed q1 defs wd (c_seq c') /\ Forall2 (column_layout_by u8_text) cols defs /\
    s_in (c_stream c) = w ++ wd ++ s_in (c_stream c') /\ c_pending c' = true.

Lemma set_read_told : forall c r c', sane c -> c_pending c = false -> rs_read c = (r, c') ->
  match r with
  | Ok rs => match rs_ok rs with Some x => ok_told c c' x | None => set_told c c' (rs_columns rs) end
  | Err e => (forall x, e <> EServer x) \/ error_told c c' e
  | Panic => True
  end.
Proof.
  intros c r c' Hc Hp H. unfold rs_read in H. rewrite iob in H. destruct (conn_read c) as [[p|e|] c1] eqn:E.
  2:{ injection H as <- <-. left. eapply mine_read; eauto. } 2:{ now injection H as <- <-. }
  destruct (conn_read_told _ _ _ Hc E) as (S1 & T1 & D1 & P1 & B1 & w & F & I).
  assert (C : c_caps c1 = c_caps c) by (unfold c_caps; now rewrite D1).
  destruct (first_is 0 p) eqn:F0.
  { rewrite iob in H. destruct (decode_response p c1) as [r1 c2] eqn:E2. apply decode_response_told in E2; [|exact B1]. destruct E2 as (-> & M).
    rewrite C in M. destruct r1 as [[x|e|]|e|]; injection H as <- <-; auto.
    - exists p, w. auto.
    - right. exists e, p, w. auto. }
  destruct (first_is 251 p) eqn:F1; [now injection H as <- <-|].
  destruct (first_is 255 p) eqn:F2.
  { injection H as <- <-. unfold server_error. destruct (read_err p (c_caps c1)) as [e|e|] eqn:Er; cbn [of_protocol rmap_err rbind]; auto.
    - right. exists e, p, w. apply err_reported in Er; [|exact B1]. rewrite C in Er. auto.
    - left. discriminate. }
  rewrite iob in H. unfold set_pending in H. rewrite iob in H. unfold iores in H.
  destruct (checked_eat_lenenc_int p) as [[n|e|] b'] eqn:En; cbn [fst of_protocol rmap_err] in H.
  2:{ injection H as <- <-. left. discriminate. } 2:{ now injection H as <- <-. }
  destruct (capacity_overflow n); [now injection H as <- <-|].
  rewrite iob in H. set (c2 := mkConn (c_stream c1) (c_seq c1) (c_data c1) true) in *.
  assert (S2 : sane c2) by (now apply (good_pending true c1 (Ok tt))).
  destruct (read_column_defs _ c2) as [[cols|e|] c3] eqn:E3.
  - injection H as <- <-. cbn [rs_ok rs_columns].
    destruct (defs_told _ _ _ _ S2 E3) as (L & P3 & defs & wd & F3 & C3 & I3).
    apply checked_int_iff in En; [|exact B1]. destruct En as (l & Hl & ->).
    exists (l ++ b'), w, (c_seq c1), n, l, b', defs, wd. splits; auto.
    + clear - F0 F1 F2. intros r. splits; intros X; rewrite X in *; discriminate.
    + assert (N : 0 <= n) by (destruct Hl as [n0 w0 Hw| |]; [|lia|lia]; destruct Hw; lia).
      assert (K : (length defs <= length (s_in (c_stream c1)))%nat).
      { cbn [c_stream c2] in I3. rewrite I3, app_length. clear - F3. cbn [c_seq c2] in F3.
        assert (length defs <= length wd)%nat; [|lia]. revert F3. generalize (c_seq c1) (c_seq c3). intros q q' F3.
        induction F3; cbn [length]; [lia|]. rewrite app_length. apply frames_wire_length in H. lia. }
      rewrite <- (Forall2_len _ _ _ _ _ C3) in K. cbn [c_stream c2] in L. clear - N K L. unfold lenZ in L. lia.
    + cbn [c_stream c2] in I3. now rewrite I, I3.
  - injection H as <- <-. left. eapply mine_defs; eauto.
  - now injection H as <- <-.
Qed.

(** ** Uses *)

Section Uses.
  Context {A : Type} (decode : list column -> bytes -> res error A).

  Lemma nexts_told : forall k c cols l c' rs', sane c -> c_pending c = true ->
    nexts decode k (c, mkSet cols None) = (l, (c', rs')) ->
    sane c' /\ c_data c' = c_data c /\ length l = k /\
    exists i, rows_told decode (c_caps c) cols (c_seq c) l i (c_seq c') (c_pending c') /\ s_in (c_stream c) = i ++ s_in (c_stream c').
  Proof.
    induction k as [|k IH]; intros c cols l c' rs' Hc Hp H; cbn [nexts] in H.
    { injection H as <- <- <-. splits; auto. exists []. rewrite Hp. split; [constructor | reflexivity]. }
    destruct (rs_next decode (c, mkSet cols None)) as [r [c1 rs1]] eqn:E.
    unfold rs_next in E. cbn [rs_ok] in E. destruct (conn_read c) as [r0 c2] eqn:E2.
    destruct (conn_read_told _ _ _ Hc E2) as (S1 & (pre & T1) & D1 & P1 & M).
    assert (C : c_caps c2 = c_caps c) by (unfold c_caps; now rewrite D1).
    destruct (nexts decode k (c1, rs1)) as [l' [c3 rs3]] eqn:E3. injection H as <- <- <-.
    destruct r0 as [p|e|]; [| |contradiction].
    2:{ injection E as <- <- <-. destruct (IH c2 cols l' c3 rs3 S1) as (S3 & D3 & L & i & R & I); [congruence | exact E3|].
        splits; [exact S3 | congruence | cbn [length]; congruence|]. exists (pre ++ i). rewrite C in R.
        split; [eapply rt_lost; eauto | now rewrite T1, I, app_assoc]. }
    destruct M as (B & w & F & I0). pose proof (is_last_told (c_caps c2) p) as La.
    assert (K : forall r2, c1 = c2 -> rs1 = mkSet cols None -> r = r2 ->
      (forall i, rows_told decode (c_caps c) cols (c_seq c2) l' i (c_seq c3) (c_pending c3) ->
         rows_told decode (c_caps c) cols (c_seq c) (r2 :: l') (w ++ i) (c_seq c3) (c_pending c3)) ->
      sane c3 /\ c_data c3 = c_data c /\ length (r :: l') = S k /\
      exists i, rows_told decode (c_caps c) cols (c_seq c) (r :: l') i (c_seq c3) (c_pending c3) /\
        s_in (c_stream c) = i ++ s_in (c_stream c3)).
    { intros r2 -> -> -> K. destruct (IH c2 cols l' c3 rs3 S1) as (S3 & D3 & L & i & R & I); [congruence | exact E3|].
      splits; [exact S3 | congruence | cbn [length]; congruence|]. exists (w ++ i). rewrite C in R.
      split; [now apply K | now rewrite I0, I, app_assoc]. }
    destruct (is_last (c_caps c2) p) as [[|]|e|]; [| |contradiction|].
    - rewrite C in La. pose proof (read_eof_np p (c_caps c2)) as N. destruct (read_eof p (c_caps c2)) as [x|e|] eqn:Er; [| |contradiction].
      + injection E as <- <- <-. rewrite nexts_done in E3. injection E3 as <- <- <-.
        splits; [now apply (good_pending false c2 (Ok tt)) | exact D1 | cbn [length]; now rewrite repeat_length|].
        exists w. split; [|exact I0]. apply (rt_end decode (c_caps c) cols (c_seq c) p w (c_seq c2) k F La).
        eapply eof_good; eauto.
      + destruct (eof_bad _ _ _ B Er) as (-> & Nr). injection E as <- <- <-. apply (K (Err (EProtocol peof))); auto. intros i R. eapply rt_bad_end; eauto.
    - rewrite C in La. destruct La as (La1 & La2). destruct (decode (rs_columns (mkSet cols None)) p) as [a|e|] eqn:Ed;
        cbn [rs_columns] in Ed; cbn [rbind] in E; injection E as <- <- <-.
      + apply (K (Ok (Some a))); auto. intros i R. eapply rt_row; eauto.
      + apply (K (Err e)); auto. intros i R. eapply rt_bad_row; eauto.
      + apply (K Panic); auto. intros i R. eapply rt_panic; eauto.
    - injection E as <- <- <-. apply (K Panic); auto. intros i R. eapply rt_panic; eauto.
  Qed.

  (** What a use is to satisfy. *)
  Definition use_told (u : use) (c : conn) (y : seen A) (c' : conn) : Prop :=
    sane c' /\ c_data c' = c_data c /\ exists i, s_in (c_stream c) = i ++ s_in (c_stream c') /\
    ((exists wl wr q1 wi, i = wl ++ wi /\ left_over (c_caps c) (c_pending c) (c_seq c) wl /\ requests (use_packets u) wr q1 /\
        told decode (c_caps c) u q1 y wi (c_seq c') (c_pending c')) \/
     (exists e, y = SFailed e /\ forall x, e <> EServer x) \/ y = SPanic).

  Lemma use_failed : forall u c y c', sane c' -> c_data c' = c_data c -> taken c c' ->
    (exists e, y = SFailed e /\ forall x, e <> EServer x) \/ y = SPanic -> use_told u c y c'.
  Proof. intros u c y c' S D (pre & T) H. split; [exact S|]. split; [exact D|]. exists pre. split; [exact T|]. now right. Qed.

  (** The request has been sent, and the answer is told. *)
  Lemma use_sent : forall u c x c1 y c' wi, sane c -> use_packets u <> [] -> write_commands (use_packets u) c = (Ok x, c1) ->
    sane c' -> c_data c' = c_data c1 -> s_in (c_stream c1) = wi ++ s_in (c_stream c') ->
    told decode (c_caps c1) u (c_seq c1) y wi (c_seq c') (c_pending c') -> use_told u c y c'.
  Proof.
    intros u c x c1 y c' wi Hc Hn H S' D' I' T. destruct (good_commands _ _ _ _ Hc H) as (S1 & _ & D1).
    destruct (commands_told _ _ _ _ Hc Hn H) as (P1 & (wr & R) & wl & L & I).
    assert (C : c_caps c1 = c_caps c) by (unfold c_caps; now rewrite D1). rewrite C in T.
    split; [exact S'|]. split; [congruence|]. exists (wl ++ wi). split; [now rewrite I, I', app_assoc|].
    left. exists wl, wr, (c_seq c1), wi. auto.
  Qed.

  Lemma rows_use_told : forall u k c, sane c -> use_packets u <> [] ->
    (exists t, u = UQuery t k) \/ (exists i n vs, u = UStmtQuery i n vs k) ->
    forall y c', use_rows decode k ((write_commands (use_packets u) ;;; rs_read) c) = (y, c') -> use_told u c y c'.
  Proof.
    intros u k c Hc Hn Hu y c' H. rewrite iob in H. destruct (write_commands (use_packets u) c) as [[x|e|] c1] eqn:E.
    2:{ injection H as <- <-. destruct (good_commands _ _ _ _ Hc E) as (S1 & T1 & D1). apply use_failed; auto. left. exists e.
        split; [reflexivity|]. exact (mine_commands _ _ _ _ Hc E). }
    2:{ injection H as <- <-. destruct (good_commands _ _ _ _ Hc E) as (S1 & T1 & D1). apply use_failed; auto. }
    destruct (good_commands _ _ _ _ Hc E) as (S1 & T1 & D1).
    destruct (commands_told _ _ _ _ Hc Hn E) as (P1 & _).
    destruct (rs_read c1) as [r c2] eqn:E2. destruct (good_rs_read _ _ _ S1 E2) as (S2 & T2 & D2).
    pose proof (set_read_told _ _ _ S1 P1 E2) as M.
    destruct r as [[cols [x0|]]|e|]; cbn [rs_ok rs_columns] in M; cbn [use_rows] in H.
    - rewrite nexts_done in H. injection H as <- <-. destruct M as (p & w & F & I & P2 & O).
      eapply (use_sent u c x c1 _ c2 w); eauto. cbn [rs_ok]. rewrite P2, P1. unfold view. eapply td_no_rows; eauto.
    - destruct (nexts decode k (c2, mkSet cols None)) as [l [c3 rs3]] eqn:E3. cbn [rs_ok rs_columns] in H. injection H as <- <-.
      destruct M as (p & w & q1 & n & l0 & rest & defs & wd & F & Hl & Hp & Hf & Hn' & Fd & Cd & I & P2).
      destruct (nexts_told _ _ _ _ _ _ S2 P2 E3) as (S3 & D3 & L3 & i & R & I3).
      eapply (use_sent u c x c1 _ c3 (w ++ wd ++ i)); eauto; [congruence|now rewrite I, I3, <- !app_assoc|].
      assert (C : c_caps c2 = c_caps c1) by (unfold c_caps; now rewrite D2). rewrite C in R.
      eapply td_rows; eauto.
    - injection H as <- <-. destruct M as [M|(x0 & p & w & -> & F & I & P2 & O)].
      + apply use_failed; auto; [congruence | eapply taken_trans; eauto|]. left. eauto.
      + eapply (use_sent u c x c1 _ c2 w); eauto. rewrite P2, P1. eapply td_error; eauto.
    - injection H as <- <-. apply use_failed; auto; [congruence | eapply taken_trans; eauto].
  Qed.

  Lemma done_use_told : forall u c, sane c -> use_packets u <> [] ->
    (exists t, u = UExecute t) \/ (exists i n vs, u = UStmtExecute i n vs) ->
    forall y c', use_done (view SDone) ((write_commands (use_packets u) ;;; read_response) c) = (y, c') -> use_told u c y c'.
  Proof.
    intros u c Hc Hn Hu y c' H. rewrite iob in H. destruct (write_commands (use_packets u) c) as [[x|e|] c1] eqn:E.
    2:{ injection H as <- <-. destruct (good_commands _ _ _ _ Hc E) as (S1 & T1 & D1). apply use_failed; auto. left. exists e.
        split; [reflexivity|]. exact (mine_commands _ _ _ _ Hc E). }
    2:{ injection H as <- <-. destruct (good_commands _ _ _ _ Hc E) as (S1 & T1 & D1). apply use_failed; auto. }
    destruct (good_commands _ _ _ _ Hc E) as (S1 & T1 & D1).
    destruct (commands_told _ _ _ _ Hc Hn E) as (P1 & _).
    destruct (read_response c1) as [r c2] eqn:E2. destruct (good_response _ _ _ S1 E2) as (S2 & T2 & D2).
    pose proof (response_told _ _ _ S1 E2) as M. destruct r as [x0|e|]; cbn [use_done] in H; injection H as <- <-.
    - destruct M as (p & w & F & I & P2 & O). eapply (use_sent u c x c1 _ c2 w); eauto. rewrite P2, P1. unfold view. eapply td_done; eauto.
    - destruct M as [M|(x0 & p & w & -> & F & I & P2 & O)].
      + apply use_failed; auto; [congruence | eapply taken_trans; eauto|]. left. eauto.
      + eapply (use_sent u c x c1 _ c2 w); eauto. rewrite P2, P1. eapply td_error; eauto.
    - apply use_failed; auto; [congruence | eapply taken_trans; eauto].
  Qed.

  Lemma prepare_use_told : forall t c y c', sane c ->
    use_done (fun st => SPrepared (ps_id st) (ps_params st)) (prepare_statement t c) = (y, c') -> use_told (UPrepare t) c y c'.
  Proof.
    intros t c y c' Hc H. set (u := UPrepare t).
    assert (Hn : use_packets u <> []) by discriminate.
    unfold prepare_statement in H. rewrite iob, execute_is_write in H.
    destruct (write_commands (use_packets u) c) as [r0 c1] eqn:E.
    assert (E' : write_command (COM_STMT_PREPARE :: t) c = (r0, c1)).
    { revert E. cbn [use_packets u write_commands]. change (22 :: t) with (COM_STMT_PREPARE :: t). rewrite iob.
      destruct (write_command (COM_STMT_PREPARE :: t) c) as [[[]|e|] cx]; intros E; exact E. }
    rewrite E' in H. clear E'.
    destruct (good_commands _ _ _ _ Hc E) as (S1 & T1 & D1).
    destruct r0 as [x|e|].
    2:{ injection H as <- <-. apply use_failed; auto. left. exists e. split; [reflexivity|]. exact (mine_commands _ _ _ _ Hc E). }
    2:{ injection H as <- <-. apply use_failed; auto. }
    destruct (commands_told _ _ _ _ Hc Hn E) as (P1 & _).
    rewrite iob in H. destruct (conn_read c1) as [r1 c2] eqn:E2. destruct (conn_read_told _ _ _ S1 E2) as (S2 & T2 & D2 & P2 & M2).
    assert (T2' : taken c c2) by (eapply taken_trans; eauto). assert (D2' : c_data c2 = c_data c) by congruence.
    assert (C : c_caps c2 = c_caps c1) by (unfold c_caps; now rewrite D2).
    destruct r1 as [p|e|]; [| |contradiction].
    2:{ injection H as <- <-. apply use_failed; auto. left. exists e. split; [reflexivity|].
        destruct M2 as [-> | (k & ->)]; discriminate. }
    destruct M2 as (B & w & F & I). rewrite iob in H.
    destruct (first_is 0 p) eqn:F0.
    - unfold iores in H. destruct (read_stmt p) as [st|e|] eqn:Es; cbn [of_protocol rmap_err] in H.
      2:{ injection H as <- <-. apply use_failed; auto. left. eexists. split; [reflexivity | discriminate]. }
      2:{ injection H as <- <-. apply use_failed; auto. }
      rewrite iob in H. destruct (skip_packets _ c2) as [r3 c3] eqn:E3. destruct (good_skip _ _ _ _ S2 E3) as (S3 & T3 & D3).
      assert (T3' : taken c c3) by (eapply taken_trans; eauto). assert (D3' : c_data c3 = c_data c) by congruence.
      apply read_stmt_exact in Es; [|exact B]. pose proof Es as (_ & Hcl & Hpl & _).
      destruct r3 as [v|e|]; cbn [use_done ioret ps_id ps_params] in H; injection H as <- <-.
      + destruct (skip_told _ _ _ _ S2 E3) as (P3 & defs & wd & Fd & L & I3).
        eapply (use_sent u c x c1 _ c3 (w ++ wd)); eauto; [congruence | now rewrite I, I3, app_assoc|].
        replace (c_pending c3) with false by congruence. eapply td_prepared; eauto.
        * destruct p as [|z p]; [discriminate|]. cbn in F0. apply Z.eqb_eq in F0. subst z. eauto.
        * rewrite L, Z2Nat.id; lia.
      + apply use_failed; auto. left. exists e. split; [reflexivity|]. exact (mine_skip _ _ _ _ S2 E3).
      + apply use_failed; auto.
    - destruct (first_is 255 p) eqn:F1; unfold iores in H.
      + unfold server_error in H. destruct (read_err p (c_caps c2)) as [e|e|] eqn:Er; cbn [of_protocol rmap_err rbind use_done] in H; injection H as <- <-.
        * eapply (use_sent u c x c1 _ c2 w); eauto. rewrite P2, P1. eapply td_error; eauto. rewrite <- C. now apply err_reported.
        * apply use_failed; auto. left. eexists. split; [reflexivity | discriminate].
        * apply use_failed; auto.
      + injection H as <- <-. apply use_failed; auto. left. eexists. split; [reflexivity | discriminate].
  Qed.

  Lemma run_use_told : forall u c y c', sane c -> run_use decode u c = (y, c') -> use_told u c y c'.
  Proof.
    intros u c y c' Hc H.
    assert (W : forall p B (m : IO conn B) c, (write_commands [p] ;;; m) c = (write_command p ;;; m) c).
    { intros p B m c0. cbn [write_commands]. rewrite !iob. destruct (write_command p c0) as [[[]|e|] cx]; reflexivity. }
    destruct u as [q k|q|q|id params values k|id params values]; cbn [run_use] in H.
    - apply (rows_use_told (UQuery q k) k); eauto; [discriminate|]. cbn [use_packets]. rewrite W. exact H.
    - apply (done_use_told (UExecute q)); eauto; [discriminate|]. cbn [use_packets]. rewrite W. exact H.
    - now apply prepare_use_told.
    - unfold stmt_query in H. cbn [ps_params ps_id] in H. destruct (negb _).
      { injection H as <- <-. apply use_failed; auto using taken_refl. left. eexists. split; [reflexivity | discriminate]. }
      destruct (execute_packets id values) as [ps|] eqn:Ep.
      + apply (rows_use_told (UStmtQuery id params values k) k); eauto.
        { cbn [use_packets]. rewrite Ep. unfold execute_packets in Ep. destruct (execute_new id values); [|discriminate]. injection Ep as <-. intros X. now apply app_eq_nil in X. }
        cbn [use_packets]. rewrite Ep. rewrite iob in H |- *. rewrite <- (send_execute_packets id values ps Ep). exact H.
      + unfold execute_packets in Ep. unfold send_execute in H. destruct (execute_new id values); [discriminate|].
        rewrite iob in H. injection H as <- <-. apply use_failed; auto using taken_refl.
    - unfold stmt_execute in H. cbn [ps_params ps_id] in H. destruct (negb _).
      { injection H as <- <-. apply use_failed; auto using taken_refl. left. eexists. split; [reflexivity | discriminate]. }
      destruct (execute_packets id values) as [ps|] eqn:Ep.
      + apply (done_use_told (UStmtExecute id params values)); eauto.
        { cbn [use_packets]. rewrite Ep. unfold execute_packets in Ep. destruct (execute_new id values); [|discriminate]. injection Ep as <-. intros X. now apply app_eq_nil in X. }
        cbn [use_packets]. rewrite Ep. rewrite iob in H |- *. rewrite <- (send_execute_packets id values ps Ep). exact H.
      + unfold execute_packets in Ep. unfold send_execute in H. destruct (execute_new id values); [discriminate|].
        rewrite iob in H. injection H as <- <-. apply use_failed; auto using taken_refl.
  Qed.

  Lemma run_uses_told : forall us c ys c', sane c -> run_uses decode us c = (ys, c') ->
    exists i, s_in (c_stream c) = i ++ s_in (c_stream c') /\
      all_told decode (c_caps c) use_packets (c_pending c) (c_seq c) (combine us ys) i (c_pending c') (c_seq c').
  Proof.
    induction us as [|u us IH]; intros c ys c' Hc H; cbn [run_uses] in H.
    { injection H as <- <-. exists []. split; [reflexivity | constructor]. }
    destruct (run_use decode u c) as [y c1] eqn:E. destruct (run_uses decode us c1) as [ys' c2] eqn:E2. injection H as <- <-.
    destruct (run_use_told u c y c1 Hc E) as (S1 & D1 & i1 & I1 & K).
    destruct (IH c1 ys' c2 S1 E2) as (i2 & I2 & K2). exists (i1 ++ i2). split; [now rewrite I1, I2, app_assoc|].
    assert (C : c_caps c1 = c_caps c) by (unfold c_caps; now rewrite D1). rewrite C in K2. cbn [combine].
    destruct K as [(wl & wr & q1 & wi & -> & L & R & T)|K]; [|eapply at_failed; eauto].
    unfold left_over in L. destruct (c_pending c).
    - destruct L as (rows & last & ql & F & Fr & La & Rd). rewrite <- app_assoc. eapply at_open; eauto.
    - subst wl. cbn [app]. eapply at_use; eauto.
  Qed.
End Uses.

Lemma run_uses_length : forall A (decode : list column -> bytes -> res error A) us c ys c',
  run_uses decode us c = (ys, c') -> length ys = length us.
Proof.
  induction us as [|u us IH]; intros c ys c' H; cbn [run_uses] in H; [now injection H as <- _|].
  destruct (run_use decode u c) as [y c1]. destruct (run_uses decode us c1) as [ys' c2] eqn:E. injection H as <- <-.
  cbn [length]. f_equal. eauto.
Qed.
