(** Lemmas about the command layer. *)
From Coq Require Import String ZArith List Bool Lia.
From Verif Require Import Base BaseFacts Types Utf8 ParseBuf BufMut Spec_Wire ParseBuf_proofs Framing Framing_proofs
  Packets Spec_Packets Packets_proofs Crypt Handshake ValueBin ValueBin_proofs Spec_Stmt StmtPackets StmtPackets_proofs ValueText Rows Conversion Auth Auth_proofs Conn Spec_Conn.
Import ListNotations.
Open Scope Z_scope.
Open Scope io_scope.
Local Opaque MAX_PAYLOAD_LEN.

Lemma deprecate_flag : forall x, has_flag x CAP_DEPRECATE_EOF = Z.testbit x DEPRECATE_EOF_BIT.
Proof. intros x. apply (has_flag_bit x 24). lia. Qed.

(** The connection after reading up to [rest]. *)
Definition moved (c : conn) (rest : bytes) (seq : Z) : conn :=
  mkConn (with_in (c_stream c) rest) seq (c_data c) (c_pending c).

Lemma conn_read_frames : forall c p w q rest, frames (c_seq c) p w q -> byte_ok (c_seq c) ->
  s_in (c_stream c) = w ++ rest -> conn_read c = (Ok p, moved c rest q).
Proof.
  intros c p w q rest Hf Hs Hi. unfold conn_read. rewrite (read_packet_frames _ _ _ _ _ rest Hf Hs Hi). reflexivity.
Qed.

Lemma framed_seq_ok : forall q ps w q', framed q ps w q' -> byte_ok q -> byte_ok q'.
Proof. induction 1; intros; auto. apply IHframed. eapply frames_seq_ok; eauto. Qed.

Lemma framed_app : forall ps qs q w q', framed q (ps ++ qs) w q' ->
  exists w1 q1 w2, framed q ps w1 q1 /\ framed q1 qs w2 q' /\ w = w1 ++ w2.
Proof.
  induction ps as [|p ps IH]; intros qs q w q' H.
  - exists [], q, w. split; [constructor|]. auto.
  - cbn in H. inversion H as [|? ? w0 q0 ? w' ? Hf Hr]; subst.
    destruct (IH _ _ _ _ Hr) as (w1 & q1 & w2 & A & B & ->).
    exists (w0 ++ w1), q1, w2. split; [econstructor; eauto|]. split; [assumption | now rewrite app_assoc].
Qed.

Lemma framed_app_intro : forall ps qs q w1 q1 w2 q', framed q ps w1 q1 -> framed q1 qs w2 q' ->
  framed q (ps ++ qs) (w1 ++ w2) q'.
Proof.
  induction ps as [|p ps IH]; intros qs q w1 q1 w2 q' A B.
  - inversion A; subst. exact B.
  - inversion A as [|? ? w0 q0 ? w' ? Hf Hr]; subst. cbn. rewrite <- app_assoc. econstructor; eauto.
Qed.

(** ** Kinds of packets *)

Lemma is_last_row : forall caps p, Z.testbit caps DEPRECATE_EOF_BIT = true -> row_packet p -> is_last caps p = Ok false.
Proof.
  intros caps p Hc (x & r & -> & Hx & Hl). unfold is_last. rewrite deprecate_flag, Hc. f_equal.
  destruct (x =? 254) eqn:E; [|reflexivity]. cbn. apply Z.ltb_ge. rewrite MAX_val. unfold lenZ. specialize (Hl ltac:(lia)). lia.
Qed.

Lemma end_is_last : forall caps status warnings p, Z.testbit caps DEPRECATE_EOF_BIT = true ->
  end_of_rows status warnings p -> is_last caps p = Ok true /\ exists x, read_eof p caps = Ok x.
Proof.
  intros caps status warnings p Hc (Hs & Hw & ->). split.
  - unfold is_last. cbn [app]. rewrite deprecate_flag, Hc, MAX_val. reflexivity.
  - destruct (terminator_exact caps status warnings Hs Hw) as (_ & E & _). eexists. exact E.
Qed.

(** ** Fuel *)

Lemma conn_read_consumes : forall c p c', conn_read c = (Ok p, c') ->
  (length (s_in (c_stream c')) < length (s_in (c_stream c)))%nat.
Proof.
  intros c p c' H. unfold conn_read in H. destruct (read_packet (c_seq c) (c_stream c)) as [[r seq] s] eqn:E.
  injection H as -> <-. cbn. unfold read_packet in E. revert E.
  generalize (S (length (s_in (c_stream c)))). generalize (c_stream c) (c_seq c) (@nil Z).
  intros s0 q0 dst0 n. revert s0 q0 dst0. induction n as [|n IH]; intros s0 q0 dst0 E; cbn [read_packet_to_buf] in E; [discriminate|].
  destruct (read_chunk_to_buf dst0 s0) as [[[[dst' rq] last]|e|] s1] eqn:Ec; try discriminate.
  apply read_chunk_consumes in Ec. destruct (negb (q0 =? rq)); [discriminate|].
  destruct last.
  - injection E as _ _ <-. lia.
  - apply IH in E. lia.
Qed.

Lemma cleanup_fuel : forall n m c, (length (s_in (c_stream c)) < n)%nat -> (n <= m)%nat ->
  cleanup_loop m c = cleanup_loop n c.
Proof.
  induction n as [|n IH]; intros m c Hl Hm; [lia|]. destruct m as [|m]; [lia|].
  cbn [cleanup_loop]. rewrite !iob. destruct (conn_read c) as [[p|e|] c'] eqn:E; try reflexivity.
  apply conn_read_consumes in E. rewrite !iob. unfold iores.
  destruct (is_last (c_caps c') p) as [[|]|e|]; try reflexivity. apply IH; lia.
Qed.

(** ** Between commands *)

(** The connection has nothing outstanding before [rest], or the tail of a result set. *)
Definition between (c : conn) (rest : bytes) : Prop :=
  byte_ok (c_seq c) /\ s_budget (c_stream c) = None /\
  ((c_pending c = false /\ s_in (c_stream c) = rest) \/
   (c_pending c = true /\ exists rows status warnings last w q,
      Forall row_packet rows /\ end_of_rows status warnings last /\
      framed (c_seq c) (rows ++ [last]) w q /\ s_in (c_stream c) = w ++ rest)).

Lemma cleanup_rows : forall rows status warnings last c w q rest fuel,
  Z.testbit (c_caps c) DEPRECATE_EOF_BIT = true ->
  Forall row_packet rows -> end_of_rows status warnings last -> byte_ok (c_seq c) ->
  framed (c_seq c) (rows ++ [last]) w q -> s_in (c_stream c) = w ++ rest -> (length w < fuel)%nat ->
  exists x, cleanup_loop fuel c =
    (Ok (Some x), mkConn (with_in (c_stream c) rest) q (c_data c) false).
Proof.
  induction rows as [|p rows IH]; intros status warnings last c w q rest fuel Hc Hr He Hs Hf Hi Hl;
    (destruct fuel as [|fuel]; [lia|]); cbn [app] in Hf; inversion Hf as [|? ? w0 q0 ? w' ? Hf0 Hf1]; subst;
    cbn [cleanup_loop]; rewrite <- app_assoc in Hi; rewrite iob, (conn_read_frames c _ w0 q0 (w' ++ rest) Hf0 Hs Hi);
    rewrite iob; unfold iores; change (c_caps (moved c (w' ++ rest) q0)) with (c_caps c).
  - destruct (end_is_last _ _ _ _ Hc He) as (-> & x & Ex). inversion Hf1; subst.
    unfold iobind, set_pending. rewrite Ex. eexists. reflexivity.
  - inversion_clear Hr as [|? ? Hp Hr']. rewrite is_last_row by assumption.
    pose proof (frames_wire_length _ _ _ _ Hf0). rewrite app_length in Hl.
    destruct (IH status warnings last (moved c (w' ++ rest) q0) w' q rest fuel) as (x & E); auto; [|lia|].
    + eapply frames_seq_ok; eauto.
    + exists x. exact E.
Qed.

Lemma cleanup_between : forall c rest, Z.testbit (c_caps c) DEPRECATE_EOF_BIT = true -> between c rest ->
  exists x q, cleanup c = (Ok x, mkConn (with_in (c_stream c) rest) q (c_data c) false) /\ byte_ok q.
Proof.
  intros c rest Hc (Hs & Hb & [(Hp & Hi) | (Hp & rows & status & warnings & last & w & q & Hr & He & Hf & Hi)]);
    unfold cleanup; rewrite Hp.
  - exists None, (c_seq c). split; [|assumption]. f_equal. destruct c as [[i e o b] q d p]; cbn in *. subst. reflexivity.
  - destruct (cleanup_rows rows status warnings last c w q rest (S (length (s_in (c_stream c))))) as (x & E); auto.
    { rewrite Hi, app_length. lia. }
    exists (Some x), q. split; [exact E | eapply framed_seq_ok; eauto].
Qed.

(** After a request. *)
Definition asked (c c' : conn) (rest w : bytes) (q : Z) : Prop :=
  c' = mkConn (mkStream rest (s_end (c_stream c)) (s_out (c_stream c) ++ w) None) q (c_data c) false.

Lemma write_command_between : forall p c rest, Z.testbit (c_caps c) DEPRECATE_EOF_BIT = true -> between c rest ->
  exists w q, frames 0 p w q /\ exists c', write_command p c = (Ok tt, c') /\ asked c c' rest w q.
Proof.
  intros p c rest Hc Hb. destruct (cleanup_between c rest Hc Hb) as (x & q0 & E & Hq). destruct Hb as (_ & Hb & _).
  unfold write_command. destruct (write_follows_rules 0 p (with_in (c_stream c) rest)) as (w & q & Hf & Ew).
  { unfold byte_ok. lia. } { exact Hb. }
  exists w, q. split; [exact Hf|]. eexists. split; [|reflexivity].
  rewrite iob, E, iob. unfold reset_seq. unfold conn_write. cbn [c_seq c_stream]. rewrite Ew. reflexivity.
Qed.

Lemma execute_is_write : forall cmd data c, execute_command cmd data c = write_command (cmd :: data) c.
Proof. reflexivity. Qed.

Lemma asked_between : forall c c' rest w q, asked c c' rest w q -> byte_ok q -> between c' rest.
Proof. intros c c' rest w q -> Hq. split; [exact Hq|]. split; [reflexivity|]. left. split; reflexivity. Qed.

Lemma write_commands_between : forall ps c rest, Z.testbit (c_caps c) DEPRECATE_EOF_BIT = true -> between c rest -> ps <> [] ->
  exists w q, requests ps w q /\ byte_ok q /\ exists c', write_commands ps c = (Ok tt, c') /\ asked c c' rest w q.
Proof.
  induction ps as [|p ps IH]; intros c rest Hc Hb Hn; [contradiction|]. cbn [write_commands].
  destruct (write_command_between p c rest Hc Hb) as (w & q & Hf & c1 & E & Ha).
  assert (Hq : byte_ok q) by (eapply frames_seq_ok; [exact Hf | unfold byte_ok; lia]).
  rewrite iob, E. destruct ps as [|p2 ps].
  - exists w, q. split; [now constructor|]. split; [assumption|]. exists c1. split; [reflexivity | exact Ha].
  - destruct (IH c1 rest) as (w' & q' & Hr & Hq' & c2 & E2 & Ha2).
    { rewrite Ha. exact Hc. } { eapply asked_between; eauto. } { discriminate. }
    exists (w ++ w'), q'. split; [econstructor; eauto|]. split; [assumption|]. exists c2. split; [exact E2|].
    unfold asked in *. subst c1. cbn in Ha2. rewrite Ha2, <- app_assoc. reflexivity.
Qed.

Lemma write_commands_app : forall ps qs c,
  write_commands (ps ++ qs) c = (write_commands ps ;;; write_commands qs) c.
Proof.
  induction ps as [|p ps IH]; intros qs c; [reflexivity|]. cbn [app write_commands]. rewrite !iob.
  destruct (write_command p c) as [[u|e|] c']; try reflexivity. apply IH.
Qed.

(** The packets of [send_execute]. *)
Definition execute_packets (id : Z) (values : list value) : option (list bytes) :=
  match execute_new id values with
  | None => None
  | Some r => Some ((if ex_as_long_data r then long_data_packets id 0 values else []) ++ [execute_serialize r])
  end.

Lemma send_execute_packets : forall id values ps, execute_packets id values = Some ps ->
  forall c, send_execute id values c = write_commands ps c.
Proof.
  intros id values ps H c. unfold execute_packets, send_execute in *. destruct (execute_new id values) as [r|]; [|discriminate].
  injection H as <-. rewrite write_commands_app. destruct (ex_as_long_data r).
  - unfold send_long_data, iobind. destruct (write_commands (long_data_packets id 0 values) c) as [[u|e|] c']; try reflexivity.
    cbn [write_commands]. unfold iobind, ioret. destruct (write_command (execute_serialize r) c') as [[[]|e|] c'']; reflexivity.
  - cbn [write_commands]. unfold iobind, ioret. destruct (write_command (execute_serialize r) c) as [[[]|e|] c'']; reflexivity.
Qed.

(** ** Responses *)

Definition view {A} (mk : Z -> Z -> Z -> Z -> option str -> option str -> A) (x : ok_packet) : A :=
  mk (ok_affected_rows x) (ok_last_insert_id x) (ok_status x) (ok_warnings x) (ok_message x) (ok_session_state_info x).

Lemma ok_first : forall track f rows id status warnings msg st pkt,
  ok_layout track f rows id status warnings msg st pkt -> exists r, pkt = 0 :: r.
Proof. intros track f rows id status warnings msg st pkt (w & _ & ->). eauto. Qed.

Lemma err_first : forall p41 progress e pkt, err_layout p41 progress e pkt -> exists r, pkt = 255 :: r.
Proof. intros p41 progress e pkt H. inversion H; subst; eexists; reflexivity. Qed.

Lemma ok_read : forall caps f rows id status warnings msg st pkt, f <> InfoEof -> known_status status ->
  ok_layout (Z.testbit caps SESSION_TRACK_BIT) f rows id status warnings msg st pkt ->
  read_ok pkt caps = Ok (mkOk rows id status warnings (nonempty msg) (nonempty st)).
Proof.
  intros caps f rows id status warnings msg st pkt Hf Hk Hl.
  destruct (ok_exact caps f rows id status warnings msg st pkt Hf Hl) as ([a b c d e g] & E & H1 & H2 & _ & H3 & H4 & H5 & H6).
  cbn in *. rewrite E, H1, H2, H3, H4, H5, H6 by assumption. reflexivity.
Qed.

(** An OK or ERR packet where one is expected. *)
Lemma read_response_ok : forall c f rows id status warnings msg st pkt w q rest,
  f <> InfoEof -> known_status status -> byte_ok (c_seq c) ->
  ok_layout (Z.testbit (c_caps c) SESSION_TRACK_BIT) f rows id status warnings msg st pkt ->
  frames (c_seq c) pkt w q -> s_in (c_stream c) = w ++ rest ->
  read_response c = (Ok (mkOk rows id status warnings (nonempty msg) (nonempty st)), moved c rest q).
Proof.
  intros c f rows id status warnings msg st pkt w q rest Hf Hk Hs Hl Hw Hi. unfold read_response.
  rewrite iob, (conn_read_frames c pkt w q rest Hw Hs Hi). destruct (ok_first _ _ _ _ _ _ _ _ _ Hl) as (r & ->).
  rewrite iob. unfold decode_response. change (0 =? 0) with true. cbn match.
  change (c_caps (moved c rest q)) with (c_caps c). rewrite iob. unfold iores at 1.
  rewrite (ok_read _ _ _ _ _ _ _ _ _ Hf Hk Hl). reflexivity.
Qed.

Lemma read_response_err : forall c code state msg pkt w q rest, byte_ok (c_seq c) ->
  err_layout (Z.testbit (c_caps c) PROTOCOL_41_BIT) (Z.testbit (c_caps c) PROGRESS_BIT) (ErrError code state msg) pkt ->
  frames (c_seq c) pkt w q -> s_in (c_stream c) = w ++ rest ->
  read_response c = (Err (EServer (ErrError code state msg)), moved c rest q).
Proof.
  intros c code state msg pkt w q rest Hs Hl Hw Hi. unfold read_response.
  rewrite iob, (conn_read_frames c pkt w q rest Hw Hs Hi). destruct (err_first _ _ _ _ Hl) as (r & Er). rewrite Er.
  rewrite iob. unfold decode_response. change (255 =? 0) with false. change (255 =? 255) with true. cbn match.
  change (c_caps (moved c rest q)) with (c_caps c). rewrite <- Er. rewrite iob. unfold iores at 1.
  rewrite (read_err_layout _ _ _ Hl). reflexivity.
Qed.

Lemma column_defs_read : forall cols defs c w q rest, Forall2 (column_layout_by short_name_text) cols defs ->
  framed (c_seq c) defs w q -> byte_ok (c_seq c) -> s_in (c_stream c) = w ++ rest ->
  read_column_defs (length cols) c = (Ok cols, moved c rest q).
Proof.
  intros cols defs c w q rest H. revert c w q rest.
  induction H as [|col def cols defs Hc Hr IH]; intros c w q rest Hf Hs Hi; inversion Hf as [|? ? w0 q0 ? w' ? Hf0 Hf1]; subst.
  - cbn. f_equal. destruct c as [[i e o b] q0 d p]; cbn in *. subst. reflexivity.
  - cbn [length read_column_defs]. rewrite <- app_assoc in Hi.
    rewrite iob, (conn_read_frames c _ w0 q0 (w' ++ rest) Hf0 Hs Hi), iob. unfold iores.
    rewrite (read_column_short _ _ Hc). unfold of_protocol. cbn [rmap_err].
    rewrite iob, (IH (moved c (w' ++ rest) q0) w' q rest); auto.
    eapply frames_seq_ok; eauto.
Qed.

Lemma Forall2_len : forall A B (P : A -> B -> Prop) l m, Forall2 P l m -> length l = length m.
Proof. induction 1; cbn; congruence. Qed.

Lemma wire_lenenc_lenenc : forall n, 0 <= n < 65536 -> lenenc n (wire_lenenc n).
Proof.
  intros n H. unfold wire_lenenc. destruct (Z.leb_spec n 250); [apply lenenc_1; lia|].
  destruct (Z.leb_spec n 65535) as [|]; [|lia]. apply lenenc_3. lia.
Qed.
Lemma wire_lenenc_first : forall n, 1 <= n < 65536 -> exists x r, wire_lenenc n = x :: r /\ x <> 0 /\ x <> 251 /\ x <> 255.
Proof.
  intros n H. unfold wire_lenenc. destruct (Z.leb_spec n 250).
  - exists n, []. repeat split; lia.
  - destruct (Z.leb_spec n 65535) as [|]; [|lia]. eexists _, _. split; [reflexivity | lia].
Qed.

Lemma rs_read_ok : forall c f rows id status warnings msg st pkt w q rest,
  f <> InfoEof -> known_status status -> byte_ok (c_seq c) ->
  ok_layout (Z.testbit (c_caps c) SESSION_TRACK_BIT) f rows id status warnings msg st pkt ->
  frames (c_seq c) pkt w q -> s_in (c_stream c) = w ++ rest ->
  rs_read c = (Ok (mkSet [] (Some (mkOk rows id status warnings (nonempty msg) (nonempty st)))), moved c rest q).
Proof.
  intros c f rows id status warnings msg st pkt w q rest Hf Hk Hs Hl Hw Hi. unfold rs_read.
  rewrite iob, (conn_read_frames c pkt w q rest Hw Hs Hi). destruct (ok_first _ _ _ _ _ _ _ _ _ Hl) as (r & ->).
  change (first_is 0 (0 :: r)) with true. cbn match.
  rewrite iob. unfold decode_response. change (0 =? 0) with true. cbn match.
  change (c_caps (moved c rest q)) with (c_caps c). rewrite iob. unfold iores at 1.
  rewrite (ok_read _ _ _ _ _ _ _ _ _ Hf Hk Hl). reflexivity.
Qed.

Lemma rs_read_err : forall c code state msg pkt w q rest, byte_ok (c_seq c) ->
  err_layout (Z.testbit (c_caps c) PROTOCOL_41_BIT) (Z.testbit (c_caps c) PROGRESS_BIT) (ErrError code state msg) pkt ->
  frames (c_seq c) pkt w q -> s_in (c_stream c) = w ++ rest ->
  rs_read c = (Err (EServer (ErrError code state msg)), moved c rest q).
Proof.
  intros c code state msg pkt w q rest Hs Hl Hw Hi. unfold rs_read.
  rewrite iob, (conn_read_frames c pkt w q rest Hw Hs Hi). destruct (err_first _ _ _ _ Hl) as (r & Er). rewrite Er.
  change (first_is 0 (255 :: r)) with false. change (first_is 251 (255 :: r)) with false.
  change (first_is 255 (255 :: r)) with true. cbn match. cbv beta.
  change (c_caps (moved c rest q)) with (c_caps c). rewrite <- Er. unfold server_error.
  rewrite (read_err_layout _ _ _ Hl). reflexivity.
Qed.

Lemma rs_read_rows : forall c cols defs w q rest, cols <> [] -> Z.of_nat (length cols) < 65536 ->
  Forall2 (column_layout_by short_name_text) cols defs -> byte_ok (c_seq c) ->
  framed (c_seq c) (wire_lenenc (Z.of_nat (length cols)) :: defs) w q -> s_in (c_stream c) = w ++ rest ->
  rs_read c = (Ok (mkSet cols None), mkConn (with_in (c_stream c) rest) q (c_data c) true).
Proof.
  intros c cols defs w q rest Hn Hl Hd Hs Hf Hi. inversion Hf as [|? ? w0 q0 ? w' ? Hf0 Hf1]; subst. unfold rs_read.
  rewrite <- app_assoc in Hi. rewrite iob, (conn_read_frames c _ w0 q0 (w' ++ rest) Hf0 Hs Hi).
  assert (Hn' : 1 <= Z.of_nat (length cols)) by (destruct cols; [contradiction | cbn [length]; lia]).
  destruct (wire_lenenc_first (Z.of_nat (length cols))) as (x & r & Ex & X0 & X1 & X2); [lia|].
  pose proof (checked_eat_lenenc_int_spec _ _ [] (wire_lenenc_lenenc (Z.of_nat (length cols)) ltac:(lia))) as El.
  rewrite app_nil_r in El. rewrite El, Ex. unfold first_is.
  replace (x =? 0) with false by lia. replace (x =? 251) with false by lia. replace (x =? 255) with false by lia.
  rewrite iob. unfold set_pending. rewrite iob. unfold iores at 1. cbn [of_protocol rmap_err fst].
  unfold capacity_overflow, COLUMN_SIZE. replace (2 ^ 63 - 1 <? _) with false by lia.
  rewrite iob. cbn [c_stream c_seq c_data moved with_in s_in].
  assert (En : Z.to_nat (Z.min (Z.of_nat (length cols)) (lenZ (w' ++ rest) + 1)) = length cols).
  { assert (Hlen : (length cols <= length w')%nat).
    { rewrite (Forall2_len _ _ _ _ _ Hd). clear - Hf1. revert q0 w' q Hf1. induction defs; intros q0 w' q Hf1; cbn [length]; [lia|].
      inversion Hf1 as [|? ? w1 q1 ? w2 ? A B]; subst. apply frames_wire_length in A. rewrite app_length.
      specialize (IHdefs _ _ _ B). lia. }
    unfold lenZ. rewrite app_length. lia. }
  rewrite En.
  rewrite (column_defs_read cols defs (mkConn (with_in (c_stream c) (w' ++ rest)) q0 (c_data c) true) w' q rest Hd).
  - reflexivity.
  - exact Hf1.
  - cbn. eapply frames_seq_ok; eauto.
  - reflexivity.
Qed.

(** ** A client *)

(** [k] calls of [next]. *)
Fixpoint nexts {A} (decode : list column -> bytes -> res error A) (k : nat) (s : conn * result_set)
  : list (res error (option A)) * (conn * result_set) :=
  match k with
  | O => ([], s)
  | S k' => let '(r, s1) := rs_next decode s in let '(l, s2) := nexts decode k' s1 in (r :: l, s2)
  end.

Definition use_rows {A} (decode : list column -> bytes -> res error A) (k : nat) (x : res error result_set * conn)
  : seen A * conn :=
  match x with
  | (Ok rs, c) =>
    let '(l, (c', _)) := nexts decode k (c, rs) in
    (match rs_ok rs with Some x => view SNoRows x l | None => SRows (rs_columns rs) l end, c')
  | (Err e, c) => (SFailed e, c)
  | (Panic, c) => (SPanic, c)
  end.

Definition use_done {A B} (f : B -> seen A) (x : res error B * conn) : seen A * conn :=
  match x with
  | (Ok b, c) => (f b, c)
  | (Err e, c) => (SFailed e, c)
  | (Panic, c) => (SPanic, c)
  end.

(** One use of the connection. *)
Definition run_use {A} (decode : list column -> bytes -> res error A) (u : use) (c : conn) : seen A * conn :=
  match u with
  | UQuery q k => use_rows decode k (query q c)
  | UExecute q => use_done (view SDone) (execute_query q c)
  | UPrepare q => use_done (fun st => SPrepared (ps_id st) (ps_params st)) (prepare_statement q c)
  | UStmtQuery id params values k => use_rows decode k (stmt_query (mkPrepared id params) values c)
  | UStmtExecute id params values => use_done (view SDone) (stmt_execute (mkPrepared id params) values c)
  end.

(** A history of uses. *)
Fixpoint run_uses {A} (decode : list column -> bytes -> res error A) (us : list use) (c : conn) : list (seen A) * conn :=
  match us with
  | [] => ([], c)
  | u :: r => let '(x, c1) := run_use decode u c in let '(xs, c2) := run_uses decode r c1 in (x :: xs, c2)
  end.

(** The packets a use sends. *)
Definition use_packets (u : use) : list bytes :=
  match u with
  | UQuery q _ | UExecute q => [3 :: q]
  | UPrepare q => [22 :: q]
  | UStmtQuery id _ values _ | UStmtExecute id _ values =>
    match execute_packets id values with Some ps => ps | None => [] end
  end.

Lemma canon_same : forall v, same_value v (canon v).
Proof. intros v. destruct (canon_cases v) as [-> | (-> & ->)]; constructor. Qed.
Lemma canon_same_all : forall l, Forall2 same_value l (map canon l).
Proof. induction l; constructor; auto using canon_same. Qed.

Lemma stmt_request_ok : forall id params values, 0 <= id < 2 ^ 32 -> params < 65536 -> Forall value_ok values ->
  Z.of_nat (length values) = params ->
  exists ps, execute_packets id values = Some ps /\ ps <> [] /\ stmt_request id values ps.
Proof.
  intros id params values Hi Hp Hv Hn. unfold execute_packets.
  destruct (execute_inline id values Hv Hi) as (r & E & H1).
  destruct (execute_long id values Hv Hi) as (r' & pieces & E' & H2 & H3 & _ & H4); [unfold lenZ; lia|].
  rewrite E in E'. injection E' as <-. rewrite E. eexists. split; [reflexivity|]. split.
  { destruct (ex_as_long_data r); [|discriminate]. now destruct (long_data_packets id 0 values). }
  destruct (ex_as_long_data r) eqn:L.
  - exists (long_data_packets id 0 values), (execute_serialize r), (srv_long pieces), (map canon values).
    split; [reflexivity|]. split; [right; exists pieces; auto|]. split; [auto | apply canon_same_all].
  - exists [], (execute_serialize r), (fun _ => None), (map canon values).
    split; [reflexivity|]. split; [left; auto|]. split; [auto | apply canon_same_all].
Qed.

Lemma use_packets_request : forall u, use_ok u -> use_packets u <> [] /\ request u (use_packets u).
Proof.
  intros [q k|q|q|id params values k|id params values] H; cbn in *; try (split; [discriminate | reflexivity]);
    destruct H as (A & B & C & D); destruct (stmt_request_ok _ _ _ A B C D) as (ps & -> & E & F); auto.
Qed.

(** ** Reading rows *)

Definition same_side (c c' : conn) : Prop := c_data c' = c_data c /\ s_out (c_stream c') = s_out (c_stream c).

Lemma expected_nexts_S : forall A (decode : list column -> bytes -> res error A) cols p rows k,
  expected_nexts decode cols (p :: rows) (S k) =
  rbind (decode cols p) (fun a => Ok (Some a)) :: expected_nexts decode cols rows k.
Proof.
  intros. unfold expected_nexts. cbn [map app firstn]. f_equal.
  rewrite !firstn_app. f_equal. rewrite map_length.
  replace (S k) with (k + 1)%nat by lia. rewrite repeat_app, firstn_app, repeat_length.
  replace (k - length rows - k)%nat with 0%nat by lia. cbn [firstn]. apply app_nil_r.
Qed.
Lemma expected_nexts_nil : forall A (decode : list column -> bytes -> res error A) cols k,
  expected_nexts decode cols [] k = repeat (Ok None) k.
Proof. intros. unfold expected_nexts. cbn [map app]. rewrite <- (repeat_length (Ok None : res error (option A)) k) at 1. apply firstn_all. Qed.

Lemma nexts_done : forall A (decode : list column -> bytes -> res error A) k c cols x,
  nexts decode k (c, mkSet cols (Some x)) = (repeat (Ok None) k, (c, mkSet cols (Some x))).
Proof. induction k as [|k IH]; intros c cols x; [reflexivity|]. cbn [nexts rs_next rs_ok]. rewrite IH. reflexivity. Qed.

Lemma next_row : forall A (decode : list column -> bytes -> res error A) cols c p w q rest,
  Z.testbit (c_caps c) DEPRECATE_EOF_BIT = true -> row_packet p -> byte_ok (c_seq c) ->
  frames (c_seq c) p w q -> s_in (c_stream c) = w ++ rest ->
  rs_next decode (c, mkSet cols None) =
  (rbind (decode cols p) (fun a => Ok (Some a)), (moved c rest q, mkSet cols None)).
Proof.
  intros A decode cols c p w q rest Hc Hp Hs Hf Hi. unfold rs_next. cbn [rs_ok rs_columns].
  rewrite (conn_read_frames c p w q rest Hf Hs Hi). change (c_caps (moved c rest q)) with (c_caps c).
  rewrite is_last_row by assumption. reflexivity.
Qed.

Lemma next_end : forall A (decode : list column -> bytes -> res error A) cols c status warnings last w q rest,
  Z.testbit (c_caps c) DEPRECATE_EOF_BIT = true -> end_of_rows status warnings last -> byte_ok (c_seq c) ->
  frames (c_seq c) last w q -> s_in (c_stream c) = w ++ rest ->
  exists x, rs_next decode (c, mkSet cols None) =
    (Ok None, (mkConn (with_in (c_stream c) rest) q (c_data c) false, mkSet cols (Some x))).
Proof.
  intros A decode cols c status warnings last w q rest Hc He Hs Hf Hi. unfold rs_next. cbn [rs_ok rs_columns].
  rewrite (conn_read_frames c last w q rest Hf Hs Hi). change (c_caps (moved c rest q)) with (c_caps c).
  destruct (end_is_last _ _ _ _ Hc He) as (-> & x & ->). exists x. reflexivity.
Qed.

Lemma nexts_rows : forall A (decode : list column -> bytes -> res error A) cols k rows status warnings last c w q rest,
  Z.testbit (c_caps c) DEPRECATE_EOF_BIT = true ->
  Forall row_packet rows -> end_of_rows status warnings last -> byte_ok (c_seq c) -> s_budget (c_stream c) = None ->
  c_pending c = true -> framed (c_seq c) (rows ++ [last]) w q -> s_in (c_stream c) = w ++ rest ->
  exists c' rs', nexts decode k (c, mkSet cols None) = (expected_nexts decode cols rows k, (c', rs')) /\
    between c' rest /\ same_side c c'.
Proof.
  intros A decode cols. induction k as [|k IH]; intros rows status warnings last c w q rest Hc Hr He Hs Hb Hp Hf Hi.
  - exists c, (mkSet cols None). split; [reflexivity|]. split; [|split; reflexivity]. split; [assumption|]. split; [assumption|].
    right. split; [assumption|]. exists rows, status, warnings, last, w, q. auto.
  - cbn [nexts]. destruct rows as [|p rows]; cbn [app] in Hf; inversion Hf as [|? ? w0 q0 ? w' ? Hf0 Hf1]; subst;
      rewrite <- app_assoc in Hi.
    + destruct (next_end A decode cols c status warnings last w0 q0 (w' ++ rest) Hc He Hs Hf0 Hi) as (x & E). rewrite E.
      rewrite nexts_done. inversion Hf1; subst. eexists _, _. rewrite expected_nexts_nil. split; [reflexivity|]. split.
      * split; [cbn; eapply frames_seq_ok; eauto|]. split; [exact Hb|]. left. split; reflexivity.
      * split; reflexivity.
    + inversion_clear Hr as [|? ? Hrow Hr']. rewrite (next_row A decode cols c p w0 q0 (w' ++ rest)) by assumption.
      destruct (IH rows status warnings last (moved c (w' ++ rest) q0) w' q rest) as (c' & rs' & E & Hbt & Hss); auto.
      { cbn. eapply frames_seq_ok; eauto. }
      rewrite E. exists c', rs'. rewrite expected_nexts_S. split; [reflexivity|]. split; [assumption|].
      destruct Hss as (A1 & A2). split; assumption.
Qed.

(** ** Answers *)

(** What a use sees is what it is expected to see, and the connection is in order again. *)
Definition served {A} (x : seen A * conn) (y : seen A) (c : conn) (rest : bytes) : Prop :=
  fst x = y /\ between (snd x) rest /\ same_side c (snd x).

Lemma moved_between : forall c rest q, byte_ok q -> s_budget (c_stream c) = None -> c_pending c = false ->
  between (moved c rest q) rest.
Proof. intros. split; [assumption|]. split; [assumption|]. left. split; [assumption | reflexivity]. Qed.

Section answers.
  Variable A : Type.
  Variable decode : list column -> bytes -> res error A.
  Variables (c : conn) (w rest : bytes) (q : Z).
  Hypothesis Hc : Z.testbit (c_caps c) DEPRECATE_EOF_BIT = true.
  Hypothesis Hs : byte_ok (c_seq c).
  Hypothesis Hb : s_budget (c_stream c) = None.
  Hypothesis Hp : c_pending c = false.
  Hypothesis Hi : s_in (c_stream c) = w ++ rest.

  Lemma answer_rows : forall a pkts k y, answer_packets (c_caps c) a pkts -> framed (c_seq c) pkts w q ->
    (forall q0, expected decode (UQuery q0 k) a y) ->
    served (use_rows decode k (rs_read c)) y c rest.
  Proof.
    intros a pkts k y Ha Hf He. specialize (He []). inversion Ha; subst; inversion He; subst.
    - inversion Hf as [|? ? w0 q0 ? w' ? Hf0 Hf1]; subst. inversion Hf1; subst. rewrite app_nil_r in *.
      erewrite rs_read_ok by eassumption. unfold use_rows. rewrite nexts_done. split; [reflexivity|]. split.
      + apply moved_between; auto. eapply frames_seq_ok; eauto.
      + split; reflexivity.
    - inversion Hf as [|? ? w0 q0 ? w' ? Hf0 Hf1]; subst. inversion Hf1; subst. rewrite app_nil_r in *.
      erewrite rs_read_err by eassumption. split; [reflexivity|]. split.
      + apply moved_between; auto. eapply frames_seq_ok; eauto.
      + split; reflexivity.
    - destruct (framed_app (wire_lenenc (Z.of_nat (length cols)) :: defs) (rows ++ [last]) _ _ _ Hf)
        as (w1 & q1 & w2 & F1 & F2 & ->). rewrite <- app_assoc in Hi.
      erewrite (rs_read_rows c cols defs w1 q1 (w2 ++ rest)); try eassumption.
      unfold use_rows. cbn [rs_ok rs_columns].
      destruct (nexts_rows A decode cols k rows status warnings last
        (mkConn (with_in (c_stream c) (w2 ++ rest)) q1 (c_data c) true) w2 q rest) as (c' & rs' & E & B & S); auto.
      { cbn. eapply framed_seq_ok; eauto. }
      rewrite E. split; [reflexivity|]. split; [exact B | exact S].
  Qed.

  Lemma answer_done : forall a pkts y, answer_packets (c_caps c) a pkts -> framed (c_seq c) pkts w q ->
    (forall q0, expected decode (UExecute q0) a y) ->
    served (use_done (view SDone) (read_response c)) y c rest.
  Proof.
    intros a pkts y Ha Hf He. specialize (He []). inversion Ha; subst; inversion He; subst;
      inversion Hf as [|? ? w0 q0 ? w' ? Hf0 Hf1]; subst; inversion Hf1; subst; rewrite app_nil_r in *.
    - erewrite read_response_ok by eassumption. split; [reflexivity|]. split.
      + apply moved_between; auto. eapply frames_seq_ok; eauto.
      + split; reflexivity.
    - erewrite read_response_err by eassumption. split; [reflexivity|]. split.
      + apply moved_between; auto. eapply frames_seq_ok; eauto.
      + split; reflexivity.
  Qed.
End answers.

Lemma skip_packets_framed : forall ps c w q rest, framed (c_seq c) ps w q -> byte_ok (c_seq c) ->
  s_in (c_stream c) = w ++ rest -> skip_packets (length ps) c = (Ok tt, moved c rest q).
Proof.
  induction ps as [|p ps IH]; intros c w q rest Hf Hs Hi; inversion Hf as [|? ? w0 q0 ? w' ? Hf0 Hf1]; subst.
  - cbn. f_equal. destruct c as [[i e o b] q0 d pd]; cbn in *. subst. reflexivity.
  - cbn [length skip_packets]. rewrite <- app_assoc in Hi. rewrite iob, (conn_read_frames c _ w0 q0 (w' ++ rest) Hf0 Hs Hi).
    rewrite (IH (moved c (w' ++ rest) q0) w' q rest); auto. cbn. eapply frames_seq_ok; eauto.
Qed.

Lemma app_inv_len : forall A (a b c d : list A), length a = length c -> a ++ b = c ++ d -> a = c /\ b = d.
Proof.
  induction a as [|x a IH]; intros b [|y c] d L H; try discriminate; [auto|]. cbn in *. injection H as -> H.
  destruct (IH b c d) as (-> & ->); auto.
Qed.

Lemma frames_det : forall q p w s, frames q p w s -> forall w' s', frames q p w' s' -> w = w' /\ s = s'.
Proof.
  intros q p w s H. induction H as [seq body L | seq body rest wire s L F IH]; intros w' s' H'.
  - inversion H' as [|? b r ? ? L' F']; subst; [auto|]. rewrite app_length in L. lia.
  - remember (body ++ rest) as p eqn:E in H'. destruct H' as [? p L'|? b r w2 ? L' F']; subst; [rewrite app_length in L'; lia|].
    apply app_inv_len in E; [|lia]. destruct E as (-> & ->). destruct (IH _ _ F') as (-> & ->). auto.
Qed.

Lemma requests_det : forall ps w q, requests ps w q -> forall w' q', requests ps w' q' -> w = w' /\ q = q'.
Proof.
  induction 1 as [p w q H | p w q ps w1 q1 H Hr IH]; intros w' q' H'; inversion H' as [? ? ? F|? w2 q2 ? w3 ? F R]; subst.
  - exact (frames_det _ _ _ _ H _ _ F).
  - inversion R.
  - inversion Hr.
  - destruct (frames_det _ _ _ _ H _ _ F) as (-> & ->). destruct (IH _ _ R) as (-> & ->). auto.
Qed.

(** One use with its answer. *)
Lemma run_use_served : forall A (decode : list column -> bytes -> res error A) u a y w q pkts wi q' c rest,
  Z.testbit (c_caps c) DEPRECATE_EOF_BIT = true -> use_ok u -> requests (use_packets u) w q ->
  answer_packets (c_caps c) a pkts -> framed q pkts wi q' -> expected decode u a y ->
  between c (wi ++ rest) ->
  exists c', run_use decode u c = (y, c') /\ between c' rest /\ c_data c' = c_data c /\
    s_out (c_stream c') = s_out (c_stream c) ++ w.
Proof.
  intros A decode u a y w q pkts wi q' c rest Hc Hu Hr Ha Hf He Hb.
  destruct (use_packets_request u Hu) as (Hn & _).
  destruct (write_commands_between (use_packets u) c (wi ++ rest) Hc Hb Hn) as (w0 & q0 & R0 & Hq & c1 & E & As).
  destruct (requests_det _ _ _ R0 _ _ Hr) as (-> & ->).
  assert (Hc1 : c_caps c1 = c_caps c) by (rewrite As; reflexivity).
  assert (S1 : forall cmd data, use_packets u = [cmd :: data] -> execute_command cmd data c = (Ok tt, c1)).
  { intros cmd data Eu. rewrite execute_is_write. rewrite Eu in E. cbn [write_commands] in E. rewrite iob in E.
    revert E. destruct (write_command (cmd :: data) c) as [[[]|?|] c2]; unfold ioret; congruence. }
  assert (S2 : forall id values ps, execute_packets id values = Some ps -> use_packets u = ps ->
            send_execute id values c = (Ok tt, c1)).
  { intros id values ps Ep Eu. rewrite (send_execute_packets id values ps Ep), <- Eu. exact E. }
  assert (Fin : forall x, served x y c1 rest -> exists c', x = (y, c') /\ between c' rest /\ c_data c' = c_data c /\
            s_out (c_stream c') = s_out (c_stream c) ++ w).
  { intros [x c'] (X1 & X2 & X3 & X4). cbn in *. subst x. exists c'. split; [reflexivity|]. split; [assumption|].
    rewrite X3, X4, As. split; reflexivity. }
  rewrite <- Hc1 in Hc, Ha.
  assert (Hs : byte_ok (c_seq c1)) by (rewrite As; exact Hq).
  assert (Hp : c_pending c1 = false) by (rewrite As; reflexivity).
  assert (Hbd : s_budget (c_stream c1) = None) by (rewrite As; reflexivity).
  assert (Hi : s_in (c_stream c1) = wi ++ rest) by (rewrite As; reflexivity).
  assert (Hf1 : framed (c_seq c1) pkts wi q') by (rewrite As; exact Hf).
  destruct u as [qq k|qq|qq|id params values k|id params values]; cbn [run_use].
  - unfold query, COM_QUERY. rewrite iob, (S1 _ _ eq_refl). apply Fin.
    apply (answer_rows A decode c1 wi rest q') with (a := a) (pkts := pkts); auto. intros q1. inversion He; subst; constructor; auto.
  - unfold execute_query, COM_QUERY. rewrite iob, (S1 _ _ eq_refl). apply Fin.
    apply (answer_done A decode c1 wi rest q') with (a := a) (pkts := pkts); auto. intros q1. inversion He; subst; constructor; auto.
  - unfold prepare_statement, COM_STMT_PREPARE. rewrite iob, (S1 _ _ eq_refl). apply Fin.
    inversion He; subst; inversion Ha; subst; inversion Hf1 as [|? ? wa qa ? wb ? Fa Fb]; subst; rewrite <- app_assoc in Hi;
      rewrite iob, (conn_read_frames c1 _ _ _ (wb ++ rest) Fa Hs Hi), iob.
    + change (first_is 0 (0 :: body)) with true. cbn match. unfold iores at 1.
      match goal with H : stmt_layout _ _ _ _ _ |- _ => rewrite (read_stmt_layout _ _ _ _ _ H) end.
      cbn [of_protocol rmap_err st_params_len st_columns_len st_id].
      match goal with H : Z.of_nat (length defs) = _ |- _ => rewrite <- H, Nat2Z.id end.
      rewrite iob, (skip_packets_framed defs (moved c1 (wb ++ rest) qa) wb q' rest); auto.
      2:{ cbn. eapply frames_seq_ok; eauto. }
      split; [reflexivity|]. split; [|split; reflexivity].
      apply (moved_between (moved c1 (wb ++ rest) qa)); auto. eapply framed_seq_ok; [exact Fb|]. eapply frames_seq_ok; eauto.
    + match goal with H : err_layout _ _ _ _ |- _ => rename H into Hl end.
      destruct (err_first _ _ _ _ Hl) as (r & Er). rewrite Er.
      change (first_is 0 (255 :: r)) with false. change (first_is 255 (255 :: r)) with true. cbn match. cbv beta.
      unfold iores at 1. rewrite <- Er. change (c_caps (moved c1 (wb ++ rest) qa)) with (c_caps c1). unfold server_error.
      rewrite (read_err_layout _ _ _ Hl). inversion Fb; subst.
      split; [reflexivity|]. split; [|split; reflexivity]. cbn. apply moved_between; auto. eapply frames_seq_ok; eauto.
  - destruct Hu as (U1 & U2 & U3 & U4). unfold stmt_query. cbn [ps_params ps_id].
    replace (lenZ values =? params) with true by (unfold lenZ; lia). cbn [negb].
    destruct (stmt_request_ok _ _ _ U1 U2 U3 U4) as (ps & Ep & _).
    rewrite iob, (S2 id values ps Ep). 2:{ cbn. now rewrite Ep. }
    apply Fin. apply (answer_rows A decode c1 wi rest q') with (a := a) (pkts := pkts); auto. intros q1. inversion He; subst; constructor; auto.
  - destruct Hu as (U1 & U2 & U3 & U4). unfold stmt_execute. cbn [ps_params ps_id].
    replace (lenZ values =? params) with true by (unfold lenZ; lia). cbn [negb].
    destruct (stmt_request_ok _ _ _ U1 U2 U3 U4) as (ps & Ep & _).
    rewrite iob, (S2 id values ps Ep). 2:{ cbn. now rewrite Ep. }
    apply Fin. apply (answer_done A decode c1 wi rest q') with (a := a) (pkts := pkts); auto. intros q1. inversion He; subst; constructor; auto.
Qed.

Lemma run_uses_history : forall A (decode : list column -> bytes -> res error A) caps h i o,
  history decode caps use_packets h i o -> Z.testbit caps DEPRECATE_EOF_BIT = true ->
  forall c rest, c_caps c = caps -> between c (i ++ rest) ->
  exists c', run_uses decode (map fst h) c = (map snd h, c') /\ between c' rest /\ c_data c' = c_data c /\
    s_out (c_stream c') = s_out (c_stream c) ++ o.
Proof.
  intros A decode caps h i o H Hd. induction H as [|u a y w q pkts wi q' h i o Hu Hr Ha Hf He Hh IH]; intros c rest Hc Hb.
  - exists c. rewrite app_nil_r. auto.
  - rewrite <- app_assoc in Hb. subst caps.
    destruct (run_use_served A decode u a y w q pkts wi q' c (i ++ rest)) as (c1 & E & B & D & O); auto.
    destruct (IH c1 rest) as (c2 & E2 & B2 & D2 & O2); [unfold c_caps; now rewrite D | assumption |].
    cbn [map run_uses fst snd]. rewrite E, E2. exists c2. split; [reflexivity|]. split; [assumption|].
    rewrite D2, D, O2, O, app_assoc. auto.
Qed.

(** ** Whole result sets *)

Definition open_set (c : conn) (rows : list bytes) (rest : bytes) : Prop :=
  byte_ok (c_seq c) /\ s_budget (c_stream c) = None /\ c_pending c = true /\
  exists status warnings last w q,
    Forall row_packet rows /\ end_of_rows status warnings last /\
    framed (c_seq c) (rows ++ [last]) w q /\ s_in (c_stream c) = w ++ rest.

Definition closed_set (c : conn) (rest : bytes) : Prop :=
  byte_ok (c_seq c) /\ s_budget (c_stream c) = None /\ c_pending c = false /\ s_in (c_stream c) = rest.

Lemma closed_between : forall c rest, closed_set c rest -> between c rest.
Proof. intros c rest (A & B & C & D). split; [assumption|]. split; [assumption|]. left. auto. Qed.
Lemma open_between : forall c rows rest, open_set c rows rest -> between c rest.
Proof.
  intros c rows rest (A & B & C & status & warnings & last & w & q & D). split; [assumption|]. split; [assumption|]. right.
  split; [assumption|]. exists rows, status, warnings, last, w, q. exact D.
Qed.

Section sets.
  Variable A : Type.
  Variable decode : list column -> bytes -> res error A.

  Lemma open_next : forall cols p rows c rest, Z.testbit (c_caps c) DEPRECATE_EOF_BIT = true -> open_set c (p :: rows) rest ->
    exists c', rs_next decode (c, mkSet cols None) = (rbind (decode cols p) (fun a => Ok (Some a)), (c', mkSet cols None)) /\
      open_set c' rows rest /\ same_side c c' /\ (length (s_in (c_stream c')) < length (s_in (c_stream c)))%nat.
  Proof.
    intros cols p rows c rest Hc (Hs & Hb & Hp & status & warnings & last & w & q & Hr & He & Hf & Hi).
    cbn [app] in Hf. inversion Hf as [|? ? w0 q0 ? w' ? F0 F1]; subst. rewrite <- app_assoc in Hi.
    inversion_clear Hr as [|? ? R1 R2]. rewrite (next_row A decode cols c p w0 q0 (w' ++ rest)) by assumption.
    eexists. split; [reflexivity|]. split.
    - split; [cbn; eapply frames_seq_ok; eauto|]. split; [exact Hb|]. split; [exact Hp|].
      exists status, warnings, last, w', q. auto.
    - split; [split; reflexivity|]. cbn. rewrite Hi, (app_length w0). pose proof (frames_wire_length _ _ _ _ F0). lia.
  Qed.

  Lemma open_end : forall cols c rest, Z.testbit (c_caps c) DEPRECATE_EOF_BIT = true -> open_set c [] rest ->
    exists c' x, rs_next decode (c, mkSet cols None) = (Ok None, (c', mkSet cols (Some x))) /\ closed_set c' rest /\ same_side c c'.
  Proof.
    intros cols c rest Hc (Hs & Hb & Hp & status & warnings & last & w & q & Hr & He & Hf & Hi).
    cbn [app] in Hf. inversion Hf as [|? ? w0 q0 ? w' ? F0 F1]; subst. inversion F1; subst. rewrite app_nil_r in Hi.
    destruct (next_end A decode cols c status warnings last w0 q rest Hc He Hs F0 Hi) as (x & E). rewrite E.
    eexists _, x. split; [reflexivity|]. split; [|split; reflexivity].
    split; [cbn; eapply frames_seq_ok; eauto|]. split; [exact Hb|]. split; reflexivity.
  Qed.

  Lemma open_rounds : forall c rows rest, open_set c rows rest -> (length rows < length (s_in (c_stream c)))%nat.
  Proof.
    intros c rows rest (_ & _ & _ & status & warnings & last & w & q & _ & _ & Hf & Hi). rewrite Hi, app_length. clear Hi.
    revert w q Hf. generalize (c_seq c). induction rows as [|p rows IH]; intros q0 w q Hf; cbn [app] in Hf;
      inversion Hf as [|? ? w0 q1 ? w' ? F0 F1]; subst; pose proof (frames_wire_length _ _ _ _ F0); rewrite app_length.
    - cbn. lia.
    - specialize (IH _ _ _ F1). cbn [length]. lia.
  Qed.

  Lemma collect_rows : forall cols rows c rest fuel acc, Z.testbit (c_caps c) DEPRECATE_EOF_BIT = true ->
    open_set c rows rest -> (length rows < fuel)%nat ->
    exists c' rs', collect_loop decode fuel acc (c, mkSet cols None) =
      (rbind (all_rows decode cols rows) (fun l => Ok (acc ++ l)), (c', rs')) /\
      between c' rest /\ same_side c c' /\
      (forall l, all_rows decode cols rows = Ok l -> closed_set c' rest /\ exists x, rs' = mkSet cols (Some x)).
  Proof.
    intros cols. induction rows as [|p rows IH]; intros c rest fuel acc Hc Ho Hl; (destruct fuel as [|fuel]; [cbn in Hl; lia|]);
      cbn [collect_loop].
    - destruct (open_end cols c rest Hc Ho) as (c' & x & E & C & S). rewrite iob, E. cbn [all_rows rbind].
      exists c', (mkSet cols (Some x)). rewrite app_nil_r. split; [reflexivity|]. split; [now apply closed_between|].
      split; [assumption|]. intros. split; [assumption | eexists; reflexivity].
    - destruct (open_next cols p rows c rest Hc Ho) as (c' & E & O & S & _). rewrite iob, E. cbn [all_rows].
      destruct (decode cols p) as [a|e|]; cbn [rbind].
      + destruct (IH c' rest fuel (acc ++ [a])) as (c2 & rs2 & E2 & B2 & S2 & R2).
        { unfold c_caps. destruct S as (-> & _). exact Hc. } { assumption. } { cbn in Hl. lia. }
        exists c2, rs2. rewrite E2. split.
        { destruct (all_rows decode cols rows); cbn; rewrite <- ?app_assoc; reflexivity. }
        split; [assumption|]. split. { destruct S, S2. split; congruence. }
        intros l H. destruct (all_rows decode cols rows) as [l'|e|]; try discriminate. eapply R2. reflexivity.
      + exists c', (mkSet cols None). split; [reflexivity|]. split; [eapply open_between; eauto|]. split; [assumption | discriminate].
      + exists c', (mkSet cols None). split; [reflexivity|]. split; [eapply open_between; eauto|]. split; [assumption | discriminate].
  Qed.

  Lemma drain_rows : forall cols rows c rest fuel, Z.testbit (c_caps c) DEPRECATE_EOF_BIT = true ->
    open_set c rows rest -> (length rows < fuel)%nat -> forall l, all_rows decode cols rows = Ok l ->
    exists c' x, drain_loop decode fuel (c, mkSet cols None) = (Ok tt, (c', mkSet cols (Some x))) /\
      closed_set c' rest /\ same_side c c'.
  Proof.
    intros cols. induction rows as [|p rows IH]; intros c rest fuel Hc Ho Hl l H; (destruct fuel as [|fuel]; [cbn in Hl; lia|]);
      cbn [drain_loop].
    - destruct (open_end cols c rest Hc Ho) as (c' & x & E & C & S). rewrite iob, E. exists c', x. auto.
    - destruct (open_next cols p rows c rest Hc Ho) as (c' & E & O & S & _). rewrite iob, E. cbn [all_rows] in H.
      destruct (decode cols p) as [a|e|]; cbn [rbind]; try discriminate.
      destruct (all_rows decode cols rows) as [l'|e|] eqn:El; try discriminate.
      destruct (IH c' rest fuel) with (l := l') as (c2 & x & E2 & B2 & S2); auto.
      { unfold c_caps. destruct S as (-> & _). exact Hc. } { cbn in Hl. lia. }
      exists c2, x. rewrite E2. split; [reflexivity|]. split; [assumption|]. destruct S, S2. split; congruence.
  Qed.

  Lemma one_rows : forall cols rows c rest l, Z.testbit (c_caps c) DEPRECATE_EOF_BIT = true ->
    open_set c rows rest -> all_rows decode cols rows = Ok l ->
    exists c' x, one decode (c, mkSet cols None) = (Ok (hd_error l), (c', mkSet cols (Some x))) /\ closed_set c' rest /\ same_side c c'.
  Proof.
    intros cols rows c rest l Hc Ho H. unfold one. destruct rows as [|p rows]; cbn [all_rows] in H.
    - injection H as <-. destruct (open_end cols c rest Hc Ho) as (c' & x & E & C & S). rewrite E. cbn match.
      exists c', x. split; [reflexivity|]. auto.
    - destruct (open_next cols p rows c rest Hc Ho) as (c' & E & O & S & _). rewrite E.
      destruct (decode cols p) as [a|e|]; try discriminate. cbn [rbind].
      destruct (all_rows decode cols rows) as [l'|e|] eqn:El; try discriminate. injection H as <-.
      destruct (drain_rows cols rows c' rest (rounds c')) with (l := l') as (c2 & x & E2 & B2 & S2); auto.
      { unfold c_caps. destruct S as (-> & _). exact Hc. }
      { pose proof (open_rounds _ _ _ O). unfold rounds. lia. }
      rewrite E2. exists c2, x. split; [reflexivity|]. split; [assumption|]. destruct S, S2. split; congruence.
  Qed.

  Lemma finish_rows : forall cols rows c rest l, Z.testbit (c_caps c) DEPRECATE_EOF_BIT = true ->
    open_set c rows rest -> all_rows decode cols rows = Ok l ->
    exists c' x, finish decode (c, mkSet cols None) = (Ok x, (c', mkSet cols (Some x))) /\ closed_set c' rest /\ same_side c c'.
  Proof.
    intros cols rows c rest l Hc Ho H. unfold finish. cbn [rs_ok].
    destruct (drain_rows cols rows c rest (rounds c)) with (l := l) as (c2 & x & E2 & B2 & S2); auto.
    { pose proof (open_rounds _ _ _ Ho). unfold rounds. lia. }
    rewrite E2. exists c2, x. auto.
  Qed.

  Lemma collect_set : forall cols rows c rest, Z.testbit (c_caps c) DEPRECATE_EOF_BIT = true ->
    open_set c rows rest ->
    exists c' rs', collect decode (c, mkSet cols None) = (all_rows decode cols rows, (c', rs')) /\
      between c' rest /\ same_side c c' /\
      (forall l, all_rows decode cols rows = Ok l ->
         closed_set c' rest /\ forall k, nexts decode k (c', rs') = (repeat (Ok None) k, (c', rs'))).
  Proof.
    intros cols rows c rest Hc Ho. unfold collect. pose proof (open_rounds _ _ _ Ho) as L.
    destruct (collect_rows cols rows c rest (rounds c) [] Hc Ho) as (c' & rs' & E & B & S & R).
    { unfold rounds. lia. }
    exists c', rs'. rewrite E. split; [destruct (all_rows decode cols rows); reflexivity|]. split; [assumption|]. split; [assumption|].
    intros l H. destruct (R l H) as (C & x & ->). split; [assumption|]. intros k. apply nexts_done.
  Qed.
End sets.

(** The set opened by an answer. *)
Lemma rs_read_opens : forall caps c cols rows pkts w q rest, c_caps c = caps ->
  answer_packets caps (ARows cols rows) pkts -> framed (c_seq c) pkts w q -> s_in (c_stream c) = w ++ rest ->
  byte_ok (c_seq c) -> s_budget (c_stream c) = None ->
  exists c', rs_read c = (Ok (mkSet cols None), c') /\ open_set c' rows rest /\ same_side c c'.
Proof.
  intros caps c cols rows pkts w q rest Hc Ha Hf Hi Hs Hb. inversion Ha; subst.
  destruct (framed_app (wire_lenenc (Z.of_nat (length cols)) :: defs) (rows ++ [last]) _ _ _ Hf)
    as (w1 & q1 & w2 & F1 & F2 & ->). rewrite <- app_assoc in Hi.
  rewrite (rs_read_rows c cols defs w1 q1 (w2 ++ rest)); auto. eexists. split; [reflexivity|]. split; [|split; reflexivity].
  split; [cbn; eapply framed_seq_ok; eauto|]. split; [exact Hb|]. split; [reflexivity|].
  exists status, warnings, last, w2, q. auto.
Qed.

(** ** Parameter counts *)

Lemma conn_read_errors : forall c e c', conn_read c = (Err e, c') -> exists p, e = EProtocol p.
Proof.
  intros c e c' H. unfold conn_read in H. destruct (read_packet (c_seq c) (c_stream c)) as [[r seq] s] eqn:E.
  injection H as -> <-. apply read_packet_errors in E. destruct E as [-> | ->]; eexists; reflexivity.
Qed.

Lemma stmt_request_no_close : forall id values ps p, stmt_request id values ps -> In p ps -> exists cmd r, p = cmd :: r /\ cmd <> 25.
Proof.
  intros id values ps p (longs & exec & long & values' & -> & Hl & He & _) Hin. apply in_app_or in Hin. destruct Hin as [Hin | [<- | []]].
  - destruct Hl as [(-> & _) | (pieces & Hr & _)]; [destruct Hin|]. clear He. revert pieces Hr.
    induction longs as [|x longs IH]; intros pieces Hr; [destruct Hin|]. cbn in Hr. destruct Hin as [<- | Hin].
    + unfold srv_long_data, srv_byte in Hr. destruct x as [|cmd r]; [discriminate|]. cbn [obind] in Hr.
      destruct (cmd =? 24) eqn:E; [|discriminate]. exists cmd, r. split; [reflexivity | lia].
    + destruct (srv_long_data x) as [[[a b] d]|]; [|discriminate]. cbn [obind] in Hr. destruct (negb (a =? id)); [discriminate|].
      destruct (srv_receive id longs) as [l|]; [|discriminate]. now apply (IH Hin l).
  - unfold srv_execute, srv_byte in He. destruct exec as [|cmd r]; [discriminate|]. cbn [obind] in He.
    destruct (cmd =? 23) eqn:E; [|discriminate]. exists cmd, r. split; [reflexivity | lia].
Qed.

Definition clean {S A} (m : IO S A) : Prop := forall s, fst (m s) <> Err (ERuntime RParameterCountMismatch).

Lemma clean_bind : forall S A B (m : IO S A) (f : A -> IO S B), clean m -> (forall a, clean (f a)) -> clean (iobind m f).
Proof.
  intros S A B m f Hm Hf s. rewrite iob. specialize (Hm s). destruct (m s) as [[a|e|] s']; cbn in *; [apply Hf | | discriminate].
  intros H. apply Hm. congruence.
Qed.
Lemma clean_write_all : forall b, clean (write_all b).
Proof.
  intros b s. unfold write_all. destruct (s_budget s) as [n|]; [|discriminate]. destruct (_ <=? _); discriminate.
Qed.
Lemma write_chunks_clean : forall fuel seq b s r q s', write_chunks fuel seq b s = ((r, q), s') ->
  r <> Err (ERuntime RParameterCountMismatch).
Proof.
  induction fuel as [|fuel IH]; intros seq b s r q s' H; cbn [write_chunks] in H; [injection H as <- _ _; discriminate|].
  destruct b as [|x b]; [injection H as <- _ _; discriminate|]. revert H.
  match goal with |- match ?m s with _ => _ end = _ -> _ => assert (C : clean m) by (apply clean_bind; intros; apply clean_write_all);
    specialize (C s); destruct (m s) as [[u|e|] s1] end; intros H.
  - eapply IH; eauto.
  - injection H as <- _ _. exact C.
  - injection H as <- _ _. discriminate.
Qed.
Lemma write_packet_clean : forall seq p s r q s', write_packet seq p s = ((r, q), s') -> r <> Err (ERuntime RParameterCountMismatch).
Proof.
  intros seq p s r q s' H. unfold write_packet in H. destruct (write_chunks (S (length p)) seq p s) as [[r1 q1] s1] eqn:E.
  apply write_chunks_clean in E. destruct r1 as [u|e|]; try (injection H as <- _ _; assumption).
  destruct (_ =? 0); [|injection H as <- _ _; discriminate].
  pose proof (clean_write_all (le_bytes 4 (Z.shiftl q1 24)) s1) as C.
  destruct (write_all (le_bytes 4 (Z.shiftl q1 24)) s1) as [[u'|e|] s2]; injection H as <- _ _; try discriminate. exact C.
Qed.
Lemma clean_ret : forall S A (a : A), clean (@ioret S A a).
Proof. intros S A a s. discriminate. Qed.
Lemma clean_protocol : forall S A (r : res protocol_error A), clean (@iores S A (of_protocol r)).
Proof. intros S A [a|e|] s; discriminate. Qed.
Lemma clean_server : forall S A (r : res err_packet A), clean (@iores S A (of_server r)).
Proof. intros S A [a|e|] s; discriminate. Qed.
Lemma clean_server_error : forall S A p caps, clean (@iores S A (server_error p caps)).
Proof. intros S A p caps s. unfold server_error, iores. destruct (read_err p caps); discriminate. Qed.
Lemma clean_read : clean conn_read.
Proof.
  intros c. destruct (conn_read c) as [[p|e|] c'] eqn:E; try discriminate.
  apply conn_read_errors in E. destruct E as (p & ->). discriminate.
Qed.
Lemma clean_write : forall p, clean (conn_write p).
Proof.
  intros p c. unfold conn_write. destruct (write_packet (c_seq c) p (c_stream c)) as [[r q] s] eqn:E. cbn.
  eapply write_packet_clean; eauto.
Qed.
Lemma clean_pending : forall b, clean (set_pending b).
Proof. intros b c. discriminate. Qed.
Lemma clean_reset : clean reset_seq.
Proof. intros c. discriminate. Qed.
Lemma clean_here : forall S A (m : S -> IO S A), (forall s, clean (m s)) -> clean (fun s => m s s).
Proof. intros S A m H s. apply H. Qed.
Lemma clean_is_last : forall S caps p, clean (@iores S bool (is_last caps p)).
Proof. intros S caps [|x p] s; discriminate. Qed.
Global Hint Resolve clean_bind clean_ret clean_protocol clean_server clean_server_error clean_read clean_write clean_pending clean_reset
  clean_is_last : clean.

Lemma clean_cleanup : clean cleanup.
Proof.
  intros c. unfold cleanup. destruct (c_pending c); [|discriminate]. generalize (S (length (s_in (c_stream c)))). intros n. revert c.
  change (clean (cleanup_loop n)). induction n as [|n IH]; [intros c; discriminate|]. cbn [cleanup_loop].
  apply clean_bind; [auto with clean|]. intros p c.
  match goal with |- fst (?m c) <> _ => assert (H : clean m); [|apply H] end.
  apply clean_bind; [auto with clean|]. intros [|]; auto 6 with clean.
Qed.
Lemma clean_command : forall p, clean (write_command p).
Proof. intros p. unfold write_command. auto using clean_cleanup with clean. Qed.
Lemma clean_commands : forall ps, clean (write_commands ps).
Proof. induction ps; cbn [write_commands]; auto using clean_command with clean. Qed.
Lemma clean_execute : forall id values, clean (send_execute id values).
Proof.
  intros id values. unfold send_execute. destruct (execute_new id values) as [r|]; [|intros c; discriminate].
  apply clean_bind; [|intros; apply clean_command]. unfold send_long_data. destruct (ex_as_long_data r); auto using clean_commands with clean.
Qed.
Lemma clean_decode : forall p, clean (decode_response p).
Proof.
  intros p c. unfold decode_response. destruct p as [|x p]; [discriminate|]. destruct (x =? 0); [|destruct (x =? 255); [|discriminate]].
  - match goal with |- fst (?m c) <> _ => assert (H : clean m); [|apply H] end. auto with clean.
  - match goal with |- fst (?m c) <> _ => assert (H : clean m); [|apply H] end. auto with clean.
Qed.
Lemma clean_response : clean read_response.
Proof. unfold read_response. auto using clean_decode with clean. Qed.
Lemma clean_defs : forall n, clean (read_column_defs n).
Proof. induction n; cbn [read_column_defs]; auto 8 with clean. Qed.
Lemma clean_rs_read : clean rs_read.
Proof.
  unfold rs_read. apply clean_bind; [auto with clean|]. intros p. destruct (first_is 0 p); [auto using clean_decode with clean|].
  destruct (first_is 251 p); [intros c; discriminate|]. destruct (first_is 255 p).
  - intros c. apply (clean_server_error conn result_set p (c_caps c) c).
  - apply clean_bind; [auto with clean|]. intros _. apply clean_bind; [auto with clean|]. intros n c.
    destruct (capacity_overflow n); [discriminate|].
    match goal with |- fst (?m c) <> _ => assert (H : clean m); [|apply H] end. auto using clean_defs with clean.
Qed.

Lemma right_count : forall st values c, Z.of_nat (length values) = ps_params st ->
  fst (stmt_query st values c) <> Err (ERuntime RParameterCountMismatch) /\
  fst (stmt_execute st values c) <> Err (ERuntime RParameterCountMismatch).
Proof.
  intros st values c H. unfold stmt_query, stmt_execute, lenZ.
  replace (Z.of_nat (length values) =? ps_params st) with true by lia. cbn [negb]. split.
  - apply clean_bind; auto using clean_execute, clean_rs_read.
  - apply clean_bind; auto using clean_execute, clean_response.
Qed.
