(** Result sets of a server without DEPRECATE_EOF. *)
From Coq Require Import String ZArith List Bool Lia.
From Verif Require Import Base BaseFacts Types Utf8 ParseBuf BufMut Spec_Wire ParseBuf_proofs Framing Framing_proofs
  Spec_Conv Packets Spec_Packets Packets_proofs Crypt Handshake ValueBin Spec_Stmt Spec_Text StmtPackets ValueText Rows Rows_proofs
  ValueText_proofs Conversion Auth Auth_proofs Conn Spec_Conn Conn_proofs Spec_OldServer.
Import ListNotations.
Open Scope Z_scope.
Open Scope io_scope.

Lemma old_is_last : forall caps status warnings p, Z.testbit caps DEPRECATE_EOF_BIT = false ->
  old_eof status warnings p -> is_last caps p = Ok true.
Proof.
  intros caps status warnings p Hc (Hs & Hw & ->). unfold is_last. rewrite deprecate_flag, Hc, !wire_uint_le. reflexivity.
Qed.

Lemma old_row_not_last : forall caps p, Z.testbit caps DEPRECATE_EOF_BIT = false -> old_row p -> is_last caps p = Ok false.
Proof.
  intros caps p Hc (x & r & -> & Hx & Hl). unfold is_last. rewrite deprecate_flag, Hc. f_equal.
  destruct (x =? 254) eqn:E; [|reflexivity]. cbn [andb]. apply Z.ltb_ge. unfold lenZ. specialize (Hl ltac:(lia)). lia.
Qed.

Lemma old_cleanup : forall rows status warnings last c w q rest fuel,
  Z.testbit (c_caps c) DEPRECATE_EOF_BIT = false ->
  Forall old_row rows -> old_eof status warnings last -> byte_ok (c_seq c) ->
  framed (c_seq c) (rows ++ [last]) w q -> s_in (c_stream c) = w ++ rest -> (length w < fuel)%nat ->
  cleanup_loop fuel c = (Err (EProtocol peof), mkConn (with_in (c_stream c) rest) q (c_data c) false).
Proof.
  induction rows as [|p rows IH]; intros status warnings last c w q rest fuel Hc Hr He Hs Hf Hi Hl;
    (destruct fuel as [|fuel]; [lia|]); cbn [app] in Hf; inversion Hf as [|? ? w0 q0 ? w' ? Hf0 Hf1]; subst;
    rewrite <- app_assoc in Hi; cbn [cleanup_loop]; rewrite iob, (conn_read_frames c _ w0 q0 (w' ++ rest) Hf0 Hs Hi);
    change (c_caps (moved c (w' ++ rest) q0)) with (c_caps c); rewrite iob; unfold iores at 1.
  - rewrite (old_is_last _ _ _ _ Hc He). inversion Hf1; subst.
    rewrite iob. unfold set_pending. cbv beta iota. rewrite iob, (old_eof_err _ _ _ _ He). reflexivity.
  - inversion_clear Hr as [|? ? Hp Hr']. rewrite old_row_not_last by assumption.
    pose proof (frames_wire_length _ _ _ _ Hf0). rewrite app_length in Hl.
    apply (IH status warnings last (moved c (w' ++ rest) q0) w' q rest fuel); auto; [|lia].
    eapply frames_seq_ok; eauto.
Qed.

Lemma write_closed : forall p c rest, closed_set c rest ->
  exists w q, frames 0 p w q /\ exists c', write_command p c = (Ok tt, c') /\ asked c c' rest w q.
Proof.
  intros p c rest (Hs & Hb & Hp & Hi). unfold write_command, cleanup. rewrite iob, Hp. rewrite iob. unfold reset_seq.
  destruct (write_follows_rules 0 p (c_stream c)) as (w & q & Hf & Ew). { unfold byte_ok. lia. } { exact Hb. }
  exists w, q. split; [exact Hf|]. eexists. split; [|reflexivity].
  unfold conn_write. cbn [c_seq c_stream]. rewrite Ew, Hi, Hp. reflexivity.
Qed.

Section old.
  Variable A : Type.
  Variable decode : list column -> bytes -> res error A.

  Lemma old_query : forall q c cols rows pkts w wi qn qe rest,
    Z.testbit (c_caps c) DEPRECATE_EOF_BIT = false -> closed_set c (wi ++ rest) ->
    requests [3 :: q] w qn -> old_answer cols rows pkts -> framed qn pkts wi qe ->
    exists c1 c2 late,
      query q c = (Ok (mkSet cols None), c1) /\ s_out (c_stream c1) = s_out (c_stream c) ++ w /\
      rs_next decode (c1, mkSet cols None) = (Err (EProtocol peof), (c2, mkSet cols None)) /\
      collect decode (c1, mkSet cols None) = (Err (EProtocol peof), (c2, mkSet cols None)) /\
      (forall cmd data, exists c3, execute_command cmd data c2 = (Err (EProtocol peof), c3) /\
         s_out (c_stream c3) = s_out (c_stream c1) /\ closed_set c3 rest) /\
      (exists q1, framed q1 (rows ++ [last pkts []]) late qe) /\
      (forall cmd data, exists c3, execute_command cmd data c1 = (Err (EProtocol peof), c3) /\
         s_out (c_stream c3) = s_out (c_stream c1) /\ closed_set c3 (late ++ rest)).
  Proof.
    intros q c cols rows pkts w wi qn qe rest Hc Hcl Hr (defs & mid & la & s1 & w1 & s2 & w2 & Hn & Hl & Hd & Ho & Hm & Hla & ->) Hf.
    inversion Hr as [? ? ? Fw | ? ? ? ? ? ? ? Bad]; subst; [|inversion Bad].
    unfold query. rewrite iob, execute_is_write. change (COM_QUERY :: q) with (3 :: q).
    destruct (write_closed (3 :: q) c (wi ++ rest) Hcl) as (w' & q' & F' & c0 & E0 & As).
    destruct (frames_det _ _ _ _ Fw _ _ F') as (<- & <-). rewrite E0. clear E0 F'.
    assert (Hqn : byte_ok qn) by (eapply frames_seq_ok; [exact Fw | unfold byte_ok; lia]).
    unfold asked in As.
    destruct (framed_app _ _ _ _ _ Hf) as (wa & qa & wb & Fa & Fb & ->).
    cbn [app] in Fb. inversion Fb as [|? ? wm qm ? late ? Fm Fl]; subst wb.
    rewrite <- !app_assoc in As.
    rewrite (rs_read_rows c0 cols defs wa qa (wm ++ late ++ rest)); auto; try (rewrite As; assumption || reflexivity).
    assert (Hqa : byte_ok qa) by (eapply framed_seq_ok; eauto).
    assert (Hqm : byte_ok qm) by (eapply frames_seq_ok; eauto).
    assert (Hqe : byte_ok qe) by (eapply framed_seq_ok; eauto).
    match goal with |- exists c1 c2 late, (Ok _, ?x) = _ /\ _ => set (c1 := x) end.
    assert (C1 : c_caps c1 = c_caps c) by (unfold c1; rewrite As; reflexivity).
    assert (R1 : conn_read c1 = (Ok mid, moved c1 (late ++ rest) qm)) by (apply (conn_read_frames c1 mid wm qm (late ++ rest)); auto).
    assert (N1 : rs_next decode (c1, mkSet cols None) = (Err (EProtocol peof), (moved c1 (late ++ rest) qm, mkSet cols None))).
    { unfold rs_next. cbn [rs_ok rs_columns]. rewrite R1. change (c_caps (moved c1 (late ++ rest) qm)) with (c_caps c1).
      rewrite C1, (old_is_last _ _ _ _ Hc Hm), (old_eof_err _ _ _ _ Hm). reflexivity. }
    assert (B1 : s_budget (c_stream c1) = None) by (unfold c1; rewrite As; reflexivity).
    exists c1, (moved c1 (late ++ rest) qm), late.
    split; [reflexivity|]. split; [unfold c1; rewrite As; reflexivity|]. split; [exact N1|]. split; [|split; [|split]].
    - unfold collect, rounds. cbn [collect_loop]. rewrite iob, N1. reflexivity.
    - intros cmd data. unfold execute_command, cleanup. rewrite iob. cbn [moved c_pending]. change (c_pending c1) with true. cbv iota.
      rewrite (old_cleanup rows s2 w2 la (moved c1 (late ++ rest) qm) late qe rest); auto.
      + eexists. split; [reflexivity|]. split; [reflexivity|]. split; [exact Hqe|]. split; [exact B1|]. split; reflexivity.
      + change (c_caps (moved c1 (late ++ rest) qm)) with (c_caps c1). now rewrite C1.
      + cbn [moved c_stream with_in s_in]. rewrite app_length. lia.
    - exists qm. rewrite !app_assoc, last_last. exact Fl.
    - intros cmd data. unfold execute_command, cleanup. rewrite iob. change (c_pending c1) with true. cbv iota.
      cbn [cleanup_loop]. rewrite iob, R1. change (c_caps (moved c1 (late ++ rest) qm)) with (c_caps c1). rewrite iob. unfold iores at 1.
      rewrite C1, (old_is_last _ _ _ _ Hc Hm). rewrite iob. unfold set_pending. cbv beta iota. rewrite iob, (old_eof_err _ _ _ _ Hm).
      eexists. split; [reflexivity|]. split; [reflexivity|]. split; [exact Hqm|]. split; [exact B1|]. split; reflexivity.
  Qed.
End old.

(** ** Prepared statements *)

Lemma then_eof_length : forall defs pkts, then_eof defs pkts ->
  length pkts = (length defs + (if (Z.of_nat (length defs) =? 0)%Z then 0 else 1))%nat.
Proof.
  intros defs pkts [(-> & ->) | (N & eof & s & w & _ & ->)]; [reflexivity|].
  destruct defs as [|d defs]; [contradiction|]. rewrite app_length. cbn [length].
  destruct (Z.eqb_spec (Z.of_nat (S (length defs))) 0); lia.
Qed.

Lemma old_prepare : forall text c id params columns pkts w wi qn qe rest,
  closed_set c (wi ++ rest) -> requests [22 :: text] w qn -> old_prepared id params columns pkts -> framed qn pkts wi qe ->
  exists c1 left q1 late, prepare_statement text c = (Ok (mkPrepared id params), c1) /\
    length left = eofs params columns /\ (exists taken, pkts = taken ++ left) /\ framed q1 left late qe /\
    closed_set c1 (late ++ rest) /\ s_out (c_stream c1) = s_out (c_stream c) ++ w.
Proof.
  intros text c id params columns pkts w wi qn qe rest Hcl Hr
    (warnings & body & pdefs & cdefs & ps & cs & Hst & Lp & Lc & Hp & Hc & ->) Hf.
  inversion Hr as [? ? ? Fw | ? ? ? ? ? ? ? Bad]; subst; [|inversion Bad].
  unfold prepare_statement. rewrite iob, execute_is_write. change (COM_STMT_PREPARE :: text) with (22 :: text).
  destruct (write_closed (22 :: text) c (wi ++ rest) Hcl) as (w' & q' & F' & c0 & E0 & As).
  destruct (frames_det _ _ _ _ Fw _ _ F') as (<- & <-). rewrite E0. clear E0 F'.
  assert (Hqn : byte_ok qn) by (eapply frames_seq_ok; [exact Fw | unfold byte_ok; lia]).
  unfold asked in As.
  inversion Hf as [|? ? wa qa ? wb ? Fa Fb]; subst wi.
  apply then_eof_length in Hp, Hc.
  set (n := (length pdefs + length cdefs)%nat).
  rewrite <- (firstn_skipn n (ps ++ cs)) in Fb.
  destruct (framed_app _ _ _ _ _ Fb) as (wt & q1 & late & Ft & Fl & ->).
  rewrite <- !app_assoc in As.
  assert (Hqa : byte_ok qa) by (eapply frames_seq_ok; eauto).
  assert (Hq1 : byte_ok q1) by (eapply framed_seq_ok; eauto).
  rewrite iob, (conn_read_frames c0 (0 :: body) wa qa (wt ++ late ++ rest)); try (rewrite As; assumption || reflexivity).
  rewrite iob. change (first_is 0 (0 :: body)) with true. cbn match. unfold iores at 1.
  rewrite (read_stmt_layout _ _ _ _ _ Hst). cbn [of_protocol rmap_err st_params_len st_columns_len st_id].
  assert (Ln : length (firstn n (ps ++ cs)) = Z.to_nat (Z.of_nat (length pdefs) + Z.of_nat (length cdefs))).
  { rewrite firstn_length_le; [unfold n; lia|]. rewrite app_length, Hp, Hc. unfold n. lia. }
  rewrite iob, <- Ln.
  rewrite (skip_packets_framed (firstn n (ps ++ cs)) (moved c0 (wt ++ late ++ rest) qa) wt q1 (late ++ rest)); auto.
  eexists _, (skipn n (ps ++ cs)), q1, late. split; [reflexivity|]. split; [|split; [|split; [exact Fl|]]].
  - rewrite skipn_length, app_length, Hp, Hc. unfold eofs, n. lia.
  - exists ((0 :: body) :: firstn n (ps ++ cs)). cbn [app]. now rewrite firstn_skipn.
  - rewrite As. split; [|reflexivity]. split; [exact Hq1|]. split; [reflexivity|]. split; reflexivity.
Qed.

Lemma next_misnumbered : forall c left late qe rest q1 p w q, closed_set c (late ++ rest) -> framed q1 left late qe -> left <> [] ->
  frames 0 (3 :: p) w q -> q1 <> q -> fst (query p c) = Err (EProtocol POutOfSync).
Proof.
  intros c left late qe rest q1 p w q Hcl Hf Hn Fw Nq. destruct left as [|x left]; [contradiction|].
  inversion Hf as [|? ? w0 q0 ? w1 ? F0 F1]; subst late.
  unfold query. rewrite iob, execute_is_write. change (COM_QUERY :: p) with (3 :: p).
  destruct (write_closed (3 :: p) c ((w0 ++ w1) ++ rest) Hcl) as (w' & q' & F' & c0 & E0 & As).
  destruct (frames_det _ _ _ _ Fw _ _ F') as (<- & <-). rewrite E0. unfold asked in As.
  assert (Hq : byte_ok q) by (eapply frames_seq_ok; [exact Fw | unfold byte_ok; lia]).
  assert (M : exists v v', w0 = v ++ v' /\ misnumbered q v).
  { inversion F0 as [? body Lb | ? body r wr ? Lb Fr]; subst.
    - exists (wire_uint 3 (Z.of_nat (length x)) ++ [q1] ++ x), []. split; [now rewrite app_nil_r|]. constructor; [lia | exact Nq].
    - exists (wire_uint 3 (Z.of_nat (length body)) ++ [q1] ++ body), wr. split; [rewrite Lb, <- !app_assoc; reflexivity|].
      constructor; [lia | exact Nq]. }
  destruct M as (v & v' & -> & M).
  unfold rs_read. rewrite iob. unfold conn_read.
  destruct (read_misnumbered_packet q v (c_stream c0) (v' ++ w1 ++ rest)) as (qr & sr & R); auto.
  { rewrite As. cbn [c_stream s_in]. now rewrite <- !app_assoc. }
  rewrite As in *. cbn [c_seq c_stream] in *. rewrite R. reflexivity.
Qed.

(** ** Connecting *)

Lemma old_settings : forall debug f32 f64 o c cols rows pkts w wi qn qe rest,
  o_max_allowed_packet o = None -> Z.testbit (c_caps c) DEPRECATE_EOF_BIT = false -> closed_set c (wi ++ rest) ->
  requests [3 :: s2l "select @@max_allowed_packet"] w qn -> old_answer cols rows pkts -> framed qn pkts wi qe ->
  fst (read_settings debug f32 f64 o c) = Err (EProtocol peof).
Proof.
  intros debug f32 f64 o c cols rows pkts w wi qn qe rest Ho Hc Hcl Hr Ha Hf.
  destruct (old_query _ (text_rows debug f32 f64) (s2l "select @@max_allowed_packet") c cols rows pkts w wi qn qe rest Hc Hcl Hr Ha Hf)
    as (c1 & c2 & late & E & _ & N & _).
  unfold read_settings. rewrite Ho, iob, E, N. reflexivity.
Qed.
