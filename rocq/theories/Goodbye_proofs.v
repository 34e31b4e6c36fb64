(** Disconnecting when the rest of a result set cannot be read to its end. *)
From Coq Require Import String ZArith List Bool Lia.
From Verif Require Import Base BaseFacts Types Utf8 ParseBuf BufMut Spec_Wire ParseBuf_proofs Framing Framing_proofs
  Spec_Conv Packets Spec_Packets Packets_proofs Crypt Handshake ValueBin Spec_Stmt StmtPackets ValueText Rows Rows_proofs
  Conversion Auth Auth_proofs Conn Spec_Conn Conn_proofs Fault_proofs EndText_proofs Spec_OldServer OldServer_proofs.
Import ListNotations.
Open Scope Z_scope.
Open Scope io_scope.

Lemma cleanup_no_end : forall pkts c w q fuel,
  Forall (fun p => is_last (c_caps c) p = Ok false) pkts -> byte_ok (c_seq c) ->
  framed (c_seq c) pkts w q -> s_in (c_stream c) = w -> (length w < fuel)%nat ->
  exists c', cleanup_loop fuel c = (Err (EProtocol (PIo (s_end (c_stream c)))), c') /\
    s_out (c_stream c') = s_out (c_stream c) /\ c_pending c' = c_pending c /\ s_in (c_stream c') = [] /\
    byte_ok (c_seq c') /\ s_end (c_stream c') = s_end (c_stream c).
Proof.
  induction pkts as [|p pkts IH]; intros c w q fuel Hr Hs Hf Hi Hl; (destruct fuel as [|fuel]; [lia|]);
    inversion Hf as [|? ? w0 q0 ? w' ? Hf0 Hf1]; subst.
  - cbn [cleanup_loop]. rewrite iob, (conn_read_empty c); [|congruence|exact Hs].
    eexists. split; [reflexivity|]. repeat split; try congruence; apply Hs.
  - inversion_clear Hr as [|? ? Hp Hr'].
    cbn [cleanup_loop]. rewrite iob, (conn_read_frames c _ w0 q0 w' Hf0 Hs) by congruence.
    change (c_caps (moved c w' q0)) with (c_caps c). rewrite iob. unfold iores at 1. rewrite Hp.
    pose proof (frames_wire_length _ _ _ _ Hf0). 
    destruct (IH (moved c w' q0) w' q fuel) as (c' & E & F); auto.
    { eapply frames_seq_ok; eauto. }
    { match goal with H : _ = s_in _ |- _ => rewrite <- H in Hl | H : s_in _ = _ |- _ => try rewrite H in Hl end.
      rewrite app_length in Hl. lia. }
    exists c'. split; [exact E|exact F].
Qed.

Lemma broken_off : forall e pkt rows c w q,
  Z.testbit (c_caps c) DEPRECATE_EOF_BIT = true ->
  err_layout (Z.testbit (c_caps c) PROTOCOL_41_BIT) (Z.testbit (c_caps c) PROGRESS_BIT) e pkt -> Forall row_packet rows ->
  byte_ok (c_seq c) -> c_pending c = true -> framed (c_seq c) (rows ++ [pkt]) w q -> s_in (c_stream c) = w ->
  exists c', disconnect c = (Err (EProtocol (PIo (s_end (c_stream c)))), c') /\ s_out (c_stream c') = s_out (c_stream c) /\
    forall cmds, let c'' := fold_left (fun c x => snd (execute_command (fst x) (snd x) c)) cmds c' in
      s_out (c_stream c'') = s_out (c_stream c) /\
      fst (disconnect c'') = Err (EProtocol (PIo (s_end (c_stream c)))).
Proof.
  intros e pkt rows c w q Hc Hl Hr Hs Hp Hf Hi. destruct (err_first _ _ _ _ Hl) as (r & ->).
  destruct (cleanup_no_end (rows ++ [255 :: r]) c w q (S (length (s_in (c_stream c))))) as (c' & E & O & P & I & B & N); auto.
  { apply Forall_app. split; [|constructor; [reflexivity|constructor]].
    eapply Forall_impl; [|exact Hr]. intros p. now apply is_last_row. }
  { rewrite Hi. lia. }
  exists c'. split; [|split; [exact O|]].
  - unfold disconnect, execute_command, cleanup. rewrite iob, Hp, E. reflexivity.
  - intros cmds. destruct (starved_ever cmds c') as (X & Y); [congruence | exact I | exact B |].
    cbv zeta. split; [now rewrite X, O|]. unfold disconnect. rewrite Y. now rewrite N.
Qed.

Lemma goodbye_closed : forall c rest, closed_set c rest ->
  exists c', disconnect c = (Ok tt, c') /\ s_out (c_stream c') = s_out (c_stream c) ++ [1; 0; 0; 0; 1].
Proof.
  intros c rest H. unfold disconnect. rewrite execute_is_write.
  destruct (write_closed [COM_QUIT] c rest H) as (w & q & F & c' & E & As). exists c'. split; [exact E|].
  assert (F' : frames 0 [COM_QUIT] [1; 0; 0; 0; 1] 1) by (apply (frames_last 0); vm_compute; reflexivity).
  destruct (frames_det _ _ _ _ F _ _ F') as (-> & ->). unfold asked in As. subst c'. reflexivity.
Qed.

Lemma old_goodbye : forall A (decode : list column -> bytes -> res error A) q c cols rows pkts w wi qn qe rest,
  Z.testbit (c_caps c) DEPRECATE_EOF_BIT = false -> closed_set c (wi ++ rest) ->
  requests [3 :: q] w qn -> old_answer cols rows pkts -> framed qn pkts wi qe ->
  exists c1 c2, query q c = (Ok (mkSet cols None), c1) /\
    rs_next decode (c1, mkSet cols None) = (Err (EProtocol peof), (c2, mkSet cols None)) /\
    forall d, d = c1 \/ d = c2 ->
    exists c3 c4, disconnect d = (Err (EProtocol peof), c3) /\ s_out (c_stream c3) = s_out (c_stream c1) /\
      disconnect c3 = (Ok tt, c4) /\ s_out (c_stream c4) = s_out (c_stream c1) ++ [1; 0; 0; 0; 1].
Proof.
  intros A decode q c cols rows pkts w wi qn qe rest Hc Hcl Hr Ha Hf.
  destruct (old_query A decode q c cols rows pkts w wi qn qe rest Hc Hcl Hr Ha Hf) as (c1 & c2 & late & E & O & N & C & X & L & Y).
  exists c1, c2. split; [exact E|]. split; [exact N|]. intros d [-> | ->].
  - destruct (Y COM_QUIT []) as (c3 & E3 & O3 & Cl). destruct (goodbye_closed _ _ Cl) as (c4 & E4 & O4).
    exists c3, c4. split; [exact E3|]. split; [exact O3|]. split; [exact E4|]. now rewrite O4, O3.
  - destruct (X COM_QUIT []) as (c3 & E3 & O3 & Cl). destruct (goodbye_closed _ _ Cl) as (c4 & E4 & O4).
    exists c3, c4. split; [exact E3|]. split; [exact O3|]. split; [exact E4|]. now rewrite O4, O3.
Qed.
