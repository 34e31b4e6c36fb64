(** A use that finds packets of an earlier answer in front of its own. *)
From Coq Require Import String ZArith List Bool Lia.
From Verif Require Import Base BaseFacts Types Utf8 ParseBuf BufMut Spec_Wire ParseBuf_proofs Framing Framing_proofs
  Spec_Conv Packets Spec_Packets Packets_proofs Crypt Handshake ValueBin Spec_Stmt StmtPackets StmtPackets_proofs ValueText Rows Rows_proofs
  Conversion Auth Auth_proofs Conn Spec_Conn Conn_proofs Fault_proofs.
Import ListNotations.
Open Scope Z_scope.
Open Scope io_scope.

Lemma framed_misnumbered : forall q1 p more w qe q, framed q1 (p :: more) w qe -> q1 <> q ->
  exists v v', w = v ++ v' /\ misnumbered q v.
Proof.
  intros q1 p more w qe q Hf Nq. inversion Hf as [|? ? w0 q0 ? w1 ? F0 F1]; subst.
  inversion F0 as [? body Lb | ? body r wr ? Lb Fr]; subst.
  - eexists _, w1. split; [reflexivity|]. constructor; [lia | exact Nq].
  - exists (wire_uint 3 (Z.of_nat (length body)) ++ [q1] ++ body), (wr ++ w1).
    split; [rewrite Lb, <- !app_assoc; reflexivity|]. constructor; [lia | exact Nq].
Qed.

Lemma use_misnumbered : forall A (decode : list column -> bytes -> res error A) u w q q1 more wm qe c rest,
  Z.testbit (c_caps c) DEPRECATE_EOF_BIT = true -> use_ok u -> requests (use_packets u) w q ->
  framed q1 more wm qe -> more <> [] -> q1 <> q -> between c (wm ++ rest) ->
  fst (run_use decode u c) = SFailed (EProtocol POutOfSync) /\
  s_out (c_stream (snd (run_use decode u c))) = s_out (c_stream c) ++ w.
Proof.
  intros A decode u w q q1 more wm qe c rest Hc Hu Hr Hf Hm Nq Hb. destruct more as [|p more]; [contradiction|].
  destruct (framed_misnumbered _ _ _ _ _ _ Hf Nq) as (v & v' & -> & M).
  destruct (use_packets_request u Hu) as (Hn & _).
  destruct (write_commands_between (use_packets u) c _ Hc Hb Hn) as (w0 & q0 & R0 & Hq & c1 & E & As).
  destruct (requests_det _ _ _ R0 _ _ Hr) as (-> & ->).
  assert (S1 : forall cmd data, use_packets u = [cmd :: data] -> execute_command cmd data c = (Ok tt, c1)).
  { intros cmd data Eu. rewrite execute_is_write. rewrite Eu in E. cbn [write_commands] in E. rewrite iob in E.
    revert E. destruct (write_command (cmd :: data) c) as [[[]|?|] c2]; unfold ioret; congruence. }
  assert (S2 : forall id values ps, execute_packets id values = Some ps -> use_packets u = ps ->
            send_execute id values c = (Ok tt, c1)).
  { intros id values ps Ep Eu. rewrite (send_execute_packets id values ps Ep), <- Eu. exact E. }
  assert (R : exists c2, conn_read c1 = (Err (EProtocol POutOfSync), c2) /\ s_out (c_stream c2) = s_out (c_stream c) ++ w).
  { destruct (read_misnumbered_packet q v (c_stream c1) (v' ++ rest)) as (qr & sr & R); auto.
    { rewrite As. cbn [c_stream s_in]. now rewrite <- app_assoc. }
    eexists. split; [unfold conn_read; rewrite As in *; cbn [c_seq c_stream] in *; rewrite R; reflexivity|].
    cbn [c_stream]. apply read_packet_rest in R. destruct R as (O & _). rewrite O, As. reflexivity. }
  destruct R as (c2 & R & O).
  destruct u as [qq k|qq|qq|id params values k|id params values]; cbn [run_use].
  - unfold query, COM_QUERY. rewrite iob, (S1 _ _ eq_refl). unfold rs_read. rewrite iob, R. cbn. split; [reflexivity | exact O].
  - unfold execute_query, COM_QUERY. rewrite iob, (S1 _ _ eq_refl). unfold read_response. rewrite iob, R. cbn. split; [reflexivity | exact O].
  - unfold prepare_statement, COM_STMT_PREPARE. rewrite iob, (S1 _ _ eq_refl), iob, R. cbn. split; [reflexivity | exact O].
  - destruct Hu as (U1 & U2 & U3 & U4). unfold stmt_query. cbn [ps_params ps_id].
    replace (lenZ values =? params) with true by (unfold lenZ; lia). cbn [negb].
    destruct (stmt_request_ok _ _ _ U1 U2 U3 U4) as (ps & Ep & _).
    rewrite iob, (S2 id values ps Ep). 2:{ cbn. now rewrite Ep. }
    unfold rs_read. rewrite iob, R. cbn. split; [reflexivity | exact O].
  - destruct Hu as (U1 & U2 & U3 & U4). unfold stmt_execute. cbn [ps_params ps_id].
    replace (lenZ values =? params) with true by (unfold lenZ; lia). cbn [negb].
    destruct (stmt_request_ok _ _ _ U1 U2 U3 U4) as (ps & Ep & _).
    rewrite iob, (S2 id values ps Ep). 2:{ cbn. now rewrite Ep. }
    unfold read_response. rewrite iob, R. cbn. split; [reflexivity | exact O].
Qed.
