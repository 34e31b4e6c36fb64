(** A use whose answer does not come in time. *)
From Coq Require Import String ZArith List Bool Lia.
From Verif Require Import Base BaseFacts Types Utf8 ParseBuf BufMut Spec_Wire ParseBuf_proofs Framing Framing_proofs
  Spec_Conv Packets Spec_Packets Packets_proofs Crypt Handshake ValueBin Spec_Stmt StmtPackets StmtPackets_proofs ValueText Rows Rows_proofs
  Conversion Auth Auth_proofs Conn Spec_Conn Conn_proofs Fault_proofs.
Import ListNotations.
Open Scope Z_scope.
Open Scope io_scope.

Lemma use_starved : forall A (decode : list column -> bytes -> res error A) u w q c,
  Z.testbit (c_caps c) DEPRECATE_EOF_BIT = true -> use_ok u -> requests (use_packets u) w q -> between c [] ->
  exists c1, run_use decode u c = (SFailed (EProtocol (PIo (s_end (c_stream c)))), c1) /\
    closed_set c1 [] /\ c_data c1 = c_data c /\ s_out (c_stream c1) = s_out (c_stream c) ++ w.
Proof.
  intros A decode u w q c Hc Hu Hr Hb.
  destruct (use_packets_request u Hu) as (Hn & _).
  destruct (write_commands_between (use_packets u) c _ Hc Hb Hn) as (w0 & q0 & R0 & Hq & c1 & E & As).
  destruct (requests_det _ _ _ R0 _ _ Hr) as (-> & ->).
  assert (S1 : forall cmd data, use_packets u = [cmd :: data] -> execute_command cmd data c = (Ok tt, c1)).
  { intros cmd data Eu. rewrite execute_is_write. rewrite Eu in E. cbn [write_commands] in E. rewrite iob in E.
    revert E. destruct (write_command (cmd :: data) c) as [[[]|?|] c2]; unfold ioret; congruence. }
  assert (S2 : forall id values ps, execute_packets id values = Some ps -> use_packets u = ps ->
            send_execute id values c = (Ok tt, c1)).
  { intros id values ps Ep Eu. rewrite (send_execute_packets id values ps Ep), <- Eu. exact E. }
  assert (R : exists c2, conn_read c1 = (Err (EProtocol (PIo (s_end (c_stream c)))), c2) /\
    closed_set c2 [] /\ c_data c2 = c_data c /\ s_out (c_stream c2) = s_out (c_stream c) ++ w).
  { exists (drained c1 (c_seq c1)). rewrite (conn_read_empty c1) by (rewrite As; first [reflexivity | exact Hq]).
    rewrite As. split; [reflexivity|]. split; [|split; reflexivity].
    split; [exact Hq|]. split; [reflexivity|]. split; reflexivity. }
  destruct R as (c2 & R & O).
  destruct u as [qq k|qq|qq|id params values k|id params values]; cbn [run_use]; exists c2; (split; [|exact O]).
  - unfold query, COM_QUERY. rewrite iob, (S1 _ _ eq_refl). unfold rs_read. rewrite iob, R. reflexivity.
  - unfold execute_query, COM_QUERY. rewrite iob, (S1 _ _ eq_refl). unfold read_response. rewrite iob, R. reflexivity.
  - unfold prepare_statement, COM_STMT_PREPARE. rewrite iob, (S1 _ _ eq_refl), iob, R. reflexivity.
  - destruct Hu as (U1 & U2 & U3 & U4). unfold stmt_query. cbn [ps_params ps_id].
    replace (lenZ values =? params) with true by (unfold lenZ; lia). cbn [negb].
    destruct (stmt_request_ok _ _ _ U1 U2 U3 U4) as (ps & Ep & _).
    rewrite iob, (S2 id values ps Ep). 2:{ cbn. now rewrite Ep. }
    unfold rs_read. rewrite iob, R. reflexivity.
  - destruct Hu as (U1 & U2 & U3 & U4). unfold stmt_execute. cbn [ps_params ps_id].
    replace (lenZ values =? params) with true by (unfold lenZ; lia). cbn [negb].
    destruct (stmt_request_ok _ _ _ U1 U2 U3 U4) as (ps & Ep & _).
    rewrite iob, (S2 id values ps Ep). 2:{ cbn. now rewrite Ep. }
    unfold read_response. rewrite iob, R. reflexivity.
Qed.

Lemma arrive_between : forall c more, closed_set c [] -> between (arrive more c) more.
Proof.
  intros c more (Hs & Hb & Hp & Hi). split; [exact Hs|]. split; [exact Hb|]. left. split; [exact Hp|].
  cbn. now rewrite Hi.
Qed.

Lemma shifted : forall A (decode : list column -> bytes -> res error A) u1 u2 a y2 w1 w2 q pkts wi qe c,
  Z.testbit (c_caps c) DEPRECATE_EOF_BIT = true -> use_ok u1 -> use_ok u2 ->
  requests (use_packets u1) w1 q -> requests (use_packets u2) w2 q ->
  answer_packets (c_caps c) a pkts -> framed q pkts wi qe -> expected decode u2 a y2 -> between c [] ->
  exists c1, run_use decode u1 c = (SFailed (EProtocol (PIo (s_end (c_stream c)))), c1) /\
  forall h i o rest, history decode (c_caps c) use_packets h i o ->
  exists c2, run_uses decode (u2 :: map fst h) (arrive (wi ++ i ++ rest) c1) = (y2 :: map snd h, c2) /\ between c2 rest /\
    s_out (c_stream c2) = s_out (c_stream c) ++ w1 ++ w2 ++ o.
Proof.
  intros A decode u1 u2 a y2 w1 w2 q pkts wi qe c Hc Hu1 Hu2 Hr1 Hr2 Ha Hf He Hb.
  destruct (use_starved A decode u1 w1 q c Hc Hu1 Hr1 Hb) as (c1 & E & Cl & D & O). exists c1. split; [exact E|].
  intros h i o rest Hh.
  assert (K : c_caps (arrive (wi ++ i ++ rest) c1) = c_caps c) by (unfold c_caps; cbn; now rewrite D).
  destruct (run_use_served A decode u2 a y2 w2 q pkts wi qe (arrive (wi ++ i ++ rest) c1) (i ++ rest)) as (c2 & E2 & B2 & D2 & O2); auto.
  { now rewrite K. } { now rewrite K. } { now apply arrive_between. }
  destruct (run_uses_history A decode (c_caps c) h i o Hh Hc c2 rest) as (c3 & E3 & B3 & _ & O3).
  { unfold c_caps in *. now rewrite D2. } { exact B2. }
  exists c3. cbn [run_uses]. rewrite E2, E3. split; [reflexivity|]. split; [exact B3|].
  rewrite O3, O2. cbn. rewrite O, <- !app_assoc. reflexivity.
Qed.
