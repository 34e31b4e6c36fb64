(** Property C77: disconnecting, for all result sets that break off with an error and for all result
    sets of servers without DEPRECATE_EOF. *)
From Coq Require Import String ZArith List Bool Lia.
From Verif Require Import Base BaseFacts Types Utf8 ParseBuf BufMut Spec_Wire ParseBuf_proofs Framing Framing_proofs
  Spec_Conv Packets Spec_Packets Packets_proofs Crypt Handshake ValueBin Spec_Stmt StmtPackets ValueText Rows Rows_proofs
  Conversion Auth Auth_proofs Conn Spec_Conn Conn_proofs Fault_proofs EndText_proofs Spec_OldServer OldServer_proofs
  Goodbye_proofs Properties_Command Properties_OldServer.
Import ListNotations.
Open Scope Z_scope.

(** The rest of a result set that has not been read is any number of rows and an error: disconnecting
    waits for more, and fails as the transport does.  COM_QUIT is not sent, however often it is
    tried, and whatever else is tried in between. *)
Theorem C77_broken_off_refuted : forall e pkt rows c w q,
  Z.testbit (c_caps c) DEPRECATE_EOF_BIT = true ->
  err_layout (Z.testbit (c_caps c) PROTOCOL_41_BIT) (Z.testbit (c_caps c) PROGRESS_BIT) e pkt -> Forall row_packet rows ->
  0 <= c_seq c < 256 -> c_pending c = true -> framed (c_seq c) (rows ++ [pkt]) w q -> s_in (c_stream c) = w ->
  exists c', disconnect c = (Err (EProtocol (PIo (s_end (c_stream c)))), c') /\ s_out (c_stream c') = s_out (c_stream c) /\
    forall cmds, let c'' := fold_left (fun c x => snd (execute_command (fst x) (snd x) c)) cmds c' in
      s_out (c_stream c'') = s_out (c_stream c) /\
      fst (disconnect c'') = Err (EProtocol (PIo (s_end (c_stream c)))).
Proof. exact broken_off. Qed.
Print Assumptions C77_broken_off_refuted.

(** Two rows and the error of a query that is killed. *)
Example C77_broken_off_case :
  let pkt := 255 :: wire_uint 2 1317 ++ [35] ++ s2l "70100" ++ s2l "killed" in
  let c := snd (query (s2l "q") (idle (frame 1 [1] ++ frame 2 column_packet ++ frame 3 [1; 97] ++ frame 4 [1; 98] ++ frame 5 pkt))) in
  c_pending c = true /\ c_seq c = 3 /\ Z.testbit (c_caps c) DEPRECATE_EOF_BIT = true /\
  s_in (c_stream c) = frame 3 [1; 97] ++ frame 4 [1; 98] ++ frame 5 pkt /\
  fst (disconnect c) = Err (EProtocol (PIo IoUnexpectedEof)) /\
  s_out (c_stream (snd (disconnect c))) = frame 0 [3; 113].
Proof. vm_compute. repeat split. Qed.

(** A query on a connection without DEPRECATE_EOF, whatever it returns: disconnecting with the rows
    unread, or after the first read, fails and sends nothing.  The second attempt succeeds. *)
Theorem C77_old_server_refuted : forall A (decode : list column -> bytes -> res error A) q c cols rows pkts w wi qn qe rest,
  Z.testbit (c_caps c) DEPRECATE_EOF_BIT = false ->
  0 <= c_seq c < 256 -> s_budget (c_stream c) = None -> c_pending c = false -> s_in (c_stream c) = wi ++ rest ->
  requests [3 :: q] w qn -> old_answer cols rows pkts -> framed qn pkts wi qe ->
  exists c1 c2, query q c = (Ok (mkSet cols None), c1) /\
    rs_next decode (c1, mkSet cols None) = (Err (EProtocol peof), (c2, mkSet cols None)) /\
    forall d, d = c1 \/ d = c2 ->
    exists c3 c4, disconnect d = (Err (EProtocol peof), c3) /\ s_out (c_stream c3) = s_out (c_stream c1) /\
      disconnect c3 = (Ok tt, c4) /\ s_out (c_stream c4) = s_out (c_stream c1) ++ [1; 0; 0; 0; 1].
Proof.
  intros A decode q c cols rows pkts w wi qn qe rest Hc Hs Hb Hp Hi. apply (old_goodbye A decode) with (rest := rest); [exact Hc|].
  split; [exact Hs|]. split; [exact Hb|]. split; assumption.
Qed.
Print Assumptions C77_old_server_refuted.

(** The connection and answer of [C47_old_server_case]. *)
Example C77_old_server_case :
  let c1 := snd (query (s2l "q") old_conn) in
  let c3 := snd (disconnect c1) in
  old_answer [some_column] [[1; 97]; [1; 98]] old_packets /\ framed 1 old_packets old_input 7 /\
  fst (disconnect c1) = Err (EProtocol peof) /\ s_out (c_stream c3) = frame 0 [3; 113] /\
  fst (disconnect c3) = Ok tt /\ s_out (c_stream (snd (disconnect c3))) = frame 0 [3; 113] ++ [1; 0; 0; 0; 1].
Proof.
  cbv zeta. destruct C47_old_server_case as (_ & A & B & _). split; [exact A|]. split; [exact B|].
  vm_compute. repeat split.
Qed.
