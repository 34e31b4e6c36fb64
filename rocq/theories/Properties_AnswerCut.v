(** Property C109: announcements of columns that are cut off, and packets that are not shown, for all packets. *)
From Coq Require Import String ZArith List Bool Lia.
From Verif Require Import Base BaseFacts Types Utf8 ParseBuf BufMut Spec_Wire ParseBuf_proofs Framing Framing_proofs
  Spec_Conv Packets Spec_Packets Packets_proofs Crypt Handshake ValueBin Spec_Stmt StmtPackets ValueText Rows Rows_proofs
  Conversion Auth Auth_proofs Conn Spec_Conn Conn_proofs Fault_proofs EndText_proofs Properties_Command Spec_Answer Answer_proofs
  Spec_AnswerCut AnswerCut_proofs.
Import ListNotations.
Open Scope Z_scope.

(** The answer to a question for rows is one packet with a number of columns that is cut off.  The call
    fails as it should, but the client waits for the end of a result set ever after: whatever is tried,
    nothing more is written, and each attempt fails as the transport does. *)
Theorem C109_cut_refuted : forall q c p w wi qn qe, Z.testbit (c_caps c) DEPRECATE_EOF_BIT = true -> between c wi ->
  requests [3 :: q] w qn -> cut_count p -> frames qn p wi qe ->
  exists c1, query q c = (Err (EProtocol too_short), c1) /\ s_out (c_stream c1) = s_out (c_stream c) ++ w /\
    forall cmds, let c' := fold_left (fun c x => snd (execute_command (fst x) (snd x) c)) cmds c1 in
      s_out (c_stream c') = s_out (c_stream c) ++ w /\
      forall cmd data, fst (execute_command cmd data c') = Err (EProtocol (PIo (s_end (c_stream c)))).
Proof. exact cut_query. Qed.
Print Assumptions C109_cut_refuted.

(** Half a number of two bytes. *)
Example C109_cut_case :
  let c := idle (frame 1 [252; 1]) in
  let c1 := snd (query (s2l "q") c) in
  Z.testbit (c_caps c) DEPRECATE_EOF_BIT = true /\ between c (frame 1 [252; 1]) /\ cut_count [252; 1] /\
  fst (query (s2l "q") c) = Err (EProtocol too_short) /\ c_pending c1 = true /\
  s_out (c_stream (snd (execute_command 14 [] c1))) = frame 0 [3; 113].
Proof.
  cbv zeta. split; [vm_compute; reflexivity|]. split.
  { split; [vm_compute; split; congruence|]. split; [reflexivity|]. left. split; reflexivity. }
  split; [apply cut_two; cbn [length]; lia|]. vm_compute. repeat split.
Qed.

(** "Unexpected packet" for a column definition, and "invalid packet" for an error packet, never show
    the packet. *)
Theorem C109_not_shown_refuted :
  (forall p r, Forall (fun b => 0 <= b < 256) p -> read_column p = Err (PUnexpectedPacket r) -> r <> p) /\
  (forall caps t r, Forall (fun b => 0 <= b < 256) t -> read_err (255 :: t) caps = Err (PInvalidPacket r) -> r <> 255 :: t).
Proof. split; [exact column_not_shown | exact error_not_shown]. Qed.
Print Assumptions C109_not_shown_refuted.

(** Both errors occur. *)
Example C109_not_shown_case :
  read_column [3; 120; 121; 122; 9] = Err (PUnexpectedPacket [9]) /\
  read_err [255; 21; 4; 33; 65; 66] 512 = Err (PInvalidPacket [65; 66]).
Proof. vm_compute. repeat split. Qed.
