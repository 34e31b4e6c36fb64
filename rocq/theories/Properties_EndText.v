(** Properties C46 and C47, when the packet that ends a result set has a text (see C30 for what is
    read from it).  Servers that are not asked to track the state of the session rarely send one
    there, but the protocol allows it. *)
From Coq Require Import String ZArith List Bool Lia.
From Verif Require Import Base BaseFacts Types Utf8 ParseBuf BufMut Spec_Wire ParseBuf_proofs Framing Framing_proofs
  Spec_Conv Packets Spec_Packets Packets_proofs Crypt Handshake ValueBin Spec_Stmt Spec_Text StmtPackets ValueText Rows Rows_proofs
  ValueText_proofs Conversion Auth Auth_proofs Conn Spec_Conn Conn_proofs Fault_proofs LongEnd_proofs EndText_proofs Properties_Command.
Import ListNotations.
Open Scope Z_scope.
Open Scope io_scope.

(** With a text of two to six bytes, whatever status and warnings are: reading the set ends with an
    error, and the set counts as open although it has been read to its end.  The server waits for a
    command; the client, before any command, for the end of the set.  So no command is ever sent
    again, however many are tried. *)
Theorem C46_end_text_refuted : forall A (decode : list column -> bytes -> res error A) cols c status warnings text w q,
  Z.testbit (c_caps c) DEPRECATE_EOF_BIT = true -> 0 <= c_seq c < 256 -> c_pending c = true ->
  (2 <= length text <= 6)%nat ->
  frames (c_seq c) (254 :: 0 :: 0 :: wire_uint 2 status ++ wire_uint 2 warnings ++ text) w q -> s_in (c_stream c) = w ->
  exists c', rs_next decode (c, mkSet cols None) = (Err (EProtocol peof), (c', mkSet cols None)) /\
    s_out (c_stream c') = s_out (c_stream c) /\
    forall cmds, let c'' := fold_left (fun c x => snd (execute_command (fst x) (snd x) c)) cmds c' in
      s_out (c_stream c'') = s_out (c_stream c) /\
      forall cmd data, fst (execute_command cmd data c'') = Err (EProtocol (PIo (s_end (c_stream c)))).
Proof.
  intros A decode cols c status warnings text w q Hc Hs Hp L Hf Hi.
  exists (moved c [] q). split; [|split; [reflexivity|]].
  - eapply next_text; eauto. now rewrite app_nil_r.
  - intros cmds. apply (starved_ever cmds (moved c [] q)); [exact Hp | reflexivity | eapply frames_seq_ok; eauto].
Qed.
Print Assumptions C46_end_text_refuted.

(** If the set is left unread instead, the next command is refused without being sent, but the one
    after it finds the connection in order. *)
Theorem C46_end_text_unread_refuted : forall c status warnings text w q rest cmd data,
  Z.testbit (c_caps c) DEPRECATE_EOF_BIT = true -> 0 <= c_seq c < 256 -> c_pending c = true ->
  (2 <= length text <= 6)%nat ->
  frames (c_seq c) (254 :: 0 :: 0 :: wire_uint 2 status ++ wire_uint 2 warnings ++ text) w q -> s_in (c_stream c) = w ++ rest ->
  exists c', execute_command cmd data c = (Err (EProtocol peof), c') /\
    c_pending c' = false /\ s_in (c_stream c') = rest /\ s_out (c_stream c') = s_out (c_stream c) /\ c_data c' = c_data c.
Proof.
  intros c status warnings text w q rest cmd data Hc Hs Hp L Hf Hi. eexists.
  split; [eapply command_text; eauto|]. repeat split.
Qed.
Print Assumptions C46_end_text_unread_refuted.

(** A query with one row, the end saying "done": the row is read, then an error, and the next query
    is never sent. *)
Example C46_end_text_case :
  let wi := frame 1 [1] ++ frame 2 column_packet ++ frame 3 [1; 97] ++ frame 4 ([254; 0; 0; 2; 0; 0; 0] ++ s2l "done") ++ [] in
  terminator (Z.testbit some_caps SESSION_TRACK_BIT) InfoEof 2 0 (s2l "done") [] ([254; 0; 0; 2; 0; 0; 0] ++ s2l "done") /\
  framed 1 [wire_lenenc 1; column_packet; [1; 97]; [254; 0; 0; 2; 0; 0; 0] ++ s2l "done"] wi 5 /\
  match query (s2l "q") (idle wi) with
  | (Ok rs, c1) =>
    match rs_next (text_rows true (fun _ => None) (fun _ => None)) (c1, rs) with
    | (r1, s1) =>
      r1 = Ok (Some [VBytes [97]]) /\
      match rs_next (text_rows true (fun _ => None) (fun _ => None)) s1 with
      | (r2, (c2, _)) => r2 = Err (EProtocol peof) /\
          fst (query (s2l "next") c2) = Err (EProtocol (PIo IoUnexpectedEof)) /\
          s_out (c_stream (snd (query (s2l "next") c2))) = s_out (c_stream c1)
      end
    end
  | _ => False
  end.
Proof.
  cbv zeta. split; [|split].
  - exists ([0; 0; 2; 0; 0; 0] ++ s2l "done"). split; [|reflexivity].
    exists [0], [0], (s2l "done"). split; [apply lenenc_1; lia|]. split; [apply lenenc_1; lia|].
    split; [lia|]. split; [lia|]. split; [|reflexivity].
    apply oi_eof. apply decode_text; [repeat constructor; lia | reflexivity].
  - change (wire_lenenc 1) with [1]. framed_by.
  - vm_compute. repeat split.
Qed.
