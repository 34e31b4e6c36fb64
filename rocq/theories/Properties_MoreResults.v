(** Property C46: commands with several results. *)
From Coq Require Import String ZArith List Bool Lia.
From Verif Require Import Base BaseFacts Types Utf8 ParseBuf BufMut Spec_Wire ParseBuf_proofs Framing Framing_proofs
  Spec_Conv Packets Spec_Packets Packets_proofs Crypt Handshake ValueBin Spec_Stmt StmtPackets ValueText Rows Rows_proofs
  Conversion Auth Auth_proofs Conn Spec_Conn Conn_proofs Fault_proofs MoreResults_proofs Properties_Command.
Import ListNotations.
Open Scope Z_scope.

(** After any history: if the last answer is followed by further results of the same command, whatever
    they are, the next use is sent and then fails as out of sync.  ([q1] is the number of the first
    further packet, [q] the one expected of an answer; the two agree for one count of packets out of 256.) *)
Theorem C46_more_results_refuted : forall A (decode : list column -> bytes -> res error A) h i o c q1 more wm qe rest u w q,
  history decode (c_caps c) use_packets h i o -> Z.testbit (c_caps c) DEPRECATE_EOF_BIT = true ->
  between c (i ++ wm ++ rest) -> framed q1 more wm qe -> more <> [] ->
  use_ok u -> requests (use_packets u) w q -> q1 <> q ->
  exists c', run_uses decode (map fst h ++ [u]) c = (map snd h ++ [SFailed (EProtocol POutOfSync)], c') /\
    s_out (c_stream c') = s_out (c_stream c) ++ o ++ w.
Proof.
  intros A decode h i o c q1 more wm qe rest u w q Hh Hd Hb Hf Hm Hu Hr Nq.
  destruct (run_uses_history A decode (c_caps c) h i o Hh Hd c (wm ++ rest) eq_refl Hb) as (c1 & E & B & D & O).
  assert (Hd1 : Z.testbit (c_caps c1) DEPRECATE_EOF_BIT = true) by (unfold c_caps in *; now rewrite D).
  destruct (use_misnumbered A decode u w q q1 more wm qe c1 rest Hd1 Hu Hr Hf Hm Nq B) as (X & Y).
  rewrite (run_uses_app _ _ _ _ _ _ _ E). cbn [run_uses].
  destruct (run_use decode u c1) as [x c2]. cbn [fst snd] in *. rewrite X.
  exists c2. split; [reflexivity|]. now rewrite Y, O, app_assoc.
Qed.
Print Assumptions C46_more_results_refuted.

(** The history of [C46_case] with a second result (an OK packet) behind its last answer; then a query. *)
Example C46_more_results_case :
  framed 2 [ok_packet_bytes] (frame 2 ok_packet_bytes ++ []) 3 /\
  requests (use_packets (UQuery (s2l "p") 0)) (frame 0 [3; 112]) 1 /\
  fst (run_uses (fun _ p => Ok p) (map fst c46_history ++ [UQuery (s2l "p") 0])
    (idle (c46_input ++ (frame 2 ok_packet_bytes ++ []) ++ frame 1 ok_packet_bytes))) =
  map snd c46_history ++ [SFailed (EProtocol POutOfSync)].
Proof.
  split; [framed_by|]. split; [constructor; apply frame_frames; vm_compute; reflexivity | vm_compute; reflexivity].
Qed.
