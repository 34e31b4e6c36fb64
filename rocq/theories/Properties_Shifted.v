(** Property C72: the answer that came too late is taken for the next one, whatever was asked. *)
From Coq Require Import String ZArith List Bool Lia.
From Verif Require Import Base BaseFacts Types Utf8 ParseBuf BufMut Spec_Wire ParseBuf_proofs Framing Framing_proofs
  Spec_Conv Packets Spec_Packets Packets_proofs Crypt Handshake ValueBin Spec_Stmt StmtPackets StmtPackets_proofs ValueText Rows Rows_proofs
  Conversion Auth Auth_proofs Conn Spec_Conn Conn_proofs Fault_proofs Shifted_proofs Properties_Command Properties_Fault.
Import ListNotations.
Open Scope Z_scope.

(** A use [u1] fails because nothing of its answer [a] comes in time.  Then that answer arrives, and
    more after it.  Whatever is asked next ([u2]) gets [a] for its answer - all the user sees is what
    [a] says of [u2] - and the uses after it each get what comes next, which is the answer to the use
    before.  No error is ever reported. *)
Theorem C72_shifted_refuted : forall A (decode : list column -> bytes -> res error A) u1 u2 a y2 w1 w2 q pkts wi qe c,
  Z.testbit (c_caps c) DEPRECATE_EOF_BIT = true -> use_ok u1 -> use_ok u2 ->
  requests (use_packets u1) w1 q -> requests (use_packets u2) w2 q ->
  answer_packets (c_caps c) a pkts -> framed q pkts wi qe -> expected decode u2 a y2 -> between c [] ->
  exists c1, run_use decode u1 c = (SFailed (EProtocol (PIo (s_end (c_stream c)))), c1) /\
  forall h i o rest, history decode (c_caps c) use_packets h i o ->
  exists c2, run_uses decode (u2 :: map fst h) (arrive (wi ++ i ++ rest) c1) = (y2 :: map snd h, c2) /\ between c2 rest /\
    s_out (c_stream c2) = s_out (c_stream c) ++ w1 ++ w2 ++ o.
Proof. exact shifted. Qed.
Print Assumptions C72_shifted_refuted.

(** Two queries: the second gets the row of the first. *)
Example C72_shifted_case :
  let run := run_use (A := bytes) (fun _ p => Ok p) in
  let c1 := snd (run (UQuery (s2l "p") 2) (slow [])) in
  let first := frame 1 [1] ++ frame 2 column_packet ++ frame 3 [1; 97] ++ frame 4 [254; 0; 0; 2; 0; 0; 0] in
  let second := frame 1 [1] ++ frame 2 column_packet ++ frame 3 [1; 98] ++ frame 4 [254; 0; 0; 2; 0; 0; 0] in
  fst (run (UQuery (s2l "p") 2) (slow [])) = SFailed (EProtocol (PIo IoTimedOut)) /\
  fst (run_uses (fun _ p => Ok p) [UQuery (s2l "q") 2; UQuery (s2l "r") 1] (arrive (first ++ second) c1)) =
    [SRows [some_column] [Ok (Some [1; 97]); Ok None]; SRows [some_column] [Ok (Some [1; 98])]].
Proof. vm_compute. split; reflexivity. Qed.
