(** Property C47: result sets of servers without DEPRECATE_EOF, for all of them. *)
From Coq Require Import String ZArith List Bool Lia.
From Verif Require Import Base BaseFacts Types Utf8 ParseBuf BufMut Spec_Wire ParseBuf_proofs Framing Framing_proofs
  Spec_Conv Packets Spec_Packets Packets_proofs Crypt Handshake ValueBin Spec_Stmt Spec_Text StmtPackets ValueText Rows Rows_proofs
  ValueText_proofs Conversion Auth Auth_proofs Conn Spec_Conn Conn_proofs Spec_OldServer OldServer_proofs
  Properties_Handshake Properties_Auth Properties_Command Properties_Connect.
Import ListNotations.
Open Scope Z_scope.
Open Scope io_scope.

(** On a connection without DEPRECATE_EOF no query delivers a row, whatever the columns and rows are and however they
    are decoded: the first read is an error.  The command after it is refused without being sent; then the connection
    is in order again.  If no read was tried, the command after the query is refused as well, but then the rows and
    their end ([late]) are left on the wire, in front of the answers to later commands. *)
Theorem C47_old_server_refuted : forall A (decode : list column -> bytes -> res error A) q c cols rows pkts w wi qn qe rest,
  Z.testbit (c_caps c) DEPRECATE_EOF_BIT = false ->
  0 <= c_seq c < 256 -> s_budget (c_stream c) = None -> c_pending c = false -> s_in (c_stream c) = wi ++ rest ->
  requests [3 :: q] w qn -> old_answer cols rows pkts -> framed qn pkts wi qe ->
  exists c1 c2 late,
    query q c = (Ok (mkSet cols None), c1) /\ s_out (c_stream c1) = s_out (c_stream c) ++ w /\
    rs_next decode (c1, mkSet cols None) = (Err (EProtocol peof), (c2, mkSet cols None)) /\
    collect decode (c1, mkSet cols None) = (Err (EProtocol peof), (c2, mkSet cols None)) /\
    (forall cmd data, exists c3, execute_command cmd data c2 = (Err (EProtocol peof), c3) /\
       s_out (c_stream c3) = s_out (c_stream c1) /\ c_pending c3 = false /\ s_in (c_stream c3) = rest) /\
    (exists q1, framed q1 (rows ++ [last pkts []]) late qe) /\
    (forall cmd data, exists c3, execute_command cmd data c1 = (Err (EProtocol peof), c3) /\
       s_out (c_stream c3) = s_out (c_stream c1) /\ c_pending c3 = false /\ s_in (c_stream c3) = late ++ rest).
Proof.
  intros A decode q c cols rows pkts w wi qn qe rest Hc Hs Hb Hp Hi Hr Ha Hf.
  destruct (old_query A decode q c cols rows pkts w wi qn qe rest) as (c1 & c2 & late & E & O & N & C & X & L & Y); auto.
  { split; [exact Hs|]. split; [exact Hb|]. split; assumption. }
  exists c1, c2, late. do 4 (split; [assumption|]). split; [|split; [exact L|]].
  - intros cmd data. destruct (X cmd data) as (c3 & E3 & O3 & _ & _ & P3 & I3). now exists c3.
  - intros cmd data. destruct (Y cmd data) as (c3 & E3 & O3 & _ & _ & P3 & I3). now exists c3.
Qed.
Print Assumptions C47_old_server_refuted.

(** One column, two rows; the column and the frames of [C46_case].  The query after the next (the next is refused)
    takes the rows of the first for its answer, if none was read, and is told that the packets are out of sync. *)
Definition old_packets : list bytes :=
  [[1]; column_packet; [254; 0; 0; 2; 0]; [1; 97]; [1; 98]; [254; 0; 0; 2; 0]].
Definition old_input : bytes :=
  frame 1 [1] ++ frame 2 column_packet ++ frame 3 [254; 0; 0; 2; 0] ++ frame 4 [1; 97] ++ frame 5 [1; 98] ++ frame 6 [254; 0; 0; 2; 0] ++ [].
Definition old_conn : conn :=
  mkConn (mkStream (old_input ++ frame 1 ok_packet_bytes) IoUnexpectedEof [] None) 0
    (mkData 1 false (5, 6, 0) (0x200 + 0x8000 + 0x2000 + 0x40000 + 0x80000) [] None PNative false 4194304) false.
Example C47_old_server_case :
  Z.testbit (c_caps old_conn) DEPRECATE_EOF_BIT = false /\ old_answer [some_column] [[1; 97]; [1; 98]] old_packets /\
  framed 1 old_packets old_input 7 /\
  match query (s2l "q") old_conn with
  | (Ok rs, c1) => 
    match execute_command 3 (s2l "a") c1 with
    | (r, c2) => r = Err (EProtocol peof) /\ fst (query (s2l "b") c2) = Err (EProtocol POutOfSync)
    end
  | _ => False
  end.
Proof.
  split; [reflexivity|]. split; [|split].
  - exists [column_packet], [254; 0; 0; 2; 0], [254; 0; 0; 2; 0], 2, 0, 2, 0.
    assert (E : old_eof 2 0 [254; 0; 0; 2; 0]) by (split; [lia|]; split; [lia | reflexivity]).
    splits; try exact E; try reflexivity; [discriminate | |].
    + constructor; [exact column_packet_layout | constructor].
    + repeat constructor; eexists _, _; (split; [reflexivity|]); split; intros; lia.
  - unfold old_packets, old_input. framed_by.
  - vm_compute. split; reflexivity.
Qed.

(** Preparing a statement on such a connection succeeds, but leaves as many packets of the answer on the wire as it has
    EOF packets: one if the statement has parameters, one if it returns columns.  If there are any, the next query takes
    the first of them for its answer, and is told that the packets are out of sync (unless its number happens to fit). *)
Theorem C46_old_prepare_refuted : forall text c id params columns pkts w wi qn qe rest,
  0 <= c_seq c < 256 -> s_budget (c_stream c) = None -> c_pending c = false -> s_in (c_stream c) = wi ++ rest ->
  requests [22 :: text] w qn -> old_prepared id params columns pkts -> framed qn pkts wi qe ->
  exists c1 left q1 late, prepare_statement text c = (Ok (mkPrepared id params), c1) /\
    length left = eofs params columns /\ (exists taken, pkts = taken ++ left) /\ framed q1 left late qe /\
    s_in (c_stream c1) = late ++ rest /\ c_pending c1 = false /\ s_out (c_stream c1) = s_out (c_stream c) ++ w /\
    forall next w' q', frames 0 (3 :: next) w' q' -> left <> [] -> q1 <> q' ->
      fst (query next c1) = Err (EProtocol POutOfSync).
Proof.
  intros text c id params columns pkts w wi qn qe rest Hs Hb Hp Hi Hr Ho Hf.
  destruct (old_prepare text c id params columns pkts w wi qn qe rest) as (c1 & left & q1 & late & E & L & T & Fl & Hcl & O); auto.
  { split; [exact Hs|]. split; [exact Hb|]. split; assumption. }
  exists c1, left, q1, late. destruct Hcl as (B & N & P & I).
  split; [exact E|]. split; [exact L|]. split; [exact T|]. split; [exact Fl|]. split; [exact I|]. split; [exact P|]. split; [exact O|].
  intros next w' q' Fw Hn Nq. apply (next_misnumbered c1 left late qe rest q1 next w' q'); auto.
  split; [exact B|]. split; [exact N|]. split; assumption.
Qed.
Print Assumptions C46_old_prepare_refuted.

(** A statement with one parameter and one column: two packets are left, the definition of the column and an EOF packet. *)
Example C46_old_prepare_case :
  let stmt := [0; 7; 0; 0; 0; 1; 0; 1; 0; 0; 0; 0] in
  let pkts := [stmt; column_packet; [254; 0; 0; 2; 0]; column_packet; [254; 0; 0; 2; 0]] in
  let wi := frame 1 stmt ++ frame 2 column_packet ++ frame 3 [254; 0; 0; 2; 0] ++ frame 4 column_packet ++ frame 5 [254; 0; 0; 2; 0] ++ [] in
  old_prepared 7 1 1 pkts /\ framed 1 pkts wi 6 /\ eofs 1 1 = 2%nat /\
  match prepare_statement (s2l "p") (idle wi) with
  | (Ok p, c1) => p = mkPrepared 7 1 /\ s_in (c_stream c1) = frame 4 column_packet ++ frame 5 [254; 0; 0; 2; 0] /\
      fst (query (s2l "next") c1) = Err (EProtocol POutOfSync)
  | _ => False
  end.
Proof.
  cbv zeta. split; [|split; [|split]].
  - exists 0, [7; 0; 0; 0; 1; 0; 1; 0; 0; 0; 0], [column_packet], [column_packet],
      [column_packet; [254; 0; 0; 2; 0]], [column_packet; [254; 0; 0; 2; 0]].
    assert (E : then_eof [column_packet] [column_packet; [254; 0; 0; 2; 0]]).
    { right. split; [discriminate|]. exists [254; 0; 0; 2; 0], 2, 0. split; [|reflexivity]. split; [lia|]. split; [lia | reflexivity]. }
    split; [|splits; try exact E; reflexivity].
    unfold stmt_layout. splits; try lia. exists 0, 0, []. reflexivity.
  - framed_by.
  - reflexivity.
  - vm_compute. repeat split.
Qed.

(** So, if the options give no packet limit, connecting to such a server always fails, after the user has been
    authenticated: the limit is asked for with a query. *)
Theorem C73_old_server_refuted : forall pr debug other f32 f64 secure o s d s1 q cols rows pkts w wi qn qe rest,
  authenticate wire_transport pr debug other secure o (s, 0) = (Ok d, (s1, q)) ->
  o_max_allowed_packet o = None -> Z.testbit (d_capabilities d) DEPRECATE_EOF_BIT = false ->
  0 <= q < 256 -> s_budget s1 = None -> s_in s1 = wi ++ rest ->
  requests [3 :: s2l "select @@max_allowed_packet"] w qn -> old_answer cols rows pkts -> framed qn pkts wi qe ->
  fst (connect pr debug other f32 f64 secure o s) = Err (EProtocol peof).
Proof.
  intros pr debug other f32 f64 secure o s d s1 q cols rows pkts w wi qn qe rest Ea Ho Hc Hq Hb Hi Hr Ha Hf.
  unfold connect. rewrite Ea.
  pose proof (old_settings debug f32 f64 o (mkConn s1 q d false) cols rows pkts w wi qn qe rest Ho Hc) as E.
  destruct (read_settings debug f32 f64 o (mkConn s1 q d false)) as [r c]. cbn [fst] in E. rewrite E; auto.
  split; [exact Hq|]. split; [exact Hb|]. split; [reflexivity | exact Hi].
Qed.
Print Assumptions C73_old_server_refuted.

(** The server of [C73_connect_refuted], after authentication. *)
Example C73_old_server_case : exists d s1 q wi,
  authenticate wire_transport flat_prims true (fun _ => true) false known_key_options
    (mkStream old_server_input IoUnexpectedEof [] None, 0) = (Ok d, (s1, q)) /\
  o_max_allowed_packet known_key_options = None /\ Z.testbit (d_capabilities d) DEPRECATE_EOF_BIT = false /\
  0 <= q < 256 /\ s_budget s1 = None /\ s_in s1 = wi ++ [] /\
  framed 1 [[1]; limit_column; [254; 0; 0; 2; 0]; 8 :: s2l "67108864"; [254; 0; 0; 2; 0]] wi 6.
Proof.
  match goal with |- context [authenticate ?a ?b ?c ?d ?e ?f ?g] => destruct (authenticate a b c d e f g) as [r [s q]] eqn:E end.
  vm_compute in E. injection E as <- <- <-.
  eexists _, _, _, (frame 1 [1] ++ frame 2 limit_column ++ frame 3 [254; 0; 0; 2; 0] ++ frame 4 (8 :: s2l "67108864") ++ frame 5 [254; 0; 0; 2; 0] ++ []).
  split; [reflexivity|]. split; [reflexivity|]. split; [vm_compute; reflexivity|]. split; [lia|]. split; [reflexivity|].
  split; [vm_compute; reflexivity|]. framed_by.
Qed.
