(** Properties C46-C51: commands and their responses. *)
From Coq Require Import String ZArith List Bool Lia.
From Verif Require Import Base BaseFacts Types Utf8 ParseBuf BufMut Spec_Wire ParseBuf_proofs Framing Framing_proofs
  Spec_Conv Packets Spec_Packets Packets_proofs Crypt Handshake ValueBin Spec_Stmt Spec_Text StmtPackets ValueText Rows Rows_proofs
  ValueText_proofs Conversion Auth Auth_proofs Conn Spec_Conn Conn_proofs.
Import ListNotations.
Open Scope Z_scope.
Open Scope io_scope.

(** ** Concrete data for the examples *)

(** What a client without options asks for (Handshake.client_capabilities): protocol 4.1, secure
    connection, transactions, multiple results of prepared statements, DEPRECATE_EOF, plugins. *)
Definition some_caps : Z := 0x200 + 0x8000 + 0x2000 + 0x40000 + 0x1000000 + 0x80000.
Definition some_data : conn_data := mkData 1 false (8, 0, 36) some_caps [] None PNative false 4194304.
Definition idle (input : bytes) : conn := mkConn (mkStream input IoUnexpectedEof [] None) 0 some_data false.
Definition some_column : column := mkColumn [] (s2l "c") [] [] CVarString 0.
Definition column_packet : bytes :=
  [3; 100; 101; 102; 0; 0; 0; 1; 99; 0; 12; 33; 0; 255; 0; 0; 0; 253; 0; 0; 0; 0; 0].
Definition ok_packet_bytes : bytes := [0; 0; 0; 2; 0; 0; 0].
Definition frame (seq : Z) (p : bytes) : bytes := wire_uint 3 (Z.of_nat (length p)) ++ [seq] ++ p.

Lemma frame_frames : forall seq p, Z.of_nat (length p) < 2 ^ 24 - 1 -> frames seq p (frame seq p) (next_seq seq).
Proof. intros. now apply frames_last. Qed.
Lemma column_packet_layout : column_layout_by short_name_text some_column column_packet.
Proof.
  assert (N : short_name_text [] [0]).
  { split; [|cbn; lia]. exists []. split; [constructor | reflexivity]. }
  exists [], [0], [0], [0], [1; 99], [0], 33, 255, 253, 0, [0; 0]. splits; try exact N; try lia; try reflexivity.
  - split; [|cbn; lia]. exists [99]. split; [|reflexivity]. apply utf8_text_ascii. repeat constructor; lia.
  - cbn. tauto.
Qed.
Lemma ok_packet_layout : ok_layout (Z.testbit some_caps SESSION_TRACK_BIT) InfoAbsent 0 0 2 0 [] [] ok_packet_bytes.
Proof.
  exists [0; 0; 2; 0; 0; 0]. split; [|reflexivity]. exists [0], [0], []. splits; try lia; try reflexivity; constructor; lia.
Qed.

Ltac framed_by := repeat (first [apply framed_nil | eapply framed_cons; [apply frame_frames; cbn; lia|]]).

(** ** C46 *)

(** Each use of the connection sees its own answer: for any decoder of rows, any history of
    uses and answers, any number of rows read before a set is dropped.  [packets] are the packets
    of each use, read by the server as what was asked.  [between c rest] says: what comes before
    [rest] on the wire is nothing or the tail of a result set that has been dropped.  Missing:
    answers with several result sets (refuted below) and connections without DEPRECATE_EOF (C47). *)
Theorem C46_own_responses_partial : exists packets : use -> list (list Z),
  (forall u, use_ok u -> request u (packets u)) /\
  forall A (decode : list column -> bytes -> res error A) caps h i o,
  history decode caps packets h i o -> Z.testbit caps DEPRECATE_EOF_BIT = true ->
  forall c rest, c_caps c = caps -> between c (i ++ rest) ->
  exists c', run_uses decode (map fst h) c = (map snd h, c') /\ between c' rest /\ c_data c' = c_data c /\
    s_out (c_stream c') = s_out (c_stream c) ++ o.
Proof.
  exists use_packets. split.
  - intros u H. now apply use_packets_request.
  - intros A decode caps h i o H Hd c rest Hc Hb. eapply run_uses_history; eauto.
Qed.
Print Assumptions C46_own_responses_partial.

(** Two rows of which one is read, then a statement without rows. *)
Definition c46_history : list (use * seen bytes) :=
  [(UQuery (s2l "q") 1, SRows [some_column] [Ok (Some [1; 97])]);
   (UExecute (s2l "e"), SDone 0 0 2 0 None None)].
Definition c46_input : bytes :=
  (frame 1 [1] ++ frame 2 column_packet ++ frame 3 [1; 97] ++ frame 4 [1; 98] ++ frame 5 [254; 0; 0; 2; 0; 0; 0] ++ []) ++
  (frame 1 ok_packet_bytes ++ []) ++ [].
Example C46_case :
  history (fun _ p => Ok p) some_caps use_packets c46_history c46_input (frame 0 [3; 113] ++ frame 0 [3; 101] ++ []) /\
  between (idle c46_input) (c46_input ++ []) /\
  fst (run_uses (fun _ p => Ok p) (map fst c46_history) (idle c46_input)) = map snd c46_history.
Proof.
  split; [|split].
  - unfold c46_history, c46_input. eapply history_cons.
    + exact I.
    + constructor. apply frame_frames. cbn. lia.
    + apply (ap_rows some_caps [some_column] [column_packet] [[1; 97]; [1; 98]] 2 0 [254; 0; 0; 2; 0; 0; 0]).
      * discriminate.
      * constructor; [exact column_packet_layout | constructor].
      * repeat constructor; eexists _, _; (split; [reflexivity|]); split; intros; lia.
      * split; [split; [lia | intros H; discriminate] | split; [lia | reflexivity]].
      * reflexivity.
      * reflexivity.
    + cbn [app]. framed_by.
    + apply (ex_query_rows (fun _ p => Ok p) (s2l "q") 1 [some_column] [[1; 97]; [1; 98]]). repeat constructor; discriminate.
    + eapply history_cons.
      * exact I.
      * constructor. apply frame_frames. cbn. lia.
      * eapply (ap_ok some_caps InfoAbsent 0 0 2 0 [] []); [discriminate | exact ok_packet_layout | | reflexivity].
        split; [lia | intros H; discriminate].
      * framed_by.
      * apply ex_execute.
      * constructor.
  - split; [unfold byte_ok; cbn; lia|]. split; [reflexivity|]. left. split; [reflexivity|]. now rewrite app_nil_r.
  - vm_compute. reflexivity.
Qed.

(** A statement that calls a procedure: the client has announced PS_MULTI_RESULTS, so the server
    sends the rows with MORE_RESULTS_EXISTS set, and a final OK packet.  That packet is left in the
    stream, and the next command fails. *)
Theorem C46_own_responses_refuted : exists c w1 w2,
  Z.testbit (c_caps c) 18 = true /\ Z.testbit (c_caps c) DEPRECATE_EOF_BIT = true /\
  Z.testbit 10 MORE_RESULTS_BIT = true /\ known_status 10 /\
  framed 1 [wire_lenenc 1; column_packet; [0; 0; 1; 97]; [254; 0; 0; 10; 0; 0; 0]; ok_packet_bytes] w1 6 /\
  framed 1 [ok_packet_bytes] w2 2 /\
  s_in (c_stream c) = w1 ++ w2 /\ c_pending c = false /\
  fst (run_uses bin_rows [UStmtQuery 7 0 [] 3; UExecute (s2l "e")] c) =
    [SRows [some_column] [Ok (Some [VBytes [97]]); Ok None; Ok None]; SFailed (EProtocol POutOfSync)].
Proof.
  set (w1 := frame 1 [1] ++ frame 2 column_packet ++ frame 3 [0; 0; 1; 97] ++ frame 4 [254; 0; 0; 10; 0; 0; 0] ++
             frame 5 ok_packet_bytes ++ []).
  exists (idle (w1 ++ frame 1 ok_packet_bytes ++ [])), w1, (frame 1 ok_packet_bytes ++ []).
  splits; try reflexivity.
  - split; [lia | intros H; discriminate].
  - unfold w1. change (wire_lenenc 1) with [1]. framed_by.
  - framed_by.
Qed.
Print Assumptions C46_own_responses_refuted.

(** ** C47 *)

(** A query answered with rows, for any decoder: collecting returns all rows in order (or the
    first failure), leaves the rest of the wire alone, and afterwards there are no rows and the
    connection is not touched.  Missing: connections without DEPRECATE_EOF (refuted below). *)
Theorem C47_rows_in_order_partial :
  forall A (decode : list column -> bytes -> res error A) q c cols rows pkts w wi qn qe rest,
  Z.testbit (c_caps c) DEPRECATE_EOF_BIT = true ->
  requests [3 :: q] w qn -> answer_packets (c_caps c) (ARows cols rows) pkts -> framed qn pkts wi qe ->
  between c (wi ++ rest) ->
  exists c1, query q c = (Ok (mkSet cols None), c1) /\
  (exists c2 rs, collect decode (c1, mkSet cols None) = (all_rows decode cols rows, (c2, rs)) /\ between c2 rest /\
     s_out (c_stream c2) = s_out (c_stream c) ++ w /\
     (forall l, all_rows decode cols rows = Ok l ->
        c_pending c2 = false /\ s_in (c_stream c2) = rest /\
        forall k, nexts decode k (c2, rs) = (repeat (Ok None) k, (c2, rs)))) /\
  (forall l, all_rows decode cols rows = Ok l ->
     (exists c2 x, one decode (c1, mkSet cols None) = (Ok (hd_error l), (c2, mkSet cols (Some x))) /\
        c_pending c2 = false /\ s_in (c_stream c2) = rest) /\
     (exists c2 x, finish decode (c1, mkSet cols None) = (Ok x, (c2, mkSet cols (Some x))) /\
        c_pending c2 = false /\ s_in (c_stream c2) = rest)).
Proof.
  intros A decode q c cols rows pkts w wi qn qe rest Hc Hr Ha Hf Hb.
  destruct (write_command_between (3 :: q) c _ Hc Hb) as (w0 & q0 & F0 & c1 & E & As).
  assert (w0 = w /\ q0 = qn) as (-> & ->). { inversion Hr as [? ? ? F|? ? ? ? ? ? ? R]; subst; [exact (frames_det _ _ _ _ F0 _ _ F) | inversion R]. }
  destruct (rs_read_opens (c_caps c) c1 cols rows pkts wi qe rest) as (c2 & E2 & O & S); auto; try (rewrite As; auto; fail).
  { rewrite As. cbn. eapply frames_seq_ok; [exact F0 | unfold byte_ok; lia]. }
  exists c2. assert (Hc2 : Z.testbit (c_caps c2) DEPRECATE_EOF_BIT = true).
  { unfold c_caps. destruct S as (-> & _). rewrite As. exact Hc. }
  assert (So : s_out (c_stream c2) = s_out (c_stream c) ++ w). { destruct S as (_ & ->). rewrite As. reflexivity. }
  split; [|split].
  - unfold query. change (execute_command COM_QUERY q) with (write_command (3 :: q)). rewrite iob, E. exact E2.
  - destruct (collect_set A decode cols rows c2 rest Hc2 O) as (c3 & rs & E3 & B & (_ & So3) & R).
    exists c3, rs. split; [exact E3|]. split; [assumption|]. split; [now rewrite So3|].
    intros l H. destruct (R l H) as ((_ & _ & P1 & P2) & N). auto.
  - intros l H. split.
    + destruct (one_rows A decode cols rows c2 rest l Hc2 O H) as (c3 & x & E3 & (_ & _ & P1 & P2) & _). exists c3, x. auto.
    + destruct (finish_rows A decode cols rows c2 rest l Hc2 O H) as (c3 & x & E3 & (_ & _ & P1 & P2) & _). exists c3, x. auto.
Qed.
Print Assumptions C47_rows_in_order_partial.

(** For the two protocols: the values of every row the server has written. *)
Theorem C47_binary_values : forall cols vss rows,
  Forall2 (bin_row (map (fun c => (col_type c, has_flag (col_flags c) UNSIGNED_FLAG)) cols)) vss rows ->
  Forall row_packet rows /\ all_rows bin_rows cols rows = Ok vss.
Proof.
  intros cols vss rows H. induction H as [|vs p vss rows Hp Hr IH]; [split; [constructor | reflexivity]|].
  destruct IH as (R & E). split.
  - constructor; [|assumption]. destruct Hp as (bm & w & _ & _ & ->). exists 0, (bm ++ w). split; [reflexivity|]. split; intros; lia.
  - cbn [all_rows]. unfold bin_rows at 1. pose proof (bin_row_ok cols vs p [] Hp) as B. rewrite app_nil_r in B.
    rewrite B. cbn. now rewrite E.
Qed.
Print Assumptions C47_binary_values.

Theorem C47_text_values :
  forall (f32_text f64_text : Z -> list Z -> Prop) (f32 f64 : str -> option Z) debug cols vss rows,
  (forall x l, f32_text x l -> Forall (fun c => 0 <= c < 128) l /\ f32 l = Some x) ->
  (forall x l, f64_text x l -> Forall (fun c => 0 <= c < 128) l /\ f64 l = Some x) ->
  Forall2 (text_row f32_text f64_text (map (fun c => (col_type c, has_flag (col_flags c) UNSIGNED_FLAG)) cols)) vss rows ->
  Forall (fun c => col_type c <> CLongBlob) cols ->
  all_rows (text_rows debug f32 f64) cols rows = Ok vss.
Proof.
  intros f32_text f64_text f32 f64 debug cols vss rows H1 H2 H Hc.
  induction H as [|vs p vss rows Hp Hr IH]; [reflexivity|].
  cbn [all_rows]. unfold text_rows at 1.
  pose proof (text_row_ok' f32_text f64_text f32 f64 debug cols vs p [] H1 H2 Hp Hc) as B. rewrite app_nil_r in B.
  rewrite B. cbn. now rewrite IH.
Qed.
Print Assumptions C47_text_values.

Example C47_case :
  match query (s2l "q") (idle c46_input) with
  | (Ok rs, c) =>
    fst (collect (text_rows true (fun _ => None) (fun _ => None)) (c, rs)) = Ok [[VBytes [97]]; [VBytes [98]]] /\
    fst (one (text_rows true (fun _ => None) (fun _ => None)) (c, rs)) = Ok (Some [VBytes [97]])
  | _ => False
  end.
Proof. vm_compute. split; reflexivity. Qed.

(** A server without DEPRECATE_EOF puts an EOF packet after the column definitions; it is taken for
    the end of the rows, and not readable as such. *)
Theorem C47_rows_in_order_refuted : exists c wi,
  Z.testbit (c_caps c) DEPRECATE_EOF_BIT = false /\
  framed 1 [wire_lenenc 1; column_packet; [254; 0; 0; 2; 0]; [1; 97]; [254; 0; 0; 2; 0]] wi 6 /\
  old_eof 2 0 [254; 0; 0; 2; 0] /\ s_in (c_stream c) = wi /\
  match query (s2l "q") c with
  | (Ok rs, c1) => fst (collect (fun _ p => Ok p) (c1, rs)) = Err (EProtocol peof)
  | _ => False
  end.
Proof.
  set (wi := frame 1 [1] ++ frame 2 column_packet ++ frame 3 [254; 0; 0; 2; 0] ++ frame 4 [1; 97] ++ frame 5 [254; 0; 0; 2; 0] ++ []).
  exists (mkConn (mkStream wi IoUnexpectedEof [] None) 0
            (mkData 1 false (5, 6, 0) (0x200 + 0x8000 + 0x2000 + 0x40000 + 0x80000) [] None PNative false 4194304) false), wi.
  split; [reflexivity|]. split; [unfold wi; change (wire_lenenc 1) with [1]; framed_by|].
  split; [split; [lia|]; split; [lia | reflexivity]|]. split; [reflexivity|]. vm_compute. reflexivity.
Qed.
Print Assumptions C47_rows_in_order_refuted.

(** ** C48 *)

(** A statement answered by OK or an error: the next use (and all further) see their own answer.
    Missing: statements that return rows (refuted below for all of them). *)
Theorem C48_execute_then_next_partial : exists packets : use -> list (list Z),
  (forall u, use_ok u -> request u (packets u)) /\
  forall A (decode : list column -> bytes -> res error A) c q a pkts w qn wi qe h i o rest,
  Z.testbit (c_caps c) DEPRECATE_EOF_BIT = true ->
  requests [3 :: q] w qn -> answer_packets (c_caps c) a pkts -> framed qn pkts wi qe ->
  (exists rows id status warnings msg st, a = AOk rows id status warnings msg st) \/
  (exists code state msg, a = AErr code state msg) ->
  history decode (c_caps c) packets h i o -> between c (wi ++ i ++ rest) ->
  exists y c', run_uses decode (UExecute q :: map fst h) c = (y :: map snd h, c') /\
    s_out (c_stream c') = s_out (c_stream c) ++ w ++ o.
Proof.
  exists use_packets. split; [intros u H; now apply use_packets_request|].
  intros A decode c q a pkts w qn wi qe h i o rest Hc Hr Ha Hf Hk Hh Hb.
  assert (exists y, expected decode (UExecute q) a y) as (y & He).
  { destruct Hk as [(rows & id & status & warnings & msg & st & ->) | (code & state & msg & ->)]; eexists; constructor. }
  destruct (run_uses_history A decode (c_caps c) ((UExecute q, y) :: h) (wi ++ i) (w ++ o)) with (c := c) (rest := rest)
    as (c' & E & _ & _ & O); auto.
  { eapply history_cons; eauto. exact I. }
  { now rewrite <- app_assoc. }
  exists y, c'. auto.
Qed.
Print Assumptions C48_execute_then_next_partial.

(** Whatever rows the server returns, the statement is reported as a protocol error and the next
    query or statement fails on the rest of the result set. *)
Theorem C48_execute_rows_refuted :
  forall A (decode : list column -> bytes -> res error A) c q q2 cols rows pkts wi qe rest,
  Z.testbit (c_caps c) DEPRECATE_EOF_BIT = true ->
  Z.of_nat (length q) < 2 ^ 24 - 2 -> Z.of_nat (length q2) < 2 ^ 24 - 2 ->
  answer_packets (c_caps c) (ARows cols rows) pkts -> framed 1 pkts wi qe -> between c (wi ++ rest) ->
  fst (run_uses decode [UExecute q; UExecute q2] c) =
    [SFailed (EProtocol (PUnexpectedPacket (wire_lenenc (Z.of_nat (length cols))))); SFailed (EProtocol POutOfSync)].
Proof.
  intros A decode c q q2 cols rows pkts wi qe rest Hc Hq Hq2 Ha Hf Hb.
  assert (R : forall q, Z.of_nat (length q) < 2 ^ 24 - 2 -> requests [3 :: q] (frame 0 (3 :: q)) 1).
  { intros x Hx. constructor. apply (frame_frames 0). cbn [length]. lia. }
  inversion Ha as [| |? defs ? status warnings last N D Rw En M L|]; subst. cbn [app] in Hf.
  inversion Hf as [|? ? w1 q1 ? w2 ? F1 F2]; subst. rewrite <- app_assoc in Hb.
  destruct (write_command_between (3 :: q) c _ Hc Hb) as (w0 & q0 & F0 & c1 & E & As).
  destruct (frames_det _ _ _ _ F0 _ _ (frame_frames 0 (3 :: q) ltac:(cbn [length]; lia))) as (_ & ->).
  change (next_seq 0) with 1 in *.
  assert (N' : 1 <= Z.of_nat (length cols)) by (destruct cols; [contradiction | cbn [length]; lia]).
  assert (q1 = 2) as ->.
  { assert (Sm : Z.of_nat (length (wire_lenenc (Z.of_nat (length cols)))) < 2 ^ 24 - 1).
    { unfold wire_lenenc. destruct (_ <=? 250); [cbn; lia|]. destruct (_ <=? 65535) eqn:X; [|lia]. cbn. lia. }
    destruct (frames_det _ _ _ _ F1 _ _ (frame_frames 1 _ Sm)) as (_ & ->). reflexivity. }
  destruct (wire_lenenc_first (Z.of_nat (length cols))) as (x & r & Ex & X0 & X1 & X2); [lia|].
  assert (E1 : execute_query q c = (Err (EProtocol (PUnexpectedPacket (wire_lenenc (Z.of_nat (length cols))))), moved c1 (w2 ++ rest) 2)).
  { unfold execute_query. change (execute_command COM_QUERY q) with (write_command (3 :: q)). rewrite iob, E.
    unfold read_response. rewrite iob, (conn_read_frames c1 (wire_lenenc (Z.of_nat (length cols))) w1 2 (w2 ++ rest)).
    2:{ rewrite As. exact F1. } 2:{ rewrite As. unfold byte_ok. cbn. lia. } 2:{ rewrite As. reflexivity. }
    rewrite iob. unfold decode_response. rewrite Ex.
    replace (x =? 0) with false by lia. replace (x =? 255) with false by lia. reflexivity. }
  assert (B1 : between (moved c1 (w2 ++ rest) 2) (w2 ++ rest)).
  { split; [unfold byte_ok; cbn; lia|]. split; [now rewrite As|]. left. split; [now rewrite As | reflexivity]. }
  destruct (write_command_between (3 :: q2) (moved c1 (w2 ++ rest) 2) (w2 ++ rest)) as (w3 & q3 & F3 & c2 & E2 & As2); auto.
  { rewrite As. exact Hc. }
  destruct (frames_det _ _ _ _ F3 _ _ (frame_frames 0 (3 :: q2) ltac:(cbn [length]; lia))) as (_ & ->).
  change (next_seq 0) with 1 in *.
  assert (Mis : exists m w', misnumbered 1 m /\ w2 = m ++ w').
  { destruct (defs ++ rows ++ [last]) as [|p ps] eqn:Ed; [destruct defs, rows; discriminate|].
    inversion F2 as [|? ? wa qa ? wb ? Fa Fb]; subst. inversion Fa as [? ? Lb|? b rs ws ? Lb Fr]; subst.
    - exists (wire_uint 3 (Z.of_nat (length p)) ++ [2] ++ p), wb. split; [apply misnumbered_here; lia | reflexivity].
    - exists (wire_uint 3 (Z.of_nat (length b)) ++ [2] ++ b), (ws ++ wb). split; [apply misnumbered_here; lia|].
      rewrite Lb, <- !app_assoc. reflexivity. }
  destruct Mis as (m & w' & Hm & ->).
  assert (E3 : exists c3, execute_query q2 (moved c1 ((m ++ w') ++ rest) 2) = (Err (EProtocol POutOfSync), c3)).
  { unfold execute_query. change (execute_command COM_QUERY q2) with (write_command (3 :: q2)). rewrite iob, E2.
    unfold read_response. rewrite iob. unfold conn_read.
    destruct (read_misnumbered_packet 1 m (c_stream c2) (w' ++ rest)) as (q5 & s5 & E5); auto.
    { unfold byte_ok. lia. } { rewrite As2. cbn. now rewrite app_assoc. }
    rewrite As2 in *. cbn [c_seq c_stream] in *. rewrite E5. eexists. reflexivity. }
  destruct E3 as (c3 & E3). cbn [run_uses run_use]. rewrite E1. cbn [use_done]. rewrite E3. reflexivity.
Qed.
Print Assumptions C48_execute_rows_refuted.

Example C48_case :
  fst (run_uses (fun _ p => Ok p) [UExecute (s2l "e"); UQuery (s2l "q") 1]
     (idle (frame 1 ok_packet_bytes ++ frame 1 [1] ++ frame 2 column_packet ++ frame 3 [1; 97]))) =
  [SDone 0 0 2 0 None None; SRows [some_column] [Ok (Some [1; 97])]].
Proof. vm_compute. reflexivity. Qed.

(** ** C49 *)

(** An error packet instead of an answer is reported by whatever was asked.  Missing: errors after
    the first row or column definition (refuted below). *)
Theorem C49_errors_reported_partial : forall A (decode : list column -> bytes -> res error A) u c code state msg pkt w q wi qe rest,
  Z.testbit (c_caps c) DEPRECATE_EOF_BIT = true -> use_ok u -> requests (use_packets u) w q ->
  err_layout (Z.testbit (c_caps c) PROTOCOL_41_BIT) (Z.testbit (c_caps c) PROGRESS_BIT) (ErrError code state msg) pkt ->
  frames q pkt wi qe -> between c (wi ++ rest) ->
  exists c', run_use decode u c = (SFailed (EServer (ErrError code state msg)), c') /\ between c' rest.
Proof.
  intros A decode u c code state msg pkt w q wi qe rest Hc Hu Hr Hl Hf Hb.
  destruct (run_use_served A decode u (AErr code state msg) (SFailed (EServer (ErrError code state msg))) w q [pkt] wi qe c rest)
    as (c' & E & B & _); auto.
  - now constructor.
  - rewrite <- (app_nil_r wi). econstructor; [exact Hf | constructor].
  - constructor.
  - exists c'. auto.
Qed.
Print Assumptions C49_errors_reported_partial.

(** Inside a result set any error packet is handed to the row decoder. *)
Theorem C49_error_as_row_refuted :
  (forall A (decode : list column -> bytes -> res error A) c cols e pkt w q rest,
   err_layout (Z.testbit (c_caps c) PROTOCOL_41_BIT) (Z.testbit (c_caps c) PROGRESS_BIT) e pkt ->
   byte_ok (c_seq c) -> frames (c_seq c) pkt w q -> s_in (c_stream c) = w ++ rest ->
   rs_next decode (c, mkSet cols None) =
     (rbind (decode cols pkt) (fun a => Ok (Some a)), (moved c rest q, mkSet cols None))) /\
  (exists pkt e, err_layout true false e pkt /\
   forall debug f32 f64, text_rows debug f32 f64 [some_column] pkt = Ok [VBytes []]).
Proof.
  split.
  - intros A decode c cols e pkt w q rest Hl Hs Hf Hi. unfold rs_next. cbn [rs_ok rs_columns].
    rewrite (conn_read_frames c pkt w q rest Hf Hs Hi). change (c_caps (moved c rest q)) with (c_caps c).
    destruct (err_first _ _ _ _ Hl) as (r & ->). unfold is_last. change (255 =? 254) with false. reflexivity.
  - exists (255 :: wire_uint 2 3024 ++ [35] ++ s2l "HY000" ++ s2l "aborted"),
      (ErrError 3024 (Some (s2l "HY000")) (s2l "aborted")). split; [|reflexivity].
    assert (U : forall s, forallb (fun c => (0 <=? c) && (c <? 128)) s = true -> utf8_text s s).
    { intros s H. apply utf8_text_ascii. apply Forall_forall. intros c Hc. rewrite forallb_forall in H. specialize (H c Hc). lia. }
    eapply (err_state true false 3024 (s2l "HY000") (s2l "HY000") (s2l "aborted") (s2l "aborted"));
      try reflexivity; try (apply U; reflexivity); try lia.
Qed.
Print Assumptions C49_error_as_row_refuted.

(** The client sees an empty string where the server reported an error. *)
Example C49_case :
  fst (run_uses (text_rows true (fun _ => None) (fun _ => None)) [UQuery (s2l "q") 2]
     (idle (frame 1 [1] ++ frame 2 column_packet ++ frame 3 [1; 97] ++
            frame 4 (255 :: wire_uint 2 3024 ++ [35] ++ s2l "HY000" ++ s2l "aborted")))) =
  [SRows [some_column] [Ok (Some [VBytes [97]]); Ok (Some [VBytes []])]] /\
  fst (run_uses (fun _ p => Ok p) [UQuery (s2l "q") 2]
     (idle (frame 1 (255 :: wire_uint 2 1064 ++ [35] ++ s2l "42000" ++ s2l "syntax")))) =
  [SFailed (EServer (ErrError 1064 (Some (s2l "42000")) (s2l "syntax")))].
Proof. vm_compute. split; reflexivity. Qed.

(** ** C50 *)

Theorem C50_parameter_count : forall st values c,
  Z.of_nat (length values) <> ps_params st ->
  stmt_query st values c = (Err (ERuntime RParameterCountMismatch), c) /\
  stmt_execute st values c = (Err (ERuntime RParameterCountMismatch), c).
Proof.
  intros st values c H. unfold stmt_query, stmt_execute, lenZ.
  replace (Z.of_nat (length values) =? ps_params st) with false by lia. split; reflexivity.
Qed.
Print Assumptions C50_parameter_count.

(** The right number is never reported as a mismatch. *)
Theorem C50_right_count : forall st values c,
  Z.of_nat (length values) = ps_params st ->
  fst (stmt_query st values c) <> Err (ERuntime RParameterCountMismatch) /\
  fst (stmt_execute st values c) <> Err (ERuntime RParameterCountMismatch).
Proof. exact right_count. Qed.
Print Assumptions C50_right_count.

Example C50_case :
  fst (stmt_execute (mkPrepared 7 2) [VInt 1] (idle (frame 1 ok_packet_bytes))) = Err (ERuntime RParameterCountMismatch) /\
  s_out (c_stream (snd (stmt_execute (mkPrepared 7 1) [VInt 1] (idle (frame 1 ok_packet_bytes))))) <> [].
Proof. split; [reflexivity | vm_compute; discriminate]. Qed.

(** ** C51 *)

(** No use of a connection ever sends COM_STMT_CLOSE (25), nor does disconnecting, and dropping a
    statement does nothing: a statement once prepared stays open on the server. *)
Theorem C51_statements_released_refuted :
  (forall u ps p, use_ok u -> request u ps -> In p ps -> exists cmd r, p = cmd :: r /\ cmd <> 25) /\
  (exists c h i o, history (fun _ p => Ok p) (c_caps c) use_packets h i o /\ s_in (c_stream c) = i /\
     In (UPrepare (s2l "q"), SPrepared 7 0) h /\
     run_uses (fun _ p => Ok p) (map fst h) c = (map snd h, snd (run_uses (fun _ p => Ok p) (map fst h) c)) /\
     s_out (c_stream (snd (disconnect (snd (run_uses (fun _ p => Ok p) (map fst h) c))))) = o ++ frame 0 [1]).
Proof.
  split.
  - intros u ps p Hu Hr Hin. destruct u; cbn in Hr; try (subst ps; destruct Hin as [<- | []]; eexists _, _; split; [reflexivity | lia]);
      eapply stmt_request_no_close; eauto.
  - exists (idle (frame 1 [0; 7; 0; 0; 0; 0; 0; 0; 0; 0; 0; 0] ++ [])), [(UPrepare (s2l "q"), SPrepared 7 0)].
    exists ((frame 1 [0; 7; 0; 0; 0; 0; 0; 0; 0; 0; 0; 0] ++ []) ++ []), (frame 0 [22; 113] ++ []).
    split; [eapply history_cons|].
    + exact I.
    + constructor. apply frame_frames. cbn. lia.
    + apply (ap_prepared some_caps 7 0 0 0 [7; 0; 0; 0; 0; 0; 0; 0; 0; 0; 0] []); [|reflexivity].
      unfold stmt_layout. splits; try lia. exists 0, 0, []. reflexivity.
    + framed_by.
    + apply ex_prepare.
    + constructor.
    + split; [now rewrite app_nil_r|]. split; [left; reflexivity|]. split; [vm_compute; reflexivity|]. vm_compute. reflexivity.
Qed.
Print Assumptions C51_statements_released_refuted.

(** The packet that would close a statement is the documented one. *)
Theorem C51_close_packet_partial : forall id, stmt_close_serialize id = 25 :: wire_uint 4 id.
Proof. intros id. unfold stmt_close_serialize. now rewrite (wire_uint_le 4 id). Qed.
Print Assumptions C51_close_packet_partial.

Example C51_case : stmt_close_serialize 7 = [25; 7; 0; 0; 0].
Proof. reflexivity. Qed.
