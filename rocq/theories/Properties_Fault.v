(** Properties C71 and C72: answers that do not arrive in full or in time. *)
From Coq Require Import String ZArith List Bool Lia.
From Verif Require Import Base BaseFacts Types Utf8 ParseBuf BufMut Spec_Wire ParseBuf_proofs Framing Framing_proofs
  Packets Spec_Packets Packets_proofs Crypt Handshake ValueBin Spec_Stmt StmtPackets ValueText Rows
  Conversion Auth Auth_proofs Conn Spec_Conn Conn_proofs Spec_Fault Fault_proofs Properties_Command.
Import ListNotations.
Open Scope Z_scope.

(** ** C71 *)

(** The transport fails, or a read times out, anywhere inside the answer to [u], after any history
    of uses: the uses before see their answers, [u] sees the rows that have arrived whole and then
    the error, or just the error, and every later use sees the error; nothing is made up. *)
Theorem C71_truncated_answers : exists packets : use -> list (list Z),
  (forall u, use_ok u -> request u (packets u)) /\
  forall A (decode : list column -> bytes -> res error A) caps h i o,
  history decode caps packets h i o -> Z.testbit caps DEPRECATE_EOF_BIT = true ->
  forall u a y w q pkts wi q' j missing us c,
  use_ok u -> requests (packets u) w q -> answer_packets caps a pkts -> framed q pkts wi q' -> expected decode u a y ->
  wi = j ++ missing -> missing <> [] -> Forall use_ok us ->
  c_caps c = caps -> between c (i ++ j) ->
  let lost := EProtocol (PIo (s_end (c_stream c))) in
  (exists n, cut_after q pkts n j) /\
  forall n, cut_after q pkts n j ->
  fst (run_uses decode (map fst h ++ u :: us) c) =
  map snd h ++ seen_part decode lost u a n :: map (fun _ => SFailed lost) us.
Proof.
  exists use_packets. split.
  - intros u H. now apply use_packets_request.
  - intros A decode caps h i o Hh Hd u a y w q pkts wi q' j missing us c Hu Hr Ha Hf He Hw Hm Hus Hc Hb lost. split.
    + eapply cut_after_exists; eauto.
    + intros n (p & more & wg & q0 & part & l & q1 & C1 & C2 & C3 & C4 & C5).
      destruct (run_uses_history A decode caps h i o Hh Hd c j Hc Hb) as (c1 & E & B & D & O).
      rewrite (run_uses_app _ decode (map fst h) (u :: us) c _ c1 E). cbn [fst]. f_equal.
      pose proof (run_uses_keeps A decode (map fst h) c) as (K & _). rewrite E in K. cbn [snd] in K.
      assert (Hc1 : c_caps c1 = caps) by (unfold c_caps in *; congruence).
      assert (Epk : pkts = firstn n pkts ++ p :: more) by (rewrite <- C1; symmetry; apply firstn_skipn).
      assert (En : length (firstn n pkts) = n).
      { apply firstn_length_le. destruct (Nat.le_gt_cases n (length pkts)) as [L|L]; [exact L|].
        rewrite skipn_all2 in C1 by lia. discriminate. }
      subst j. rewrite Epk, <- Hc1 in Ha. rewrite <- Hc1 in Hd.
      destruct (run_use_cut A decode u a y w q _ p more wg q0 part l q1 c1 Hd Hu Hr Ha C2 C3 C4 He B) as (c2 & c3 & E3 & As & Af).
      cbn [run_uses]. rewrite E3, En.
      assert (Lo : lost_error c1 = lost) by (unfold lost_error, lost; now rewrite K).
      assert (Hd2 : Z.testbit (c_caps c2) DEPRECATE_EOF_BIT = true) by (rewrite As; exact Hd).
      assert (Hb2 : s_budget (c_stream c2) = None) by (rewrite As; reflexivity).
      destruct (after_doomed c2 c3 a _ p part q0 Hd2 Hb2 Af) as (Dm & Le).
      pose proof (run_uses_doomed A decode us c3 Dm Hus) as R.
      assert (Le2 : lost_error c2 = lost_error c1) by (rewrite As; reflexivity).
      destruct (run_uses decode us c3) as [xs c4]. cbn in R |- *. rewrite R, Le, Le2, Lo. reflexivity.
Qed.
Print Assumptions C71_truncated_answers.

(** Two rows of which the second arrives in part; three rows are asked for, then another command. *)
Definition c71_packets : list (list Z) := [[1]; column_packet; [1; 97]; [1; 98]; [254; 0; 0; 2; 0; 0; 0]].
Definition c71_input : bytes := frame 1 [1] ++ frame 2 column_packet ++ frame 3 [1; 97] ++ [2; 0; 0; 4; 1].
Example C71_case :
  answer_packets some_caps (ARows [some_column] [[1; 97]; [1; 98]]) c71_packets /\
  cut_after 1 c71_packets 3 c71_input /\
  seen_part (fun _ p => Ok p) (EProtocol (PIo IoUnexpectedEof)) (UQuery (s2l "q") 3) (ARows [some_column] [[1; 97]; [1; 98]]) 3 =
    SRows [some_column] [Ok (Some [1; 97]); Err (EProtocol (PIo IoUnexpectedEof)); Err (EProtocol (PIo IoUnexpectedEof))] /\
  between (idle c71_input) ([] ++ c71_input) /\
  fst (run_uses (fun _ p => Ok p) [UQuery (s2l "q") 3; UExecute (s2l "e")] (idle c71_input)) =
    [SRows [some_column] [Ok (Some [1; 97]); Err (EProtocol (PIo IoUnexpectedEof)); Err (EProtocol (PIo IoUnexpectedEof))];
     SFailed (EProtocol (PIo IoUnexpectedEof))].
Proof.
  splits.
  - apply (ap_rows some_caps [some_column] [column_packet] [[1; 97]; [1; 98]] 2 0 [254; 0; 0; 2; 0; 0; 0]).
    + discriminate.
    + constructor; [exact column_packet_layout | constructor].
    + repeat constructor; eexists _, _; (split; [reflexivity|]); split; intros; lia.
    + split; [split; [lia | intros H; discriminate] | split; [lia | reflexivity]].
    + reflexivity.
    + reflexivity.
  - exists [1; 98], [[254; 0; 0; 2; 0; 0; 0]], (frame 1 [1] ++ frame 2 column_packet ++ frame 3 [1; 97] ++ []), 4, [2; 0; 0; 4; 1], [98], 5.
    splits.
    + reflexivity.
    + cbn [firstn c71_packets]. framed_by.
    + apply (frame_frames 4 [1; 98]). cbn. lia.
    + discriminate.
    + reflexivity.
  - reflexivity.
  - split; [unfold byte_ok; cbn; lia|]. split; [reflexivity|]. left. split; reflexivity.
  - vm_compute. reflexivity.
Qed.

(** ** C72 *)

(** A query answered with rows times out after some whole packets; then the rest of its answer
    arrives, followed by the answers to later uses: each of those sees its own answer.  Missing: a
    time-out before the first packet of the answer, or inside a packet (refuted below). *)
Theorem C72_late_answers_partial : exists packets : use -> list (list Z),
  (forall u, use_ok u -> request u (packets u)) /\
  forall A (decode : list column -> bytes -> res error A) caps u cols rows y w q pkts n j qm missing q' h i o c,
  Z.testbit caps DEPRECATE_EOF_BIT = true ->
  use_ok u -> requests (packets u) w q -> answer_packets caps (ARows cols rows) pkts -> expected decode u (ARows cols rows) y ->
  framed q (firstn n pkts) j qm -> framed qm (skipn n pkts) missing q' -> (1 <= n < length pkts)%nat ->
  history decode caps packets h i o ->
  c_caps c = caps -> between c j ->
  exists c1 c2, run_use decode u c = (seen_part decode (EProtocol (PIo (s_end (c_stream c)))) u (ARows cols rows) n, c1) /\
    forall rest, run_uses decode (map fst h) (arrive (missing ++ i ++ rest) c1) = (map snd h, c2 rest) /\ between (c2 rest) rest.
Proof.
  exists use_packets. split.
  - intros u H. now apply use_packets_request.
  - intros A decode caps u cols rows y w q pkts n j qm missing q' h i o c Hd Hu Hr Ha He F1 F2 Hn Hh Hc Hb.
    destruct (skipn n pkts) as [|p more] eqn:Es.
    { apply (f_equal (@length (list Z))) in Es. rewrite skipn_length in Es. cbn in Es. lia. }
    assert (Epk : pkts = firstn n pkts ++ p :: more) by (rewrite <- Es; symmetry; apply firstn_skipn).
    assert (En : length (firstn n pkts) = n) by (apply firstn_length_le; lia).
    inversion F2 as [|? ? wp q1 ? wm ? Fp Fm]; subst.
    pose proof Ha as Ha'. rewrite Epk in Ha'.
    assert (Hwp : wp <> []) by (apply frames_wire_length in Fp; intros ->; cbn in Fp; lia).
    destruct (run_use_cut A decode u (ARows cols rows) y w q (firstn n pkts) p more j qm [] wp q1 c Hd Hu Hr Ha' F1 Fp Hwp He) as (c1 & c2 & E & As & Af).
    { rewrite app_nil_r. exact Hb. }
    assert (Hbw : forall rest, between (arrive ((wp ++ wm) ++ i ++ rest) c2) (i ++ rest)).
    { intros rest. rewrite <- app_assoc. eapply (late_rest c1 c2); eauto.
      - rewrite As. reflexivity.
      - rewrite As. exact Ha'.
      - eexists _, _. reflexivity.
      - intros F. rewrite F in En. cbn in En. lia. }
    assert (Hcc : c_caps c2 = c_caps c).
    { pose proof (run_use_keeps A decode u c) as (_ & K). rewrite E in K. unfold c_caps. cbn in K. congruence. }
    exists c2, (fun rest => snd (run_uses decode (map fst h) (arrive ((wp ++ wm) ++ i ++ rest) c2))). split.
    + rewrite En in E. exact E.
    + intros rest.
      destruct (run_uses_history A decode (c_caps c) h i o Hh Hd (arrive ((wp ++ wm) ++ i ++ rest) c2) rest Hcc (Hbw rest)) as (c3 & E3 & B3 & _ & _).
      rewrite E3. auto.
Qed.
Print Assumptions C72_late_answers_partial.

(** The columns and one row arrive in time, the rest late; the next command sees its own answer. *)
Definition slow (input : bytes) : conn := mkConn (mkStream input IoTimedOut [] None) 0 some_data false.
Definition c72_early : bytes := frame 1 [1] ++ frame 2 column_packet ++ frame 3 [1; 97].
Definition c72_late : bytes := frame 4 [1; 98] ++ frame 5 [254; 0; 0; 2; 0; 0; 0].
Example C72_case :
  framed 1 (firstn 3 c71_packets) (c72_early ++ []) 4 /\ framed 4 (skipn 3 c71_packets) (c72_late ++ []) 6 /\
  let '(x, c1) := run_use (fun _ p => Ok p) (UQuery (s2l "q") 2) (slow c72_early) in
  x = SRows [some_column] [Ok (Some [1; 97]); Err (EProtocol (PIo IoTimedOut))] /\
  fst (run_use (fun _ p => Ok p) (UExecute (s2l "e")) (arrive (c72_late ++ frame 1 ok_packet_bytes) c1)) =
    SDone (A := list Z) 0 0 2 0 None None.
Proof.
  splits.
  - unfold c72_early. rewrite <- !app_assoc. cbn [c71_packets firstn]. framed_by.
  - unfold c72_late. rewrite <- !app_assoc. cbn [c71_packets skipn]. framed_by.
  - vm_compute. split; reflexivity.
Qed.

(** A statement changes 7 rows, and its answer comes too late; the next statement changes 1 row
    and is said to have changed 7. *)
Theorem C72_late_answers_refuted : exists c u1 u2 w1 w2 pkt1 pkt2,
  let ok n := AOk n 0 2 0 [] [] in
  answer_packets (c_caps c) (ok 7) [pkt1] /\ answer_packets (c_caps c) (ok 1) [pkt2] /\
  requests [3 :: s2l "update a"] w1 1 /\ requests [3 :: s2l "update b"] w2 1 /\
  expected (A := list Z) (fun _ p => Ok p) u1 (ok 7) (SDone 7 0 2 0 None None) /\
  expected (A := list Z) (fun _ p => Ok p) u2 (ok 1) (SDone 1 0 2 0 None None) /\
  between c [] /\
  exists c1 i1 i2, run_use (A := list Z) (fun _ p => Ok p) u1 c = (SFailed (EProtocol (PIo IoTimedOut)), c1) /\
  frames 1 pkt1 i1 2 /\ frames 1 pkt2 i2 2 /\
  fst (run_use (A := list Z) (fun _ p => Ok p) u2 (arrive (i1 ++ i2) c1)) = SDone 7 0 2 0 None None.
Proof.
  assert (L : forall n, 0 <= n < 250 -> answer_packets some_caps (AOk n 0 2 0 [] []) [[0; n; 0; 2; 0; 0; 0]]).
  { intros n Hn. eapply (ap_ok some_caps InfoAbsent n 0 2 0 [] []); [discriminate | | | reflexivity].
    - exists [n; 0; 2; 0; 0; 0]. split; [|reflexivity]. exists [n], [0], []. splits; try lia; try reflexivity; constructor; lia.
    - split; [lia | intros H; discriminate]. }
  exists (slow []), (UExecute (s2l "update a")), (UExecute (s2l "update b")), (frame 0 (3 :: s2l "update a")), (frame 0 (3 :: s2l "update b")),
    [0; 7; 0; 2; 0; 0; 0], [0; 1; 0; 2; 0; 0; 0]. cbv zeta. splits.
  - apply L. lia.
  - apply L. lia.
  - constructor. apply frame_frames. cbn. lia.
  - constructor. apply frame_frames. cbn. lia.
  - apply ex_execute.
  - apply ex_execute.
  - split; [unfold byte_ok; cbn; lia|]. split; [reflexivity|]. left. split; reflexivity.
  - eexists _, (frame 1 [0; 7; 0; 2; 0; 0; 0]), (frame 1 [0; 1; 0; 2; 0; 0; 0]). splits.
    + vm_compute. reflexivity.
    + apply frame_frames. cbn. lia.
    + apply frame_frames. cbn. lia.
    + vm_compute. reflexivity.
Qed.
Print Assumptions C72_late_answers_refuted.
