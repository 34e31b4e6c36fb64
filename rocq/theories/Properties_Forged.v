(** Property C118: values are not taken for packets. *)
From Coq Require Import String ZArith List Bool Lia.
From Verif Require Import Base BaseFacts Types Utf8 ParseBuf BufMut Spec_Wire ParseBuf_proofs Framing Framing_proofs
  Packets Spec_Packets Packets_proofs Crypt Handshake ValueBin Spec_Stmt StmtPackets ValueText Rows
  Conversion Auth Auth_proofs Conn Spec_Conn Conn_proofs Spec_Fault Fault_proofs Properties_Command Forged_proofs.
Import ListNotations.
Open Scope Z_scope.

(** Reading one packet after the other. *)
Fixpoint read_packets (n : nat) (c : conn) : list (res error bytes) * conn :=
  match n with
  | O => ([], c)
  | S n' => let '(r, c1) := conn_read c in let '(l, c2) := read_packets n' c1 in (r :: l, c2)
  end.

(** As long as every packet arrives, each read returns one whole packet, whatever is in the packets.
    Missing: reads that time out inside a packet (refuted below). *)
Theorem C118_packets_partial : forall ps c w q rest, 0 <= c_seq c < 256 ->
  framed (c_seq c) ps w q -> s_in (c_stream c) = w ++ rest ->
  exists c', read_packets (length ps) c = (map Ok ps, c') /\ s_in (c_stream c') = rest /\ c_seq c' = q /\
    s_out (c_stream c') = s_out (c_stream c).
Proof.
  induction ps as [|p ps IH]; intros c w q rest Hs Hf Hi; inversion Hf as [|? ? w0 q0 ? w' ? Hf0 Hf1]; subst.
  - exists c. splits; auto.
  - rewrite <- app_assoc in Hi. cbn [length read_packets map].
    rewrite (conn_read_frames c p w0 q0 (w' ++ rest) Hf0 Hs Hi).
    destruct (IH (moved c (w' ++ rest) q0) w' q rest) as (c' & E & H1 & H2 & H3); auto.
    + cbn. pose proof (frames_seq_ok _ _ _ _ Hf0 Hs). assumption.
    + rewrite E. exists c'. auto.
Qed.
Print Assumptions C118_packets_partial.

(** A row whose bytes look like frames. *)
Example C118_packets_case : exists c', read_packets 2 (idle (frame 0 (frame 1 [7]) ++ frame 1 (frame 0 [255]) ++ [9])) =
  ([Ok (frame 1 [7]); Ok (frame 0 [255])], c') /\ s_in (c_stream c') = [9].
Proof. eexists. vm_compute. split; reflexivity. Qed.

(** A query times out inside a row.  If what comes late of the row has the form of an end of rows and of
    answers to later uses, then those uses see these answers. *)
Theorem C118_inside : exists packets : use -> list (list Z),
  (forall u, use_ok u -> request u (packets u)) /\
  forall A (decode : list column -> bytes -> res error A) q cols rows pre inner w qs w1 qm pkts status warnings last fin qe h i o c,
  Z.testbit (c_caps c) DEPRECATE_EOF_BIT = true -> requests [3 :: q] w qs ->
  answer_packets (c_caps c) (ARows cols (rows ++ [pre ++ inner])) pkts ->
  framed qs (firstn (1 + length cols + length rows) pkts) w1 qm ->
  Z.of_nat (length (pre ++ inner)) < 2 ^ 24 -> inner <> [] ->
  end_of_rows status warnings last -> frames qm last fin qe ->
  history decode (c_caps c) packets h i o ->
  between c (w1 ++ wire_uint 3 (Z.of_nat (length (pre ++ inner))) ++ [qm] ++ pre) ->
  exists c1 c2,
    run_use decode (UQuery q (S (length rows))) c =
      (SRows cols (map (fun p => match decode cols p with Ok a => Ok (Some a) | Err e => Err e | Panic => Panic end) rows ++
                   [Err (EProtocol (PIo (s_end (c_stream c))))]), c1) /\
    forall rest, run_uses decode (map fst h) (arrive (fin ++ i ++ rest) c1) = (map snd h, c2 rest) /\ between (c2 rest) rest.
Proof.
  exists use_packets. split; [intros u H; now apply use_packets_request|].
  intros A decode q cols rows pre inner w qs w1 qm pkts status warnings last fin qe h i o c Hd Hr Ha Hf Hl Hn He Hfin Hh Hb.
  remember (ARows cols (rows ++ [pre ++ inner])) as a eqn:Ea.
  destruct Ha as [| |cols' defs rows' status' warnings' last' Hne Hds Hrs Hend Hm Hcl|]; try discriminate. injection Ea as -> ->.
  apply Forall_app in Hrs. destruct Hrs as [Hrs _].
  eapply (inside_row A decode q cols defs rows pre inner w qs w1 qm); try eassumption.
  pose proof (Forall2_len _ _ _ _ _ Hds) as Ed.
  replace (firstn (1 + length cols + length rows) ([wire_lenenc (Z.of_nat (length cols))] ++ defs ++ (rows ++ [pre ++ inner]) ++ [last']))
    with ((wire_lenenc (Z.of_nat (length cols)) :: defs) ++ rows) in Hf; [exact Hf|].
  cbn [app firstn Nat.add]. f_equal. rewrite <- app_assoc, app_assoc. rewrite Ed, <- app_length. rewrite firstn_app, firstn_all, Nat.sub_diag.
  cbn [firstn]. now rewrite app_nil_r.
Qed.
Print Assumptions C118_inside.

Lemma lenenc_not_254 : forall n r, n < 65536 -> wire_lenenc n <> 254 :: r.
Proof.
  intros n r H E. unfold wire_lenenc in E. destruct (Z.leb_spec n 250) as [Hn|Hn]; [injection E as En _; lia|].
  destruct (Z.leb_spec n 65535); [discriminate | lia].
Qed.

(** So whoever can store a value decides what later commands of a connection see that times out inside
    it: for any list of later commands and any answers to them there is a value that does. *)
Theorem C118_forged_refuted : exists packets : use -> list (list Z),
  (forall u, use_ok u -> request u (packets u)) /\
  forall A (decode : list column -> bytes -> res error A) caps h i o q w qs c,
  Z.testbit caps DEPRECATE_EOF_BIT = true -> history decode caps packets h i o -> Z.of_nat (length i) < 65000 ->
  requests [3 :: q] w qs -> c_caps c = caps ->
  exists value early late pkts q',
    answer_packets caps (ARows [some_column] [wire_lenenc (Z.of_nat (length value)) ++ value]) pkts /\
    framed qs pkts (early ++ value ++ late) q' /\
    (between c early -> exists c1 c2,
       run_use decode (UQuery q 1) c = (SRows [some_column] [Err (EProtocol (PIo (s_end (c_stream c))))], c1) /\
       forall rest, run_uses decode (map fst h) (arrive (value ++ late ++ rest) c1) = (map snd h, c2 rest)).
Proof.
  destruct C118_inside as (packets & Hp & K). exists packets. split; [exact Hp|].
  intros A decode caps h i o q w qs c Hd Hh Hlen Hr Hc. subst caps.
  set (last := [254; 0; 0; 2; 0; 0; 0]). set (q1 := next_seq qs). set (q2 := next_seq q1). set (q3 := next_seq q2).
  set (value := frame q2 last ++ i). set (pre := wire_lenenc (Z.of_nat (length value))).
  assert (Lv : Z.of_nat (length value) < 65536).
  { unfold value, frame. rewrite !app_length, wire_uint_le, le_bytes_length. cbn [length last]. lia. }
  assert (Lv0 : 11 <= Z.of_nat (length value)).
  { unfold value, frame. rewrite !app_length, wire_uint_le, le_bytes_length. cbn [length last]. lia. }
  assert (Lp : Z.of_nat (length (pre ++ value)) < 2 ^ 24 - 1).
  { rewrite app_length. unfold pre. destruct (wire_lenenc_first (Z.of_nat (length value))) as (x & r & _); [lia|].
    assert ((length (wire_lenenc (Z.of_nat (length value))) <= 9)%nat); [|lia].
    unfold wire_lenenc. repeat (destruct (_ <=? _)); cbn [length]; rewrite ?wire_uint_le, ?le_bytes_length; lia. }
  set (w1 := frame qs [1] ++ frame q1 column_packet ++ []).
  set (early := w1 ++ wire_uint 3 (Z.of_nat (length (pre ++ value))) ++ [q2] ++ pre).
  set (pkts := [[1]; column_packet; pre ++ value; last]).
  assert (Ha : answer_packets (c_caps c) (ARows [some_column] [pre ++ value]) pkts).
  { apply (ap_rows (c_caps c) [some_column] [column_packet] [pre ++ value] 2 0 last).
    - discriminate.
    - constructor; [exact column_packet_layout | constructor].
    - constructor; [|constructor]. destruct (wire_lenenc_first (Z.of_nat (length value))) as (x & r & E & X0 & X1 & X2); [lia|].
      exists x, (r ++ value). unfold pre. rewrite E. split; [reflexivity|]. split; [assumption|]. intros ->. exfalso.
      exact (lenenc_not_254 _ r Lv E).
    - split; [split; [lia | intros H; discriminate]|]. split; [lia | reflexivity].
    - reflexivity.
    - cbn. lia. }
  assert (F1 : framed qs [[1]; column_packet] w1 q2).
  { unfold w1, q1, q2. econstructor; [apply frame_frames; cbn; lia|]. econstructor; [apply frame_frames; cbn; lia | constructor]. }
  exists value, early, (frame q3 last), pkts, (next_seq q3). split; [exact Ha|]. split.
  - replace (early ++ value ++ frame q3 last) with (w1 ++ frame q2 (pre ++ value) ++ frame q3 last ++ []).
    + change pkts with ([[1]; column_packet] ++ [pre ++ value; last]). eapply framed_app_intro; [exact F1|].
      econstructor; [apply frame_frames; exact Lp|]. econstructor; [apply frame_frames; cbn; lia | constructor].
    + unfold early, frame. rewrite app_nil_r, <- !app_assoc. reflexivity.
  - intros Hb.
    destruct (K A decode q [some_column] [] pre value w qs w1 q2 pkts 2 0 last (frame q2 last) q3 h i o c) as (c1 & c2 & E & R); auto.
    + lia.
    + intros F. rewrite F in Lv0. cbn in Lv0. lia.
    + split; [split; [lia | intros H; discriminate]|]. split; [lia | reflexivity].
    + apply frame_frames. cbn. lia.
    + exists c1, (fun rest => c2 (frame q3 last ++ rest)). split; [exact E|]. intros rest.
      destruct (R (frame q3 last ++ rest)) as (R1 & _). rewrite <- R1. unfold value. now rewrite <- !app_assoc.
Qed.
Print Assumptions C118_forged_refuted.

(** A value of 22 bytes: the statement after the time-out is said to have changed 42 rows, though its
    answer has not come yet. *)
Definition forged_value : bytes := frame 3 [254; 0; 0; 2; 0; 0; 0] ++ frame 1 [0; 42; 0; 2; 0; 0; 0].
Example C118_forged_case :
  let whole := frame 1 [1] ++ frame 2 column_packet ++ frame 3 (22 :: forged_value) ++ frame 4 [254; 0; 0; 2; 0; 0; 0] in
  let early := frame 1 [1] ++ frame 2 column_packet ++ [23; 0; 0; 3; 22] in
  let late := forged_value ++ frame 4 [254; 0; 0; 2; 0; 0; 0] in
  whole = early ++ late /\
  let '(x, c1) := run_use (fun _ p => Ok p) (UQuery (s2l "select") 1) (mkConn (mkStream early IoTimedOut [] None) 0 some_data false) in
  x = SRows [some_column] [Err (EProtocol (PIo IoTimedOut))] /\
  fst (run_use (fun _ p => Ok p) (UExecute (s2l "delete")) (arrive late c1)) = SDone (A := list Z) 42 0 2 0 None None.
Proof. vm_compute. splits; reflexivity. Qed.
