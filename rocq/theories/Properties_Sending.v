(** Properties C77-C79: disconnecting, the size of packets, interrupted commands. *)
From Coq Require Import String ZArith List Bool Lia.
From Verif Require Import Base BaseFacts Types Utf8 ParseBuf BufMut Spec_Wire ParseBuf_proofs Framing Framing_proofs
  Packets Spec_Packets Packets_proofs Crypt Handshake ValueBin ValueBin_proofs Spec_Stmt StmtPackets StmtPackets_proofs ValueText Rows
  Conversion Auth Conn Spec_Conn Conn_proofs Spec_Sending Sending_proofs Properties_Command.
Import ListNotations.
Open Scope Z_scope.

(** ** C77 *)

(** Whatever the connection has been used for, and whatever part of a result has been left unread,
    disconnecting reads that result to its end, sends COM_QUIT (packet [1], number 0), and nothing
    after it.  Missing: what C46 lacks. *)
Theorem C77_disconnect_partial : exists packets : use -> list (list Z),
  (forall u, use_ok u -> request u (packets u)) /\
  forall A (decode : list column -> bytes -> res error A) caps h i o,
  history decode caps packets h i o -> Z.testbit caps DEPRECATE_EOF_BIT = true ->
  forall c rest, c_caps c = caps -> between c (i ++ rest) ->
  exists c1 c2, run_uses decode (map fst h) c = (map snd h, c1) /\ disconnect c1 = (Ok tt, c2) /\
    s_out (c_stream c2) = s_out (c_stream c) ++ o ++ [1; 0; 0; 0; 1] /\ s_in (c_stream c2) = rest.
Proof.
  exists use_packets. split.
  - intros u H. now apply use_packets_request.
  - intros A decode caps h i o H Hd c rest Hc Hb.
    destruct (run_uses_history A decode caps h i o H Hd c rest Hc Hb) as (c1 & E & B & D & O).
    assert (Hd1 : Z.testbit (c_caps c1) DEPRECATE_EOF_BIT = true) by (unfold c_caps in *; rewrite D, Hc; exact Hd).
    destruct (disconnect_between c1 rest Hd1 B) as (c2 & E2 & O2 & I2).
    exists c1, c2. rewrite O2, O, app_assoc. auto.
Qed.
Print Assumptions C77_disconnect_partial.

(** One of two rows is read; the rest goes before COM_QUIT. *)
Example C77_case :
  let c := idle (frame 1 [1] ++ frame 2 column_packet ++ frame 3 [1; 97] ++ frame 4 [1; 98] ++ frame 5 [254; 0; 0; 2; 0; 0; 0]) in
  let c1 := snd (run_use (A := bytes) (fun _ p => Ok p) (UQuery (s2l "q") 1) c) in
  c_pending c1 = true /\ s_in (c_stream c1) <> [] /\
  fst (disconnect c1) = Ok tt /\ s_in (c_stream (snd (disconnect c1))) = [] /\
  s_out (c_stream (snd (disconnect c1))) = frame 0 [3; 113] ++ [1; 0; 0; 0; 1].
Proof. vm_compute. repeat split; discriminate. Qed.

(** C77 is false in general.  If the server breaks off the rows with an error, the client waits for
    more instead of saying goodbye; without DEPRECATE_EOF the rows are not read to their end.  Either
    way disconnecting fails and COM_QUIT is not sent. *)
Theorem C77_disconnect_refuted :
  (exists c wi, Z.testbit (c_caps c) DEPRECATE_EOF_BIT = true /\
     framed 1 [wire_lenenc 1; column_packet; [1; 97]; 255 :: 37 :: 5 :: 35 :: s2l "70100a"] wi 5 /\
     s_in (c_stream c) = wi /\ s_end (c_stream c) = IoTimedOut /\ c_pending c = false /\
     let '(_, c1) := query (s2l "q") c in
     fst (disconnect c1) = Err (EProtocol (PIo IoTimedOut)) /\ s_out (c_stream (snd (disconnect c1))) = frame 0 [3; 113]) /\
  (exists c wi, Z.testbit (c_caps c) DEPRECATE_EOF_BIT = false /\
     framed 1 [wire_lenenc 1; column_packet; [254; 0; 0; 2; 0]; [1; 97]; [254; 0; 0; 2; 0]] wi 6 /\
     s_in (c_stream c) = wi /\ c_pending c = false /\
     let '(_, c1) := query (s2l "q") c in
     fst (disconnect c1) = Err (EProtocol peof) /\ s_out (c_stream (snd (disconnect c1))) = frame 0 [3; 113]).
Proof.
  split.
  - set (wi := frame 1 [1] ++ frame 2 column_packet ++ frame 3 [1; 97] ++ frame 4 (255 :: 37 :: 5 :: 35 :: s2l "70100a") ++ []).
    exists (mkConn (mkStream wi IoTimedOut [] None) 0 (c_data (idle [])) false), wi.
    split; [reflexivity|]. split; [unfold wi; change (wire_lenenc 1) with [1]; framed_by|].
    split; [reflexivity|]. split; [reflexivity|]. split; [reflexivity|]. vm_compute. split; reflexivity.
  - set (wi := frame 1 [1] ++ frame 2 column_packet ++ frame 3 [254; 0; 0; 2; 0] ++ frame 4 [1; 97] ++ frame 5 [254; 0; 0; 2; 0] ++ []).
    exists (mkConn (mkStream wi IoUnexpectedEof [] None) 0
              (mkData 1 false (5, 6, 0) (0x200 + 0x8000 + 0x2000 + 0x40000 + 0x80000) [] None PNative false 4194304) false), wi.
    split; [reflexivity|]. split; [unfold wi; change (wire_lenenc 1) with [1]; framed_by|].
    split; [reflexivity|]. split; [reflexivity|]. vm_compute. split; reflexivity.
Qed.
Print Assumptions C77_disconnect_refuted.

(** ** C78 *)

(** No packet is longer than 2^24 bytes, so a server (or option) that allows such packets is never
    sent a longer one; statement texts are sent as they are and so must be shorter.  Missing: any
    smaller limit (refuted below), and zero dates (C08). *)
Theorem C78_packet_limit_partial : exists packets : use -> list (list Z),
  (forall u, use_ok u -> request u (packets u)) /\
  (forall u limit, use_ok u -> 2 ^ 24 <= limit -> moderate (2 ^ 24) u -> within limit (packets u)) /\
  forall A (decode : list column -> bytes -> res error A) caps h i o,
  history decode caps packets h i o -> Z.testbit caps DEPRECATE_EOF_BIT = true ->
  forall c rest, c_caps c = caps -> between c (i ++ rest) ->
  exists c', run_uses decode (map fst h) c = (map snd h, c') /\ s_out (c_stream c') = s_out (c_stream c) ++ o.
Proof.
  exists use_packets. splits.
  - intros u H. now apply use_packets_request.
  - intros u limit Hu Hl Hm. pose proof (use_packets_size u Hu Hm) as W. unfold within in *.
    eapply Forall_impl; [|exact W]. cbn. intros. lia.
  - intros A decode caps h i o H Hd c rest Hc Hb.
    destruct (run_uses_history A decode caps h i o H Hd c rest Hc Hb) as (c1 & E & B & D & O). eauto.
Qed.
Print Assumptions C78_packet_limit_partial.

Example C78_case :
  moderate (2 ^ 24) (UStmtExecute 7 2 [VInt 5; VBytes (s2l "text")]) /\
  within (2 ^ 24) (use_packets (UStmtExecute 7 2 [VInt 5; VBytes (s2l "text")])).
Proof.
  split.
  - cbn. intros [H|[H|[]]]; discriminate.
  - assert (E : map (@length Z) (use_packets (UStmtExecute 7 2 [VInt 5; VBytes (s2l "text")])) = [25%nat]) by (vm_compute; reflexivity).
    unfold within. destruct (use_packets _) as [|p [|q l]]; try discriminate E. injection E as E.
    constructor; [rewrite E; lia | constructor].
Qed.

(** The limit the connection has been given, or has asked the server for, is never looked at: a
    statement of 1024 bytes is sent in a packet of 1025 over a connection limited to 1024.  And
    long data, though it is cut into pieces to fit into single frames of 2^24 - 1 bytes, is cut
    into pieces of one byte too many. *)
Theorem C78_packet_limit_refuted :
  (exists c u p i, d_max_allowed_packet (c_data c) = 1024 /\ between c i /\ use_ok u /\ request u [p] /\
     1024 < Z.of_nat (length p) /\ fst (run_use (A := bytes) (fun _ p => Ok p) u c) = SDone 0 0 2 0 None None /\
     exists q, frames 0 p (s_out (c_stream (snd (run_use (A := bytes) (fun _ p => Ok p) u c)))) q) /\
  (forall id b, 0 <= id < 2 ^ 32 -> bytes_ok b -> 2 ^ 24 - 1 <= Z.of_nat (length b) -> Z.of_nat (length b) < 2 ^ 64 ->
     exists p, In p (use_packets (UStmtExecute id 1 [VBytes b])) /\ Z.of_nat (length p) = 2 ^ 24).
Proof.
  split.
  - set (q := repeat 97 1024).
    exists (mkConn (mkStream (frame 1 ok_packet_bytes) IoUnexpectedEof [] None) 0
              (mkData 1 false (8, 0, 36) some_caps [] None PNative false 1024) false), (UExecute q), (3 :: q), (frame 1 ok_packet_bytes).
    splits.
    + reflexivity.
    + split; [unfold byte_ok; cbn; lia|]. split; [reflexivity|]. left. split; reflexivity.
    + exact I.
    + reflexivity.
    + cbn [length]. unfold q. rewrite repeat_length. lia.
    + vm_compute. reflexivity.
    + exists 1.
      match goal with |- frames 0 _ ?w 1 => replace w with (frame 0 (3 :: q)) by (vm_compute; reflexivity) end.
      apply frame_frames. cbn [length]. unfold q. rewrite repeat_length. lia.
  - intros id b Hi Hb Hl Hu. cbn [use_packets]. unfold execute_packets.
    destruct (execute_new_spec id [VBytes b]) as (bm & E & _); [constructor; [split; [assumption|] | constructor]|].
    { unfold unsigned_ok, lenZ. change (256 ^ Z.of_nat 8) with (2 ^ 64). lia. }
    rewrite E. cbn [ex_as_long_data params_len fold_right bin_len].
    assert (L : lenZ b <= lenenc_slice_len b).
    { unfold lenenc_slice_len. rewrite <- put_lenenc_int_len. pose proof (lenZ_nonneg _ (put_lenenc_int (lenZ b))). lia. }
    assert (B : MAX_PAYLOAD_LEN <= lenZ b) by (rewrite MAX_val; unfold lenZ; lia).
    replace (11 + (lenZ [VBytes b] + 7) / 8 + lenZ [VBytes b] * 2 + (lenenc_slice_len b + 0) >? MAX_PAYLOAD_LEN) with true.
    2: { rewrite lenZ_cons, lenZ_nil. change ((0 + 1 + 7) / 8) with 1. lia. }
    destruct (long_data_full id b [] 0) as (p & Hp & Lp); [lia|].
    exists p. split; [apply in_or_app; now left | exact Lp].
Qed.
Print Assumptions C78_packet_limit_refuted.

(** ** C79 *)

(** After any history, a command is given that cannot be sent at all (the transport fails or times
    out before its first byte): it fails, and once the transport works again every later use sees
    its own answer; nothing of the failed command is sent.  Missing: a command of which a part has
    been sent (refuted below). *)
Theorem C79_interrupted_commands_partial : exists packets : use -> list (list Z),
  (forall u, use_ok u -> request u (packets u)) /\
  forall A (decode : list column -> bytes -> res error A) caps h1 i1 o1 u h2 i2 o2,
  history decode caps packets h1 i1 o1 -> history decode caps packets h2 i2 o2 -> use_ok u ->
  Z.testbit caps DEPRECATE_EOF_BIT = true ->
  forall c rest, c_caps c = caps -> between c (i1 ++ i2 ++ rest) ->
  exists c1 c2 c3, run_uses decode (map fst h1) c = (map snd h1, c1) /\
    run_use decode u (stalled 0 c1) = (SFailed (EProtocol (PIo IoOther)), c2) /\
    run_uses decode (map fst h2) (resumed c2) = (map snd h2, c3) /\ between c3 rest /\
    s_out (c_stream c3) = s_out (c_stream c) ++ o1 ++ o2.
Proof.
  exists use_packets. split.
  - intros u H. now apply use_packets_request.
  - intros A decode caps h1 i1 o1 u h2 i2 o2 H1 H2 Hu Hd c rest Hc Hb.
    destruct (run_uses_history A decode caps h1 i1 o1 H1 Hd c (i2 ++ rest) Hc Hb) as (c1 & E1 & B1 & D1 & O1).
    assert (Hc1 : c_caps c1 = caps) by (unfold c_caps in *; now rewrite D1).
    destruct (run_use_stalled A decode u c1 (i2 ++ rest)) as (q & Hq & E2); auto; [now rewrite Hc1|].
    match type of E2 with _ = (_, ?x) => set (c2 := x) in E2 end.
    destruct (run_uses_history A decode caps h2 i2 o2 H2 Hd (resumed c2) rest) as (c3 & E3 & B3 & D3 & O3).
    + exact Hc1.
    + split; [exact Hq|]. split; [reflexivity|]. left. split; reflexivity.
    + exists c1, c2, c3. splits; auto. rewrite O3. cbn [resumed with_limit with_budget c_stream s_out c2].
      rewrite O1, app_assoc. reflexivity.
Qed.
Print Assumptions C79_interrupted_commands_partial.

Example C79_case :
  let c := idle (frame 1 ok_packet_bytes) in
  let c1 := snd (run_use (A := bytes) (fun _ p => Ok p) (UExecute (s2l "a")) (stalled 0 c)) in
  s_out (c_stream c1) = [] /\
  fst (run_use (A := bytes) (fun _ p => Ok p) (UExecute (s2l "b")) (resumed c1)) = SDone 0 0 2 0 None None /\
  s_out (c_stream (snd (run_use (A := bytes) (fun _ p => Ok p) (UExecute (s2l "b")) (resumed c1)))) = frame 0 (3 :: s2l "b").
Proof. vm_compute. repeat split. Qed.

(** An update is cut off after 17 bytes, and another command follows: the server completes the
    first packet with the bytes of the second.  It reads a statement nobody has given, and never
    reads the second one. *)
Theorem C79_interrupted_commands_refuted :
  let run := run_use (A := bytes) (fun _ p => Ok p) in
  exists c c1 u1 u2 p1 p2 p w q rest,
  between c [] /\ use_ok u1 /\ use_ok u2 /\ request u1 [p1] /\ request u2 [p2] /\
  run u1 (stalled 17 c) = (SFailed (EProtocol (PIo IoOther)), c1) /\
  s_out (c_stream (snd (run u2 (resumed c1)))) = w ++ rest /\ frames 0 p w q /\ p <> p1 /\ p <> p2 /\
  (forall p' w' q' rest', frames 0 p' w' q' -> rest = w' ++ rest' -> p' <> p2).
Proof.
  set (t1 := s2l "update t set x=0 where id=7"). set (t2 := s2l "select y from t where y > 1").
  set (w := frame 0 (firstn 28 (3 :: firstn 12 t1 ++ frame 0 (3 :: t2)))).
  exists (idle []).
  destruct (run_use (A := bytes) (fun _ p => Ok p) (UExecute t1) (stalled 17 (idle []))) as [x c1] eqn:E.
  exists c1, (UExecute t1), (UExecute t2), (3 :: t1), (3 :: t2), (firstn 28 (3 :: firstn 12 t1 ++ frame 0 (3 :: t2))), w, 1,
    (skipn 28 (3 :: firstn 12 t1 ++ frame 0 (3 :: t2))).
  vm_compute in E. injection E as <- <-. splits.
  - split; [unfold byte_ok; cbn; lia|]. split; [reflexivity|]. left. split; reflexivity.
  - exact I.
  - exact I.
  - reflexivity.
  - reflexivity.
  - reflexivity.
  - vm_compute. reflexivity.
  - apply frame_frames. vm_compute. reflexivity.
  - vm_compute. discriminate.
  - vm_compute. discriminate.
  - intros p' w' q' rest' F Er ->. assert (Hl : (length w' <= 17)%nat).
    { apply (f_equal (@length Z)) in Er. rewrite app_length in Er.
      change (length (skipn 28 (3 :: firstn 12 t1 ++ frame 0 (3 :: t2)))) with 17%nat in Er. lia. }
    inversion F; subst; rewrite !app_length in Hl; cbn in Hl; lia.
Qed.
Print Assumptions C79_interrupted_commands_refuted.
