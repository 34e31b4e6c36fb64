(** Property C119: values are not taken for commands. *)
From Coq Require Import String ZArith List Bool Lia.
From Verif Require Import Base BaseFacts Types Utf8 ParseBuf BufMut Spec_Wire ParseBuf_proofs Framing Framing_proofs
  Packets Spec_Packets Packets_proofs Crypt Handshake ValueBin Spec_Stmt NullBitmap StmtPackets ValueText Rows
  Conversion Auth Auth_proofs Conn Spec_Conn Conn_proofs Spec_Sending Sending_proofs Properties_Command Spec_Injected
  Injected_proofs.
Import ListNotations.
Open Scope Z_scope.

(** Whatever the server answers, and wherever the last command is cut off: every packet a server reads
    from what has been sent is a packet of a command that has been given, in order.  Missing: commands
    after one that has been cut off (refuted below). *)
Theorem C119_given_partial : exists packets : use -> list (list Z),
  (forall u, use_ok u -> request u (packets u)) /\
  forall A (decode : list column -> bytes -> res error A) us u n c,
  Forall use_ok us -> use_ok u -> s_budget (c_stream c) = None -> 0 <= n ->
  let c1 := snd (run_uses decode us c) in
  let c2 := snd (run_use decode u (stalled n c1)) in
  exists sent, s_out (c_stream c2) = s_out (c_stream c) ++ sent /\
    forall ps rest, server_reads ps sent rest ->
    exists given more, some_of given (us ++ [u]) /\ ps ++ more = concat (map packets given).
Proof.
  exists use_packets. split; [intros u H; now apply use_packets_request|].
  intros A decode us u n c Hus Hu Hb Hn c1 c2.
  destruct (run_uses_adds A decode us c Hus Hb) as (given & sent & Hg & Hs & Ho & Hb1). fold c1 in Ho, Hb1.
  destruct (run_use_adds A decode u (stalled n c1) Hu) as (w & q & Hr & _ & _ & part & lost & Ew & Ho2 & _).
  { right. exists n. split; [reflexivity | exact Hn]. }
  fold c2 in Ho2. cbn [stalled with_limit with_budget c_stream s_out] in Ho2.
  exists (sent ++ part). split; [rewrite Ho2, Ho, app_assoc; reflexivity|].
  intros ps rest Hps. exists (given ++ [u]).
  assert (Hall : server_reads (concat (map use_packets (given ++ [u]))) ((sent ++ part) ++ lost) []).
  { rewrite map_app, concat_app. cbn [map concat]. rewrite app_nil_r, <- app_assoc, <- Ew.
    eapply reads_app; [exact Hs | reflexivity | eapply requests_reads; exact Hr]. }
  destruct (reads_prefix _ _ _ Hps _ _ Hall) as (more & E). exists more. split; [|exact E].
  apply some_of_app; [exact Hg|]. repeat constructor.
Qed.
Print Assumptions C119_given_partial.

(** A value that has the form of a command, sent whole and cut off. *)
Example C119_given_case :
  let u := UStmtExecute 7 1 [VBytes (frame 0 (3 :: s2l "drop"))] in
  use_ok u /\
  (exists p, server_reads [3 :: s2l "a"; p] (s_out (c_stream (snd (run_use (A := bytes) (fun _ p => Ok p) u
     (stalled 1000 (snd (run_uses (A := bytes) (fun _ p => Ok p) [UExecute (s2l "a")] (idle (frame 1 ok_packet_bytes))))))))) []) /\
  exists w, s_out (c_stream (snd (run_use (A := bytes) (fun _ p => Ok p) u (stalled 24 (idle []))))) = w /\ length w = 24%nat.
Proof.
  cbv zeta. splits.
  - cbn [use_ok]. split; [lia|]. split; [lia|]. split; [|reflexivity].
    constructor; [|constructor]. split.
    + vm_compute. repeat constructor; discriminate.
    + unfold unsigned_ok. vm_compute. split; [discriminate | reflexivity].
  - eexists. match goal with |- server_reads _ ?x _ => let y := eval vm_compute in x in
      replace x with (frame 0 (3 :: s2l "a") ++ frame 0 (skipn 10 y) ++ []) by (vm_compute; reflexivity) end.
    econstructor; [apply frame_frames; vm_compute; reflexivity|]. econstructor; [|constructor]. apply frame_frames. vm_compute. reflexivity.
  - eexists. vm_compute. split; reflexivity.
Qed.

(** Whoever can choose a value of a prepared statement decides what the server runs, if that statement
    follows one that has been cut off: for any statement cut off at least 21 bytes before its end and
    any text there is a value that makes the server run the text. *)
Theorem C119_injected_refuted :
  forall q k sql, Forall byte_ok sql -> 4 <= k -> k + 21 <= 5 + Z.of_nat (length q) ->
  Z.of_nat (length q) + Z.of_nat (length sql) < 60000 ->
  exists value, forall id, 0 <= id < 2 ^ 32 -> use_ok (UStmtExecute id 1 [VBytes value]) /\
  forall A (decode : list column -> bytes -> res error A) c rest,
  Z.testbit (c_caps c) DEPRECATE_EOF_BIT = true -> between c rest ->
  exists c1 sent first more,
    run_use decode (UExecute q) (stalled k c) = (SFailed (EProtocol (PIo IoOther)), c1) /\
    s_out (c_stream (snd (run_use decode (UStmtExecute id 1 [VBytes value]) (resumed c1)))) = s_out (c_stream c) ++ sent /\
    server_reads [first; 3 :: sql] sent more.
Proof.
  intros q k sql Hsql Hk Hm Hl. fold (lenZ q) in *. fold (lenZ sql) in *.
  pose proof (lenZ_nonneg _ q) as L1. pose proof (lenZ_nonneg _ sql) as L2.
  set (m := 5 + lenZ q - k). set (v := injected m sql).
  assert (Lv : lenZ v = m - 21 + (5 + lenZ sql) + 251) by (apply injected_length; unfold m; lia).
  exists v. intros id Hid.
  assert (Hu : use_ok (UStmtExecute id 1 [VBytes v])).
  { split; [exact Hid|]. split; [lia|]. split; [|reflexivity]. constructor; [|constructor]. split.
    - unfold v, injected. repeat (apply Forall_app; split); try apply repeat_ok.
      + rewrite wire_uint_le. apply le_bytes_ok.
      + constructor; [unfold byte_ok; lia | constructor].
      + constructor; [unfold byte_ok; lia | exact Hsql].
    - unfold unsigned_ok. rewrite Lv. unfold m. lia. }
  split; [exact Hu|]. intros A decode c rest Hd Hb.
  assert (Lq : Z.of_nat (length (3 :: q)) < 2 ^ 24 - 1) by (cbn [length]; unfold lenZ in *; lia).
  assert (Lw : lenZ (frame 0 (3 :: q)) = 5 + lenZ q) by (rewrite frame_length, lenZ_cons; lia).
  destruct (write_command_cut (3 :: q) c rest k _ _ Hd Hb (frame_frames 0 (3 :: q) Lq)) as (s & Hs & E); [lia|].
  match type of E with _ = (_, ?x) => set (c1 := x) in E end.
  destruct (injected_read q k sql id) as (first & Hr); [lia..|]. fold m in Hr. fold v in Hr. cbv zeta in Hr.
  assert (Hp : use_packets (UStmtExecute id 1 [VBytes v]) = [execute_head id v ++ v]).
  { cbn [use_packets]. rewrite (execute_one id v) by (unfold m in *; lia). unfold execute_head. now rewrite <- !app_assoc. }
  assert (Bc : between (resumed c1) rest).
  { split; [exact Hs|]. split; [reflexivity|]. left. split; reflexivity. }
  assert (Dc : Z.testbit (c_caps (resumed c1)) DEPRECATE_EOF_BIT = true) by exact Hd.
  exists c1, (takeZ k (frame 0 (3 :: q)) ++ frame 0 (execute_head id v ++ v)), first, (repeatZ 0 251).
  split; [|split; [|exact Hr]].
  - cbn [run_use]. unfold execute_query, COM_QUERY. rewrite iob, execute_is_write, E. reflexivity.
  - set (u := UStmtExecute id 1 [VBytes v]) in *. cbn [run_use u].
    assert (Lb : lenZ (execute_head id v ++ v) < 2 ^ 24 - 1).
    { rewrite lenZ_app. unfold execute_head, lenZ at 1. rewrite !app_length, !le_bytes_length. cbn [length]. unfold m in *. lia. }
    destruct (write_commands_between [execute_head id v ++ v] (resumed c1) rest Dc Bc ltac:(discriminate)) as (w & qw & Rw & _ & c2 & E2 & As).
    assert (Ew : w = frame 0 (execute_head id v ++ v)).
    { inversion Rw as [? ? ? F|? ? ? ? ? ? ? R2]; subst; [|inversion R2].
      destruct (frames_det _ _ _ _ F _ _ (frame_frames 0 (execute_head id v ++ v) Lb)) as (-> & _). reflexivity. }
    unfold stmt_execute. cbn [ps_params ps_id]. change (lenZ [VBytes v] =? 1) with true. cbn [negb].
    rewrite iob. rewrite (send_execute_packets id [VBytes v] [execute_head id v ++ v])
      by (rewrite (execute_one id v) by (unfold m in *; lia); unfold execute_head; now rewrite <- !app_assoc).
    rewrite E2. destruct (quiet_response c2) as (Ko & _).
    assert (Kd : forall B (f : ok_packet -> seen B) x, snd (use_done f x) = snd x) by (intros B f [[b|e|] c3]; reflexivity).
    rewrite Kd, Ko, As. cbn [c_stream s_out resumed with_limit with_budget c1]. rewrite Ew, <- app_assoc. reflexivity.
Qed.
Print Assumptions C119_injected_refuted.

(** The hypotheses can be met: an update cut off in its middle, and a text that removes a table. *)
Example C119_injected_case :
  let q := s2l "update person set name = 'a' where id = 7" in
  let sql := s2l "drop table person" in
  Forall byte_ok sql /\ 4 <= 20 /\ 20 + 21 <= 5 + Z.of_nat (length q) /\
  Z.of_nat (length q) + Z.of_nat (length sql) < 60000 /\ between (idle []) [] /\
  Z.testbit (c_caps (idle [])) DEPRECATE_EOF_BIT = true.
Proof.
  cbv zeta. split; [vm_compute; repeat constructor; discriminate|]. split; [lia|]. split; [vm_compute; discriminate|].
  split; [vm_compute; reflexivity|]. split; [|reflexivity].
  split; [unfold byte_ok; cbn; lia|]. split; [reflexivity|]. left. split; reflexivity.
Qed.
