(** Property C120: the server executes statements with the values given. *)
From Coq Require Import String ZArith List Bool Lia.
From Verif Require Import Base BaseFacts Types Utf8 ParseBuf BufMut Spec_Wire ParseBuf_proofs Framing Framing_proofs
  Packets Spec_Packets Packets_proofs Crypt Handshake ValueBin Spec_Stmt NullBitmap StmtPackets StmtPackets_proofs ValueText Rows
  Conversion Auth Auth_proofs Conn Spec_Conn Conn_proofs Spec_Sending Sending_proofs Properties_Command Spec_Injected
  Injected_proofs Spec_LongData LongData_proofs.
Import ListNotations.
Open Scope Z_scope.

(** Whatever the server answers, a server that keeps long data executes the statements asked for, each
    with the values given for it, and every one that has not failed is among them; no long data is left
    over for later.  Missing: executions after one that has been cut off (refuted below). *)
Theorem C120_values_partial : forall A (decode : list column -> bytes -> res error A) params us c,
  Forall use_ok us -> Forall (known_params params) us -> s_budget (c_stream c) = None ->
  exists given sent ps ex,
    s_out (c_stream (snd (run_uses decode us c))) = s_out (c_stream c) ++ sent /\
    performed given (fst (run_uses decode us c)) us /\ server_reads ps sent [] /\
    server_executes params [] ps = Some (ex, []) /\ Forall2 same_execution (executions given) ex.
Proof.
  intros A decode params us c Hu Hp Hb.
  destruct (run_uses_performed A decode us c Hu Hb) as (given & sent & Hg & Hs & Ho & _).
  destruct (executes_requests params given) as (ex & E & F); [eapply performed_Forall; eauto..|].
  exists given, sent, (concat (map use_packets given)), ex. auto.
Qed.
Print Assumptions C120_values_partial.

(** If the last use is cut off, the server has performed some of the executions, in order, and has been
    given no other values. *)
Theorem C120_cut_off_partial : forall A (decode : list column -> bytes -> res error A) params us u n c,
  Forall use_ok us -> use_ok u -> Forall (known_params params) (us ++ [u]) -> s_budget (c_stream c) = None -> 0 <= n ->
  let c1 := snd (run_uses decode us c) in
  let c2 := snd (run_use decode u (stalled n c1)) in
  exists sent, s_out (c_stream c2) = s_out (c_stream c) ++ sent /\
    forall ps rest, server_reads ps sent rest -> exists given ex m more,
      performed given (fst (run_uses decode us c)) us /\ server_executes params [] ps = Some (ex, m) /\
      Forall2 same_execution (executions (given ++ [u])) (ex ++ more).
Proof.
  intros A decode params us u n c Hus Hu Hp Hb Hn c1 c2.
  destruct (run_uses_performed A decode us c Hus Hb) as (given & sent & Hg & Hs & Ho & Hb1). fold c1 in Ho, Hb1.
  destruct (run_use_adds A decode u (stalled n c1) Hu) as (w & q & Hr & _ & _ & part & lost & Ew & Ho2 & _).
  { right. exists n. split; [reflexivity | exact Hn]. }
  fold c2 in Ho2. cbn [stalled with_limit with_budget c_stream s_out] in Ho2.
  exists (sent ++ part). split; [rewrite Ho2, Ho, app_assoc; reflexivity|].
  intros ps rest Hps. apply Forall_app in Hp as (Hp1 & Hp2).
  assert (Hall : server_reads (concat (map use_packets (given ++ [u]))) ((sent ++ part) ++ lost) []).
  { rewrite map_app, concat_app. cbn [map concat]. rewrite app_nil_r, <- app_assoc, <- Ew.
    eapply reads_app; [exact Hs | reflexivity | eapply requests_reads; exact Hr]. }
  destruct (reads_prefix _ _ _ Hps _ _ Hall) as (more & E).
  destruct (executes_requests params (given ++ [u])) as (ex & Ee & F).
  { apply Forall_app. split; [eapply performed_Forall; eauto | auto]. }
  { apply Forall_app. split; [eapply performed_Forall; eauto | auto]. }
  rewrite <- E, server_executes_app in Ee. destruct (server_executes params [] ps) as [[ex1 m1]|] eqn:E1; [|discriminate].
  cbn [obind] in Ee. destruct (server_executes params m1 more) as [[ex2 m2]|]; [|discriminate]. injection Ee as <- ->.
  exists given, ex1, m1, ex2. auto.
Qed.
Print Assumptions C120_cut_off_partial.

(** Two executions of the same statement, the second with other values. *)
Example C120_values_case :
  let us := [UStmtExecute 7 1 [VBytes (s2l "a")]; UQuery (s2l "q") 1; UStmtExecute 7 1 [VUTiny 5]] in
  Forall use_ok us /\ Forall (known_params (fun _ => 1%nat)) us /\
  s_budget (c_stream (idle (frame 1 ok_packet_bytes ++ frame 1 ok_packet_bytes ++ frame 1 ok_packet_bytes))) = None /\
  exists ps, server_reads ps (s_out (c_stream (snd (run_uses (A := bytes) (fun _ p => Ok p) us
    (idle (frame 1 ok_packet_bytes ++ frame 1 ok_packet_bytes ++ frame 1 ok_packet_bytes)))))) [] /\
  server_executes (fun _ => 1%nat) [] ps = Some ([(7, [VBytes (s2l "a")]); (7, [VUTiny 5])], []).
Proof.
  cbv zeta. split; [|split; [|split; [reflexivity|]]].
  - repeat constructor; cbn; try lia; try discriminate; unfold byte_ok; lia.
  - repeat constructor.
  - exists [[23; 7; 0; 0; 0; 0; 1; 0; 0; 0; 0; 1; 253; 0; 1; 97]; [3; 113]; [23; 7; 0; 0; 0; 0; 1; 0; 0; 0; 0; 1; 1; 128; 5]].
    split; [|vm_compute; reflexivity].
    match goal with |- server_reads [?a; ?b; ?d] ?x _ => replace x with (frame 0 a ++ frame 0 b ++ frame 0 d ++ [])
      by (vm_compute; reflexivity) end.
    repeat (econstructor; [apply frame_frames; vm_compute; reflexivity|]). constructor.
Qed.

(** An execution that is cut off between two packets of its long data and then repeated is answered as
    usual, but the server executes it with the part sent before in front of the value.  For any value of
    16 MiB or more and any answer to the repeated execution. *)
Theorem C120_repeated_refuted : forall id b, 0 <= id < 2 ^ 32 -> Forall byte_ok b ->
  2 ^ 24 <= Z.of_nat (length b) < 2 ^ 32 ->
  let u := UStmtExecute id 1 [VBytes b] in use_ok u /\
  exists n part q, part <> [] /\
  forall A (decode : list column -> bytes -> res error A) params c a y pkts wi q' rest,
  params id = 1%nat -> Z.testbit (c_caps c) DEPRECATE_EOF_BIT = true ->
  answer_packets (c_caps c) a pkts -> framed q pkts wi q' -> expected decode u a y -> between c (wi ++ rest) ->
  exists c1 c2 sent ps,
    run_use decode u (stalled n c) = (SFailed (EProtocol (PIo IoOther)), c1) /\
    run_use decode u (resumed c1) = (y, c2) /\ s_out (c_stream c2) = s_out (c_stream c) ++ sent /\
    server_reads ps sent [] /\ server_executes params [] ps = Some ([(id, [VBytes (part ++ b)])], []).
Proof.
  intros id b Hid Hb Hl u. fold (lenZ b) in Hl.
  assert (Hu : use_ok u).
  { split; [exact Hid|]. split; [lia|]. split; [|reflexivity]. constructor; [|constructor]. split; [exact Hb|].
    unfold unsigned_ok. lia. }
  split; [exact Hu|].
  destruct (one_long id b Hl Hb Hid) as (exec & Ep & Hx).
  set (ds := chunks (length b) (MAX_PAYLOAD_LEN - 6) b) in *.
  assert (Ed : exists r, ds = takeZ (MAX_PAYLOAD_LEN - 6) b :: r).
  { unfold ds. destruct b as [|x b]; [change (lenZ (@nil Z)) with 0 in Hl; lia|]. cbn [length chunks]. eexists. reflexivity. }
  destruct Ed as (ds' & Ed). set (part := takeZ (MAX_PAYLOAD_LEN - 6) b) in *.
  assert (Lp : lenZ part = MAX_PAYLOAD_LEN - 6) by (apply lenZ_takeZ_le; rewrite MAX_val; lia).
  assert (Hpart : Forall byte_ok part).
  { pose proof (take_drop _ (MAX_PAYLOAD_LEN - 6) b) as T. fold part in T. rewrite <- T in Hb.
    now apply Forall_app in Hb as (Hb1 & _). }
  assert (Hcat : concat ds = b) by (apply chunks_concat; [rewrite MAX_val; lia | lia]).
  assert (Up : use_packets u = map (long_data_serialize id 0) ds ++ [exec]) by (cbn [use_packets u]; now rewrite Ep).
  destruct (write_commands_stop [long_data_serialize id 0 part]) as (w1 & Hr1 & Hstop).
  destruct (write_commands_between (use_packets u) (idle []) []) as (w & q & Hr & _); [reflexivity| |apply (use_packets_request u Hu)|].
  { split; [unfold byte_ok; cbn; lia|]. split; [reflexivity|]. left. split; reflexivity. }
  exists (lenZ w1), part, q. split.
  { intros E. rewrite E in Lp. change (lenZ (@nil Z)) with 0 in Lp. rewrite MAX_val in Lp. lia. }
  intros A decode params c a y pkts wi q' rest Hp Hd Ha Hf Hy Hbt.
  destruct (Hstop (map (long_data_serialize id 0) ds' ++ [exec]) c (wi ++ rest) Hd Hbt) as (c1 & E1 & Hb1 & Ho1 & Hd1).
  { now destruct (map (long_data_serialize id 0) ds'). }
  assert (Dd : Z.testbit (c_caps (resumed c1)) DEPRECATE_EOF_BIT = true).
  { unfold c_caps in *. cbn [resumed with_limit c_data]. now rewrite Hd1. }
  assert (Ha1 : answer_packets (c_caps (resumed c1)) a pkts).
  { unfold c_caps in *. cbn [resumed with_limit c_data]. now rewrite Hd1. }
  destruct (run_use_served A decode u a y w q pkts wi q' (resumed c1) rest Dd Hu Hr Ha1 Hf Hy Hb1) as (c2 & E2 & _ & _ & Ho2).
  exists c1, c2, (w1 ++ w), ([long_data_serialize id 0 part] ++ use_packets u).
  split; [|split; [exact E2|split; [|split]]].
  - cbn [run_use u]. unfold stmt_execute. cbn [ps_params ps_id]. change (lenZ [VBytes b] =? 1) with true. cbn [negb].
    rewrite iob, (send_execute_packets id [VBytes b] _ Ep). 
    replace (map (long_data_serialize id 0) ds ++ [exec])
      with ([long_data_serialize id 0 part] ++ map (long_data_serialize id 0) ds' ++ [exec]) by (rewrite Ed; reflexivity).
    match type of E1 with ?l = _ => match goal with |- context [write_commands ?x ?s] => change (write_commands x s) with l end end.
    rewrite E1. reflexivity.
  - rewrite Ho2. cbn [resumed with_limit with_budget c_stream s_out]. rewrite Ho1, app_assoc. reflexivity.
  - eapply reads_app; [exact Hr1 | reflexivity | eapply requests_reads; exact Hr].
  - rewrite Up, app_assoc, server_executes_app.
    assert (Hrec : srv_receive id ([long_data_serialize id 0 part] ++ map (long_data_serialize id 0) ds)
      = Some (map (fun d => (0%nat, d)) (part :: ds))) by apply (receive_map id 0 (part :: ds) Hid ltac:(lia)).
    rewrite (executes_receive params id _ _ [] Hrec). cbn [obind app].
    rewrite (executes_execute params id _ exec 0 1 [VBytes (part ++ b)]); [cbn [obind]; now rewrite used_up_own|].
    rewrite Hp. apply Hx.
    + apply Forall_app. split; assumption.
    + rewrite lenZ_app, Lp, MAX_val. lia.
    + rewrite held_pieces by discriminate. cbn [concat]. now rewrite Hcat.
Qed.
Print Assumptions C120_repeated_refuted.

(** The hypotheses can be met: 16 MiB of zeros, answered with OK. *)
Example C120_repeated_case :
  let b := repeat 0 (Z.to_nat (2 ^ 24)) in
  Forall byte_ok b /\ 2 ^ 24 <= Z.of_nat (length b) < 2 ^ 32 /\
  forall q, exists q', framed q [ok_packet_bytes] (frame q ok_packet_bytes) q' /\
    between (idle (frame q ok_packet_bytes)) (frame q ok_packet_bytes ++ []).
Proof.
  cbv zeta. split; [|split].
  - apply Forall_forall. intros x Hx. apply repeat_spec in Hx. subst. unfold byte_ok. lia.
  - rewrite repeat_length. lia.
  - intros q. eexists. split; [rewrite <- (app_nil_r (frame q ok_packet_bytes)); econstructor; [apply frame_frames; vm_compute; reflexivity | constructor]|].
    rewrite app_nil_r. split; [unfold byte_ok; cbn; lia|]. split; [reflexivity|]. left. split; reflexivity.
Qed.
