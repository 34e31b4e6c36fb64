(** Proofs about bytes of a row that are read as packets (C118). *)
From Coq Require Import String ZArith List Bool Lia.
From Verif Require Import Base BaseFacts Types Utf8 ParseBuf BufMut Spec_Wire ParseBuf_proofs Framing Framing_proofs
  Packets Spec_Packets Packets_proofs Crypt Handshake ValueBin Spec_Stmt StmtPackets ValueText Rows
  Conversion Auth Auth_proofs Conn Spec_Conn Conn_proofs Spec_Fault Fault_proofs.
Import ListNotations.
Open Scope Z_scope.

(** A packet of one frame that has not arrived whole: the number of the next packet stays. *)
Lemma conn_read_within : forall c p part lost, Z.of_nat (length p) < 2 ^ 24 -> 
  wire_uint 3 (Z.of_nat (length p)) ++ [c_seq c] ++ p = part ++ lost -> lost <> [] -> s_in (c_stream c) = part ->
  conn_read c = (Err (lost_error c), drained c (c_seq c)).
Proof.
  intros c p part lost Hl He Hn Hi. unfold conn_read, read_packet. cbn [read_packet_to_buf].
  rewrite (read_chunk_short p (c_seq c) [] (c_stream c) part lost); auto.
Qed.

Lemma nexts_app : forall A (decode : list column -> bytes -> res error A) k m s,
  nexts decode (k + m) s =
  let '(l1, s1) := nexts decode k s in let '(l2, s2) := nexts decode m s1 in (l1 ++ l2, s2).
Proof.
  intros A decode. induction k as [|k IH]; intros m s; cbn [Nat.add nexts].
  - destruct (nexts decode m s); reflexivity.
  - destruct (rs_next decode s) as [r s1]. rewrite IH. destruct (nexts decode k s1) as [l1 s2].
    destruct (nexts decode m s2). reflexivity.
Qed.

Definition shown {A} (decode : list column -> bytes -> res error A) (cols : list column) (p : bytes) : res error (option A) :=
  match decode cols p with Ok a => Ok (Some a) | Err e => Err e | Panic => Panic end.

Lemma nexts_whole : forall A (decode : list column -> bytes -> res error A) cols rows c w q rest,
  Z.testbit (c_caps c) DEPRECATE_EOF_BIT = true -> Forall row_packet rows -> byte_ok (c_seq c) ->
  framed (c_seq c) rows w q -> s_in (c_stream c) = w ++ rest ->
  nexts decode (length rows) (c, mkSet cols None) = (map (shown decode cols) rows, (moved c rest q, mkSet cols None)).
Proof.
  intros A decode cols. induction rows as [|p rows IH]; intros c w q rest Hc Hr Hs Hf Hi;
    inversion Hf as [|? ? w0 q0 ? w' ? Hf0 Hf1]; subst.
  - cbn [length nexts map]. f_equal. f_equal. cbn [app] in Hi. destruct c as [[i e o b] s d pd]. cbn in Hi. subst. reflexivity.
  - inversion_clear Hr as [|? ? Hp Hr']. rewrite <- app_assoc in Hi. cbn [length nexts map].
    rewrite (next_row A decode cols c p w0 q0 (w' ++ rest)) by assumption.
    rewrite (IH (moved c (w' ++ rest) q0) w' q rest); auto.
    cbn [moved c_seq]. eapply frames_seq_ok; eauto.
Qed.

(** A query whose rows arrive up to the inside of one; the rest of that row is then read as packets. *)
Lemma inside_row : forall A (decode : list column -> bytes -> res error A) q cols defs rows pre inner w qs w1 qm
  status warnings last fin qe h i o c,
  Z.testbit (c_caps c) DEPRECATE_EOF_BIT = true ->
  requests [3 :: q] w qs -> cols <> [] -> Z.of_nat (length cols) < 65536 ->
  Forall2 (column_layout_by short_name_text) cols defs -> Forall row_packet rows ->
  framed qs ((wire_lenenc (Z.of_nat (length cols)) :: defs) ++ rows) w1 qm ->
  Z.of_nat (length (pre ++ inner)) < 2 ^ 24 -> inner <> [] ->
  end_of_rows status warnings last -> frames qm last fin qe ->
  history decode (c_caps c) use_packets h i o ->
  between c (w1 ++ wire_uint 3 (Z.of_nat (length (pre ++ inner))) ++ [qm] ++ pre) ->
  exists c1 c2, run_use decode (UQuery q (S (length rows))) c = (SRows cols (map (shown decode cols) rows ++ [Err (lost_error c)]), c1) /\
    forall rest, run_uses decode (map fst h) (arrive (fin ++ i ++ rest) c1) = (map snd h, c2 rest) /\ between (c2 rest) rest.
Proof.
  intros A decode q cols defs rows pre inner w qs w1 qm status warnings last fin qe h i o c Hd Hr Hn Hl Hds Hrs Hf Hlen Hin He Hfin Hh Hb.
  destruct (write_commands_between [3 :: q] c _ Hd Hb) as (w0 & q0 & R0 & Hq & c1 & E & As); [discriminate|].
  destruct (requests_det _ _ _ R0 _ _ Hr) as (-> & ->).
  assert (Hx : execute_command 3 q c = (Ok tt, c1)).
  { rewrite execute_is_write. cbn [write_commands] in E. rewrite iob in E.
    revert E. destruct (write_command (3 :: q) c) as [[[]|?|] c2]; unfold ioret; congruence. }
  destruct (framed_app _ _ _ _ _ Hf) as (wa & qa & wb & Fa & Fb & ->).
  set (tail := wire_uint 3 (Z.of_nat (length (pre ++ inner))) ++ [qm] ++ pre) in *.
  assert (Hc1 : c1 = mkConn (mkStream ((wa ++ wb) ++ tail) (s_end (c_stream c)) (s_out (c_stream c) ++ w) None) qs (c_data c) false) by exact As.
  assert (Hqa : byte_ok qa) by (eapply framed_seq_ok; eauto).
  assert (Hqm : byte_ok qm) by (eapply framed_seq_ok; eauto).
  assert (Hread : rs_read c1 = (Ok (mkSet cols None), mkConn (with_in (c_stream c1) (wb ++ tail)) qa (c_data c1) true)).
  { eapply rs_read_rows; try eassumption.
    - rewrite Hc1. exact Hq.
    - rewrite Hc1. exact Fa.
    - rewrite Hc1. cbn [c_stream s_in]. now rewrite <- app_assoc. }
  set (c2 := mkConn (with_in (c_stream c1) (wb ++ tail)) qa (c_data c1) true) in *.
  assert (Hw : nexts decode (length rows) (c2, mkSet cols None) =
    (map (shown decode cols) rows, (moved c2 tail qm, mkSet cols None))).
  { eapply nexts_whole; try eassumption; [subst c2; rewrite Hc1; exact Hd | reflexivity]. }
  set (c3 := moved c2 tail qm) in *.
  assert (Hlast : rs_next decode (c3, mkSet cols None) = (Err (lost_error c), (drained c3 qm, mkSet cols None))).
  { unfold rs_next. cbn [rs_ok rs_columns].
    rewrite (conn_read_within c3 (pre ++ inner) tail inner); auto.
    subst c3 c2. rewrite Hc1. reflexivity. }
  set (c4 := drained c3 qm) in *.
  exists c4, (fun rest => snd (run_uses decode (map fst h) (arrive (fin ++ i ++ rest) c4))). split.
  - unfold run_use, query. rewrite iob. change COM_QUERY with 3. rewrite Hx. cbv beta. unfold use_rows. rewrite Hread.
    rewrite <- Nat.add_1_r, nexts_app, Hw. cbn [nexts]. rewrite Hlast. reflexivity.
  - intros rest.
    assert (B : between (arrive (fin ++ i ++ rest) c4) (i ++ rest)).
    { split; [exact Hqm|]. split; [subst c4 c3 c2; rewrite Hc1; reflexivity|]. right.
      split; [reflexivity|]. exists [], status, warnings, last, fin, qe. split; [constructor|]. split; [assumption|]. split.
      - cbn [app]. rewrite <- (app_nil_r fin). econstructor; [exact Hfin | constructor].
      - reflexivity. }
    destruct (run_uses_history A decode (c_caps c) h i o Hh Hd (arrive (fin ++ i ++ rest) c4) rest) as (c5 & E5 & B5 & _ & _).
    { subst c4 c3 c2. rewrite Hc1. reflexivity. }
    { exact B. }
    rewrite E5. auto.
Qed.
