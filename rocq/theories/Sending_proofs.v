(** Proofs about sending: disconnecting, packet sizes and interrupted writes. *)
From Coq Require Import String ZArith List Bool Lia.
From Verif Require Import Base BaseFacts Types Utf8 ParseBuf BufMut Spec_Wire ParseBuf_proofs Framing Framing_proofs
  Packets Spec_Packets Packets_proofs Crypt Handshake ValueBin ValueBin_proofs NullBitmap Spec_Stmt StmtPackets StmtPackets_proofs
  ValueText Rows Conversion Auth Auth_proofs Conn Spec_Conn Conn_proofs Spec_Sending.
Import ListNotations.
Open Scope Z_scope.
Open Scope io_scope.

(** ** Disconnecting *)

Lemma disconnect_between : forall c rest, Z.testbit (c_caps c) DEPRECATE_EOF_BIT = true -> between c rest ->
  exists c', disconnect c = (Ok tt, c') /\ s_out (c_stream c') = s_out (c_stream c) ++ [1; 0; 0; 0; 1] /\
    s_in (c_stream c') = rest.
Proof.
  intros c rest Hc Hb. unfold disconnect, COM_QUIT. rewrite execute_is_write.
  destruct (write_command_between [1] c rest Hc Hb) as (w & q & Hf & c' & E & ->).
  eexists. split; [exact E|]. cbn [c_stream s_out s_in]. split; [|reflexivity].
  pose proof (frames_last 0 [1]) as F. cbn [length] in F.
  destruct (frames_det _ _ _ _ Hf _ _ (F ltac:(lia))) as (-> & _). reflexivity.
Qed.

(** ** Sizes *)

Lemma chunks_size : forall size, 0 <= size -> forall fuel data c, In c (chunks fuel size data) -> lenZ c <= size.
Proof.
  intros size Hs. induction fuel as [|fuel IH]; intros [|x data] c Hin; cbn [chunks] in Hin; try contradiction.
  destruct Hin as [<- | Hin]; [|eauto]. rewrite lenZ_takeZ by lia. lia.
Qed.

Lemma lenZ_long_data : forall id i d, lenZ (long_data_serialize id i d) = 7 + lenZ d.
Proof. intros id i d. unfold long_data_serialize. rewrite !lenZ_app, !lenZ_le_bytes. lia. Qed.

Lemma long_data_size : forall id params i p, In p (long_data_packets id i params) -> lenZ p <= 2 ^ 24.
Proof.
  intros id. induction params as [|v params IH]; intros i p Hin; cbn [long_data_packets] in Hin; [contradiction|].
  apply in_app_or in Hin as [Hin|Hin]; [|eauto].
  destruct v as [ | | | | | | | | | | |b| | | ]; cbn [long_data_packets_of] in Hin; try contradiction.
  destruct b as [|x b].
  - destruct Hin as [<- | []]. rewrite lenZ_long_data, lenZ_nil. lia.
  - apply in_map_iff in Hin as (d & <- & Hd). rewrite lenZ_long_data.
    apply chunks_size in Hd; [|rewrite MAX_val; lia]. rewrite MAX_val in Hd. lia.
Qed.

(** The first piece of long data fills 2^24 bytes, one more than a frame holds. *)
Lemma long_data_full : forall id b r i, lenZ b >= MAX_PAYLOAD_LEN - 6 ->
  exists p, In p (long_data_packets id i (VBytes b :: r)) /\ lenZ p = 2 ^ 24.
Proof.
  intros id b r i H. pose proof MAX_val as M. destruct b as [|x b]; [rewrite lenZ_nil in H; lia|].
  exists (long_data_serialize id (i mod 65536) (takeZ (MAX_PAYLOAD_LEN - 6) (x :: b))). split.
  - cbn [long_data_packets]. apply in_or_app. left. cbn [long_data_packets_of length chunks map]. now left.
  - rewrite lenZ_long_data. rewrite lenZ_takeZ by lia. lia.
Qed.

Lemma param_data_long_size : forall v, lenZ (param_data true v) <= 13.
Proof.
  intros v. destruct v; cbn [param_data value_serialize];
    repeat match goal with |- context [all0 ?l] => destruct (all0 l) end;
    rewrite ?lenZ_app, ?lenZ_le_bytes, ?lenZ_cons, ?lenZ_nil; lia.
Qed.

Lemma flat_data_long_size : forall params, lenZ (flat_map (param_data true) params) <= 13 * lenZ params.
Proof.
  induction params as [|p params IH]; [rewrite !lenZ_nil; lia|].
  cbn [flat_map]. rewrite lenZ_app, lenZ_cons. pose proof (param_data_long_size p). lia.
Qed.

Lemma execute_size : forall id params r, Forall value_ok params -> ~ In (VDate 0 0 0) params -> lenZ params < 65536 ->
  execute_new id params = Some r -> lenZ (execute_serialize r) <= MAX_PAYLOAD_LEN.
Proof.
  intros id params r Hok Hd Hn E. pose proof MAX_val as M.
  destruct (execute_new_spec id params Hok) as (bm & E' & Hl & _). rewrite E in E'. injection E' as ->.
  assert (Hlz : lenZ bm = (lenZ params + 7) / 8).
  { unfold lenZ. rewrite Hl, Nat2Z.inj_div, Nat2Z.inj_add. reflexivity. }
  pose proof (lenZ_nonneg _ params) as H0.
  assert (B : lenZ (match params with [] => [] | _ => bm ++ le_bytes 1 1 end) <= (lenZ params + 7) / 8 + 1).
  { destruct params; [rewrite lenZ_nil; lia|]. rewrite lenZ_app, lenZ_le_bytes, Hlz. lia. }
  unfold execute_serialize. cbn [ex_stmt_id ex_flags ex_iteration_count ex_bitmap ex_params_flags ex_params ex_as_long_data].
  rewrite !lenZ_app, !lenZ_le_bytes, lenZ_flat_types.
  destruct (Z.gtb_spec (11 + (lenZ params + 7) / 8 + lenZ params * 2 + params_len params) MAX_PAYLOAD_LEN) as [L|L].
  - pose proof (flat_data_long_size params) as F.
    assert ((lenZ params + 7) / 8 <= lenZ params) by (clear - H0; lia). lia.
  - rewrite lenZ_flat_data by assumption. lia.
Qed.

Lemma use_packets_size : forall u, use_ok u -> moderate (2 ^ 24) u -> within (2 ^ 24) (use_packets u).
Proof.
  assert (St : forall id params values, 0 <= id < 2 ^ 32 /\ params < 65536 /\ Forall value_ok values /\ Z.of_nat (length values) = params ->
    ~ In (VDate 0 0 0) values ->
    within (2 ^ 24) (match execute_packets id values with Some ps => ps | None => [] end)).
  { intros id params values (_ & Hp & Hv & Hl) Hd. unfold execute_packets, within.
    destruct (execute_new id values) as [r|] eqn:E; [|constructor].
    apply Forall_app. split.
    - destruct (ex_as_long_data r); [|constructor]. apply Forall_forall. intros p Hin.
      exact (long_data_size _ _ _ _ Hin).
    - constructor; [|constructor]. pose proof (execute_size id values r Hv Hd) as S. rewrite MAX_val in S.
      unfold lenZ in S. specialize (S ltac:(lia) E). lia. }
  intros [q k|q|q|id params values k|id params values] Hu Hm; cbn [use_packets moderate] in *;
    try (constructor; [cbn [length]; lia | constructor]); eapply St; eauto.
Qed.

(** ** Interrupted writes *)

(** The transport accepts [n] more bytes, then fails; and it works again. *)
Definition with_budget (b : option Z) (s : stream) : stream := mkStream (s_in s) (s_end s) (s_out s) b.
Definition with_limit (b : option Z) (c : conn) : conn := mkConn (with_budget b (c_stream c)) (c_seq c) (c_data c) (c_pending c).
Definition stalled (n : Z) : conn -> conn := with_limit (Some n).
Definition resumed : conn -> conn := with_limit None.

Lemma read_exact_budget : forall n b s,
  read_exact n (with_budget b s) = (fst (read_exact n s), with_budget b (snd (read_exact n s))).
Proof. intros n b s. unfold read_exact. cbn [with_budget s_in s_end]. destruct (lenZ (s_in s) <? n); reflexivity. Qed.

Lemma read_chunk_budget : forall dst b s,
  read_chunk_to_buf dst (with_budget b s) = (fst (read_chunk_to_buf dst s), with_budget b (snd (read_chunk_to_buf dst s))).
Proof.
  intros dst b s. unfold read_chunk_to_buf. rewrite !iob, read_exact_budget.
  destruct (read_exact 4 s) as [[m|e|] s1]; cbn [fst snd]; try reflexivity.
  destruct (read_u32 (takeZ 3 m) =? 0); [reflexivity|]. rewrite !iob, read_exact_budget.
  destruct (read_exact (read_u32 (takeZ 3 m)) s1) as [[x|e|] s2]; reflexivity.
Qed.

Lemma read_packet_budget : forall b fuel seq dst s,
  read_packet_to_buf fuel seq dst (with_budget b s) =
  (fst (read_packet_to_buf fuel seq dst s), with_budget b (snd (read_packet_to_buf fuel seq dst s))).
Proof.
  intros b. induction fuel as [|fuel IH]; intros seq dst s; [reflexivity|]. cbn [read_packet_to_buf].
  rewrite read_chunk_budget. destruct (read_chunk_to_buf dst s) as [[[[d q] l]|e|] s1]; cbn [fst snd]; try reflexivity.
  destruct (negb (seq =? q)); [reflexivity|]. destruct l; [reflexivity|]. apply IH.
Qed.

Lemma conn_read_budget : forall b c, conn_read (with_limit b c) = (fst (conn_read c), with_limit b (snd (conn_read c))).
Proof.
  intros b c. unfold conn_read, read_packet. cbn [with_limit c_seq c_stream c_data c_pending with_budget s_in].
  fold (with_budget b (c_stream c)). rewrite read_packet_budget.
  destruct (read_packet_to_buf (S (length (s_in (c_stream c)))) (c_seq c) [] (c_stream c)) as [[r q] s]. reflexivity.
Qed.

Lemma cleanup_loop_budget : forall b fuel c,
  cleanup_loop fuel (with_limit b c) = (fst (cleanup_loop fuel c), with_limit b (snd (cleanup_loop fuel c))).
Proof.
  intros b. induction fuel as [|fuel IH]; intros c; [reflexivity|]. cbn [cleanup_loop]. rewrite !iob, conn_read_budget.
  destruct (conn_read c) as [[p|e|] c1]; cbn [fst snd]; try reflexivity.
  change (c_caps (with_limit b c1)) with (c_caps c1). rewrite !iob. unfold iores at 1 3.
  destruct (is_last (c_caps c1) p) as [[|]|e|]; try reflexivity.
  - unfold iobind, set_pending, iores, ioret. destruct (of_protocol (read_eof p (c_caps c1))); reflexivity.
  - apply IH.
Qed.

Lemma cleanup_budget : forall b c, cleanup (with_limit b c) = (fst (cleanup c), with_limit b (snd (cleanup c))).
Proof.
  intros b c. unfold cleanup. change (c_pending (with_limit b c)) with (c_pending c).
  change (s_in (c_stream (with_limit b c))) with (s_in (c_stream c)).
  destruct (c_pending c); [apply cleanup_loop_budget | reflexivity].
Qed.

Lemma write_chunks_seq : forall fuel seq b s, byte_ok seq -> byte_ok (snd (fst (write_chunks fuel seq b s))).
Proof.
  induction fuel as [|fuel IH]; intros seq b s Hs; [exact Hs|]. cbn [write_chunks]. destruct b as [|x b]; [exact Hs|].
  destruct ((write_all (frame_header (Z.min (lenZ (x :: b)) MAX_PAYLOAD_LEN) seq) ;;;
             write_all (takeZ (Z.min (lenZ (x :: b)) MAX_PAYLOAD_LEN) (x :: b))) s) as [[u|e|] s1]; try exact Hs.
  apply IH. unfold byte_ok. apply Z.mod_pos_bound. lia.
Qed.

Lemma write_packet_seq : forall seq b s, byte_ok seq -> byte_ok (snd (fst (write_packet seq b s))).
Proof.
  intros seq b s Hs. unfold write_packet. pose proof (write_chunks_seq (S (length b)) seq b s Hs) as H.
  destruct (write_chunks (S (length b)) seq b s) as [[[u|e|] q] s1]; try exact H.
  destruct (lenZ b mod MAX_PAYLOAD_LEN =? 0); [|exact H].
  destruct (write_all (le_bytes 4 (Z.shiftl q 24)) s1) as [[v|e|] s2]; try exact H.
  unfold byte_ok. apply Z.mod_pos_bound. lia.
Qed.

(** Nothing can be sent: the rest of a pending result is read, and the command fails. *)
Lemma write_command_stalled : forall p c rest, Z.testbit (c_caps c) DEPRECATE_EOF_BIT = true -> between c rest ->
  exists q, byte_ok q /\ write_command p (stalled 0 c) =
    (Err (EProtocol (PIo IoOther)),
     mkConn (mkStream rest (s_end (c_stream c)) (s_out (c_stream c)) (Some 0)) q (c_data c) false).
Proof.
  intros p c rest Hc Hb. destruct (cleanup_between c rest Hc Hb) as (x & q0 & E & Hq).
  unfold write_command, stalled. rewrite iob, cleanup_budget, E. cbn [fst snd]. rewrite iob. unfold reset_seq.
  unfold conn_write. cbn [c_seq c_stream c_data c_pending with_limit].
  set (s := with_budget (Some 0) (with_in (c_stream c) rest)).
  destruct (write_packet_spec 0 p ltac:(unfold byte_ok; lia)) as (w & q & Hf & Hw).
  assert (Hbo : budget_ok s) by (right; exists 0; split; [reflexivity|lia]).
  specialize (Hw s Hbo). unfold write_all in Hw. cbn [s with_budget s_budget] in Hw.
  pose proof (frames_wire_length _ _ _ _ Hf) as Lw.
  replace (lenZ w <=? 0) with false in Hw by (unfold lenZ; lia). destruct Hw as (q1 & Hw).
  pose proof (write_packet_seq 0 p s ltac:(unfold byte_ok; lia)) as Hq1. fold s. rewrite Hw in Hq1 |- *. cbn [fst snd] in Hq1.
  exists q1. split; [exact Hq1|]. rewrite takeZ_0, app_nil_r by lia. reflexivity.
Qed.

(** A use that cannot be sent leaves the connection as after a finished result. *)
Lemma run_use_stalled : forall A (decode : list column -> bytes -> res error A) u c rest,
  Z.testbit (c_caps c) DEPRECATE_EOF_BIT = true -> use_ok u -> between c rest ->
  exists q, byte_ok q /\ run_use decode u (stalled 0 c) =
    (SFailed (EProtocol (PIo IoOther)),
     mkConn (mkStream rest (s_end (c_stream c)) (s_out (c_stream c)) (Some 0)) q (c_data c) false).
Proof.
  intros A decode u c rest Hc Hu Hb.
  destruct (use_packets_request u Hu) as (Hn & _).
  destruct (use_packets u) as [|p ps] eqn:Eu; [contradiction|].
  destruct (write_command_stalled p c rest Hc Hb) as (q & Hq & E). exists q. split; [exact Hq|].
  assert (S2 : forall id values l, execute_packets id values = Some l -> l = p :: ps ->
    forall B (k : unit -> IO conn B), iobind (send_execute id values) k (stalled 0 c) =
      (Err (EProtocol (PIo IoOther)),
       mkConn (mkStream rest (s_end (c_stream c)) (s_out (c_stream c)) (Some 0)) q (c_data c) false)).
  { intros id values l El -> B k. rewrite iob, (send_execute_packets _ _ _ El). cbn [write_commands]. rewrite iob, E. reflexivity. }
  assert (S1 : forall cmd data, p = cmd :: data -> forall B (k : unit -> IO conn B), iobind (execute_command cmd data) k (stalled 0 c) =
      (Err (EProtocol (PIo IoOther)),
       mkConn (mkStream rest (s_end (c_stream c)) (s_out (c_stream c)) (Some 0)) q (c_data c) false)).
  { intros cmd data -> B k. rewrite iob, execute_is_write, E. reflexivity. }
  destruct u as [qq k|qq|qq|id params values k|id params values]; cbn [run_use use_packets] in *.
  - injection Eu as <- <-. unfold query, COM_QUERY. rewrite (S1 _ _ eq_refl). reflexivity.
  - injection Eu as <- <-. unfold execute_query, COM_QUERY. rewrite (S1 _ _ eq_refl). reflexivity.
  - injection Eu as <- <-. unfold prepare_statement, COM_STMT_PREPARE. rewrite (S1 _ _ eq_refl). reflexivity.
  - destruct (execute_packets id values) as [l|] eqn:El; [|discriminate].
    unfold stmt_query. cbn [ps_params ps_id]. destruct Hu as (_ & _ & _ & Hl). unfold lenZ. rewrite Hl, Z.eqb_refl. cbn [negb].
    rewrite (S2 _ _ _ El Eu). reflexivity.
  - destruct (execute_packets id values) as [l|] eqn:El; [|discriminate].
    unfold stmt_execute. cbn [ps_params ps_id]. destruct Hu as (_ & _ & _ & Hl). unfold lenZ. rewrite Hl, Z.eqb_refl. cbn [negb].
    rewrite (S2 _ _ _ El Eu). reflexivity.
Qed.
