(** Proofs about Program.v. *)
From Coq Require Import String ZArith List Bool Lia Permutation.
From Verif Require Import Base BaseFacts Types Utf8 Framing Framing_proofs Spec_Wire Packets Spec_Packets Packets_proofs Auth Auth_proofs Spec_Stmt Spec_Text Rows StmtPackets Conn Spec_Conn Conn_proofs
  Conversion Spec_Conv Conversion_proofs Models TypedModel ModelWire Spec_ModelWire ModelWire_proofs Sending_proofs Program.
Import ListNotations.
Open Scope Z_scope.

Lemma query_collected : forall A (decode : list column -> bytes -> res error A) q c cols rows pkts w wi qn qe rest,
  Z.testbit (c_caps c) DEPRECATE_EOF_BIT = true ->
  requests [3 :: q] w qn -> answer_packets (c_caps c) (ARows cols rows) pkts -> framed qn pkts wi qe ->
  between c (wi ++ rest) ->
  exists c1 c2 rs, query q c = (Ok (mkSet cols None), c1) /\
    collect decode (c1, mkSet cols None) = (all_rows decode cols rows, (c2, rs)) /\ between c2 rest /\
    c_data c2 = c_data c /\ s_out (c_stream c2) = s_out (c_stream c) ++ w.
Proof.
  intros A decode q c cols rows pkts w wi qn qe rest Hc Hr Ha Hf Hb.
  destruct (write_command_between (3 :: q) c _ Hc Hb) as (w0 & q0 & F0 & c1 & E & As).
  assert (w0 = w /\ q0 = qn) as (-> & ->). { inversion Hr as [? ? ? F|? ? ? ? ? ? ? R]; subst; [exact (frames_det _ _ _ _ F0 _ _ F) | inversion R]. }
  destruct (rs_read_opens (c_caps c) c1 cols rows pkts wi qe rest) as (c2 & E2 & O & S); auto; try (rewrite As; auto; fail).
  { rewrite As. cbn. eapply frames_seq_ok; [exact F0 | unfold byte_ok; lia]. }
  assert (Hc2 : Z.testbit (c_caps c2) DEPRECATE_EOF_BIT = true).
  { unfold c_caps. destruct S as (-> & _). rewrite As. exact Hc. }
  destruct (collect_set A decode cols rows c2 rest Hc2 O) as (c3 & rs & E3 & B & (D3 & S3) & _).
  exists c2, c3, rs. split.
  - unfold query. change (execute_command COM_QUERY q) with (write_command (3 :: q)). rewrite iob, E. exact E2.
  - split; [exact E3|]. split; [exact B|]. destruct S as (D2 & S2). rewrite D3, S3, D2, S2, As. split; reflexivity.
Qed.

Lemma execute_done : forall c create rows id status warnings msg st w q pkts wi q' rest,
  Z.testbit (c_caps c) DEPRECATE_EOF_BIT = true -> requests [3 :: create] w q ->
  answer_packets (c_caps c) (AOk rows id status warnings msg st) pkts -> framed q pkts wi q' -> between c (wi ++ rest) ->
  exists x c', execute_query create c = (Ok x, c') /\ between c' rest /\ c_data c' = c_data c /\ s_out (c_stream c') = s_out (c_stream c) ++ w.
Proof.
  intros c create rows id status warnings msg st w q pkts wi q' rest Hd Hq Ha Hf Hb.
  destruct (run_use_served bytes (fun _ p => Ok p) (UExecute create) _ _ w q pkts wi q' c rest Hd I Hq Ha Hf (ex_execute _ create rows id status warnings msg st) Hb)
    as (c' & E & B & D & O). cbn [run_use] in E.
  destruct (execute_query create c) as [[x|e|] c2] eqn:Eq; cbn in E; try discriminate.
  injection E as _ _ _ _ _ _ <-. eauto 8.
Qed.

Lemma execute_refused : forall c create code state msg w q pkts wi q' rest,
  Z.testbit (c_caps c) DEPRECATE_EOF_BIT = true -> requests [3 :: create] w q ->
  answer_packets (c_caps c) (AErr code state msg) pkts -> framed q pkts wi q' -> between c (wi ++ rest) ->
  exists c', execute_query create c = (Err (EServer (ErrError code state msg)), c') /\ between c' rest /\ s_out (c_stream c') = s_out (c_stream c) ++ w.
Proof.
  intros c create code state msg w q pkts wi q' rest Hd Hq Ha Hf Hb.
  destruct (run_use_served bytes (fun _ p => Ok p) (UExecute create) _ _ w q pkts wi q' c rest Hd I Hq Ha Hf (ex_err _ (UExecute create) code state msg) Hb)
    as (c' & E & B & D & O). cbn [run_use] in E.
  destruct (execute_query create c) as [[x|e|] c2] eqn:Eq; cbn in E; try discriminate.
  injection E as -> <-. eauto 8.
Qed.

Lemma query_refused : forall c b code state msg w q pkts wi q' rest,
  Z.testbit (c_caps c) DEPRECATE_EOF_BIT = true -> requests [3 :: b] w q ->
  answer_packets (c_caps c) (AErr code state msg) pkts -> framed q pkts wi q' -> between c (wi ++ rest) ->
  exists c', query b c = (Err (EServer (ErrError code state msg)), c') /\ between c' rest /\ s_out (c_stream c') = s_out (c_stream c) ++ w.
Proof.
  intros c b code state msg w q pkts wi q' rest Hd Hq Ha Hf Hb.
  destruct (run_use_served bytes (fun _ p => Ok p) (UQuery b 0) _ _ w q pkts wi q' c rest Hd I Hq Ha Hf (ex_err _ (UQuery b 0) code state msg) Hb)
    as (c' & E & B & D & O). cbn [run_use] in E.
  destruct (query b c) as [[x|e|] c2] eqn:Eq; cbn in E; [destruct (rs_ok x); discriminate| |discriminate].
  injection E as -> <-. eauto 8.
Qed.
