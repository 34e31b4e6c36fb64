(** C122: results as text and in binary form. *)
From Coq Require Import String ZArith List Bool Lia.
From Verif Require Import Base BaseFacts Types Framing Packets Rows Conn Spec_Wire Spec_Stmt Spec_Text Spec_Conn Spec_Stored Conn_proofs Stored_proofs Properties_Rows Properties_Command.
Import ListNotations.
Open Scope Z_scope.

(** A row gives the same values whether the server sends it as text (after a query) or in binary form
    (after executing a prepared statement): those that stand for what is stored.  Missing: LONG_BLOB
    columns, and FLOAT columns whose text is not that of the number stored (both refuted below). *)
Theorem C122_same_values_partial : forall (show32 show64 : Z -> list Z -> Prop) f32 f64 debug cols scs row tpkt bpkt,
  map (fun c => (col_type c, has_flag (col_flags c) UNSIGNED_FLAG)) cols = map (fun c => (sc_type c, sc_unsigned c)) scs ->
  Forall2 holds scs row -> Forall (fun c => sc_type c <> CLongBlob) scs ->
  (forall x l, In (DFloat x) row -> show32 x l -> Forall (fun c => 0 <= c < 128) l /\ f32 l = Some x) ->
  (forall x l, In (DDouble x) row -> show64 x l -> Forall (fun c => 0 <= c < 128) l /\ f64 l = Some x) ->
  row_as_text show32 show64 scs row tpkt -> row_as_binary scs row bpkt ->
  exists vs, read_text_row debug f32 f64 tpkt cols = Ok vs /\ read_bin_row bpkt cols = Ok vs /\
    Forall2 (fun p v => stands_for (fst p) (snd p) v) (combine scs row) vs.
Proof.
  intros show32 show64 f32 f64 debug cols scs row tpkt bpkt Hc Hh Hb H32 H64 Ht (bm & w & -> & Lb & Fb & Nb & Hw).
  destruct (rows_values scs row Hh) as (vs & S & L & N & T & B). exists vs.
  assert (Ll : length scs = length row) by (clear - Hh; induction Hh; cbn [length]; congruence).
  splits; [| |exact S].
  - rewrite <- (app_nil_r tpkt).
    apply (C12_text_rows_partial (fun x l => Forall (fun c => 0 <= c < 128) l /\ f32 l = Some x)
      (fun x l => Forall (fun c => 0 <= c < 128) l /\ f64 l = Some x)); auto.
    + rewrite Hc. apply T. eapply text_weaken; [| |exact Ht]; cbn beta; [exact H32 | exact H64].
    + apply Forall_forall. intros c Hi E. rewrite Forall_forall in Hb.
      assert (I : In (CLongBlob, has_flag (col_flags c) UNSIGNED_FLAG) (map (fun c => (sc_type c, sc_unsigned c)) scs)).
      { rewrite <- Hc. apply in_map_iff. exists c. split; [now rewrite E | exact Hi]. }
      apply in_map_iff in I. destruct I as (sc & Es & Is). apply (Hb sc Is). congruence.
  - rewrite <- (app_nil_r ([0] ++ bm ++ w)). apply C13_binary_rows. rewrite Hc. exists bm, w. splits; [|now apply B | reflexivity].
    split; [now rewrite Lb, Ll, L|]. split; [exact Fb|]. intros i Hi. rewrite L in Hi. rewrite N. now apply Nb.
Qed.
Print Assumptions C122_same_values_partial.

(** The same on a connection: a query and the execution of a prepared statement, one after the other,
    that are answered with the same stored rows give the same columns and the same rows, however many
    are read of each; [between] as for C46. *)
Theorem C122_results_partial : exists packets : use -> list (list Z),
  (forall u, use_ok u -> request u (packets u)) /\
  forall (show32 show64 : Z -> list Z -> Prop) f32 f64 debug cols scs rows trows brows q id params values k c rest
    ow1 oq1 pkts1 w1 q1 ow2 oq2 pkts2 w2 q2,
  map (fun c => (col_type c, has_flag (col_flags c) UNSIGNED_FLAG)) cols = map (fun c => (sc_type c, sc_unsigned c)) scs ->
  Forall (fun row => Forall2 holds scs row) rows -> Forall (fun c => sc_type c <> CLongBlob) scs ->
  (forall x l, In (DFloat x) (concat rows) -> show32 x l -> Forall (fun c => 0 <= c < 128) l /\ f32 l = Some x) ->
  (forall x l, In (DDouble x) (concat rows) -> show64 x l -> Forall (fun c => 0 <= c < 128) l /\ f64 l = Some x) ->
  Forall2 (row_as_text show32 show64 scs) rows trows -> Forall2 (row_as_binary scs) rows brows ->
  Z.testbit (c_caps c) DEPRECATE_EOF_BIT = true -> use_ok (UStmtQuery id params values k) ->
  requests (packets (UQuery q k)) ow1 oq1 -> answer_packets (c_caps c) (ARows cols trows) pkts1 -> framed oq1 pkts1 w1 q1 ->
  requests (packets (UStmtQuery id params values k)) ow2 oq2 -> answer_packets (c_caps c) (ARows cols brows) pkts2 -> framed oq2 pkts2 w2 q2 ->
  between c (w1 ++ w2 ++ rest) ->
  exists vss c1 c2,
    run_use (text_rows debug f32 f64) (UQuery q k) c = (SRows cols (firstn k (map (fun vs => Ok (Some vs)) vss ++ repeat (Ok None) k)), c1) /\
    run_use bin_rows (UStmtQuery id params values k) c1 = (SRows cols (firstn k (map (fun vs => Ok (Some vs)) vss ++ repeat (Ok None) k)), c2) /\
    between c2 rest /\ s_out (c_stream c2) = s_out (c_stream c) ++ ow1 ++ ow2 /\
    Forall2 (fun row vs => Forall2 (fun p v => stands_for (fst p) (snd p) v) (combine scs row) vs) rows vss.
Proof.
  exists use_packets. split; [intros u Hu; apply use_packets_request; exact Hu|].
  intros show32 show64 f32 f64 debug cols scs rows trows brows q id params values k c rest
    ow1 oq1 pkts1 w1 q1 ow2 oq2 pkts2 w2 q2 Hc Hh Hb H32 H64 Ht Hbi Hcap Hu R1 A1 F1 R2 A2 F2 Bt.
  assert (V : exists vss, map (text_rows debug f32 f64 cols) trows = map Ok vss /\ map (bin_rows cols) brows = map Ok vss /\
    Forall2 (fun row vs => Forall2 (fun p v => stands_for (fst p) (snd p) v) (combine scs row) vs) rows vss).
  { clear - Hc Hh Hb H32 H64 Ht Hbi. revert brows Hbi. induction Ht as [|row tp rows trows Ht Hts IH]; intros brows Hbi.
    - inversion Hbi; subst. exists []. splits; [reflexivity | reflexivity | constructor].
    - inversion Hbi as [|? bp ? brows' Hbp Hbr]; subst. inversion Hh; subst.
      destruct (IH ltac:(assumption) ltac:(intros; apply H32; cbn [concat]; auto using in_or_app)
        ltac:(intros; apply H64; cbn [concat]; auto using in_or_app) brows' Hbr) as (vss & T & B & S).
      destruct (C122_same_values_partial show32 show64 f32 f64 debug cols scs row tp bp) as (vs & Et & Eb & Sv); auto;
        [intros; apply H32; cbn [concat]; auto using in_or_app | intros; apply H64; cbn [concat]; auto using in_or_app|].
      exists (vs :: vss). cbn [map]. rewrite T, B. unfold text_rows, bin_rows. rewrite Et, Eb. splits; [reflexivity | reflexivity | now constructor]. }
  destruct V as (vss & T & B & S).
  assert (N : forall A (dec : list column -> list Z -> res error A) rs (l : list A), map (dec cols) rs = map Ok l ->
    Forall (fun p => dec cols p <> Panic) rs /\
    expected_nexts dec cols rs k = firstn k (map (fun vs => Ok (Some vs)) l ++ repeat (Ok None) k)).
  { clear. intros A dec rs. unfold expected_nexts.
    assert (G : forall l, map (dec cols) rs = map Ok l -> Forall (fun p => dec cols p <> Panic) rs /\
      map (fun p => match dec cols p with Ok a => Ok (Some a) | Err e => Err e | Panic => Panic end) rs = map (fun vs => Ok (Some vs)) l).
    { induction rs as [|r rs IH]; intros [|x l] E; cbn [map] in *; try discriminate; [split; [constructor | reflexivity]|].
      injection E as E1 E2. destruct (IH l E2) as (P & M). rewrite M. split; [constructor; [congruence | exact P] | now rewrite E1]. }
    intros l E. destruct (G l E) as (P & M). split; [exact P | now rewrite M]. }
  destruct (N _ _ _ _ T) as (P1 & E1). destruct (N _ _ _ _ B) as (P2 & E2).
  destruct (run_use_served _ (text_rows debug f32 f64) (UQuery q k) (ARows cols trows) _ _ _ _ _ _ c (w2 ++ rest) Hcap I R1 A1 F1 (ex_query_rows _ q k cols trows P1) Bt)
    as (c1 & U1 & B1 & D1 & O1).
  assert (K : c_caps c1 = c_caps c) by (unfold c_caps; now rewrite D1).
  rewrite <- K in A2, Hcap.
  destruct (run_use_served _ bin_rows _ _ _ _ _ _ _ _ c1 rest Hcap Hu R2 A2 F2 (ex_stmt_query_rows _ id params values k cols brows P2) B1)
    as (c2 & U2 & B2 & D2 & O2).
  exists vss, c1, c2. rewrite U1, U2, E1, E2. splits; auto. rewrite O2, O1. now rewrite <- app_assoc.
Qed.
Print Assumptions C122_results_partial.

(** Two rows, one of them NULL: a query of which all rows are read, then a statement. *)
Example C122_results_case :
  let scs := [mkSqlColumn CVarString false 0] in
  let rows := [[DBytes [97]]; [DNull]] in
  let last := [254; 0; 0; 2; 0; 0; 0] in
  let w1 := frame 1 [1] ++ frame 2 column_packet ++ frame 3 [1; 97] ++ frame 4 [251] ++ frame 5 last ++ [] in
  let w2 := frame 1 [1] ++ frame 2 column_packet ++ frame 3 [0; 0; 1; 97] ++ frame 4 [0; 4] ++ frame 5 last ++ [] in
  Forall (fun row => Forall2 holds scs row) rows /\
  Forall2 (row_as_text (fun _ _ => False) (fun _ _ => False) scs) rows [[1; 97]; [251]] /\
  Forall2 (row_as_binary scs) rows [[0; 0; 1; 97]; [0; 4]] /\
  answer_packets some_caps (ARows [some_column] [[1; 97]; [251]]) ([[1]] ++ [column_packet] ++ [[1; 97]; [251]] ++ [last]) /\
  answer_packets some_caps (ARows [some_column] [[0; 0; 1; 97]; [0; 4]]) ([[1]] ++ [column_packet] ++ [[0; 0; 1; 97]; [0; 4]] ++ [last]) /\
  framed 1 ([[1]] ++ [column_packet] ++ [[1; 97]; [251]] ++ [last]) w1 6 /\
  framed 1 ([[1]] ++ [column_packet] ++ [[0; 0; 1; 97]; [0; 4]] ++ [last]) w2 6 /\
  between (idle (w1 ++ w2)) (w1 ++ w2 ++ []) /\ use_ok (UStmtQuery 7 0 [] 3).
Proof.
  cbv zeta. splits.
  - repeat constructor; lia.
  - constructor; [|constructor; [apply rt_null; constructor | constructor]].
    apply (rt_cell _ _ _ _ _ _ [97] [1] []); [constructor | constructor; cbn; lia | constructor].
  - constructor; [|constructor; [|constructor]].
    + exists [0], [1; 97]. splits; [reflexivity | reflexivity | repeat constructor; lia | |].
      * intros [|i] Hi; cbn in Hi; try lia. vm_compute. split; discriminate.
      * apply (cb_cell _ _ _ _ [1; 97] []); [apply (wb_bytes _ [97] [1]); constructor; cbn; lia | constructor].
    + exists [4], []. splits; [reflexivity | reflexivity | repeat constructor; lia | |].
      * intros [|i] Hi; cbn in Hi; try lia. vm_compute. split; reflexivity.
      * apply cb_null. constructor.
  - apply (ap_rows some_caps [some_column] [column_packet] [[1; 97]; [251]] 2 0).
    + discriminate.
    + constructor; [exact column_packet_layout | constructor].
    + repeat constructor; eexists _, _; (split; [reflexivity|]); split; intros; lia.
    + split; [split; [lia | intros H; discriminate] | split; [lia | reflexivity]].
    + reflexivity.
    + reflexivity.
  - apply (ap_rows some_caps [some_column] [column_packet] [[0; 0; 1; 97]; [0; 4]] 2 0).
    + discriminate.
    + constructor; [exact column_packet_layout | constructor].
    + repeat constructor; eexists _, _; (split; [reflexivity|]); split; intros; lia.
    + split; [split; [lia | intros H; discriminate] | split; [lia | reflexivity]].
    + reflexivity.
    + reflexivity.
  - cbn [app]. framed_by.
  - cbn [app]. framed_by.
  - split; [unfold byte_ok; cbn; lia|]. split; [reflexivity|]. left. split; [reflexivity|]. now rewrite app_nil_r.
  - split; [lia|]. split; [lia|]. split; [constructor | reflexivity].
Qed.

(** What is stored is known from its value, and has only one. *)
Theorem C122_distinct : forall c d v, stands_for c d v ->
  (forall d', stands_for c d' v -> d' = d) /\ (forall v', stands_for c d v' -> v' = v).
Proof. intros c d v H. split; intros x Hx; [eapply stands_distinct; eassumption | eapply stands_one; eassumption]. Qed.
Print Assumptions C122_distinct.

(** A LONG_BLOB column is read in binary form; as text, reading breaks. *)
Theorem C122_long_blob_refuted : exists cols scs row tpkt bpkt vs,
  map (fun c => (col_type c, has_flag (col_flags c) UNSIGNED_FLAG)) cols = map (fun c => (sc_type c, sc_unsigned c)) scs /\
  Forall2 holds scs row /\ row_as_text (fun _ _ => False) (fun _ _ => False) scs row tpkt /\ row_as_binary scs row bpkt /\
  read_bin_row bpkt cols = Ok vs /\ forall debug f32 f64, read_text_row debug f32 f64 tpkt cols = Panic.
Proof.
  exists [col CLongBlob 0], [mkSqlColumn CLongBlob false 0], [DBytes [104; 105]], ([2] ++ [104; 105] ++ []), ([0] ++ [0] ++ ([2] ++ [104; 105]) ++ []), [VBytes [104; 105]].
  splits; try reflexivity.
  - constructor; [apply holds_bytes; constructor | constructor].
  - apply rt_cell; [constructor | constructor; cbn; lia | constructor].
  - exists [0], (([2] ++ [104; 105]) ++ []). splits; [reflexivity | reflexivity | repeat constructor; lia | |].
    + intros [|[|i]] Hi; cbn in Hi; try lia. vm_compute. split; discriminate.
    + apply cb_cell; [apply (wb_bytes _ [104; 105] [2]); constructor; cbn; lia | constructor].
Qed.
Print Assumptions C122_long_blob_refuted.

(** The text of a FLOAT has six digits: 16777216 (bits 0x4B800000) is sent as 16777200 (0x4B7FFFF0). *)
Theorem C122_float_refuted : exists cols scs row tpkt bpkt,
  map (fun c => (col_type c, has_flag (col_flags c) UNSIGNED_FLAG)) cols = map (fun c => (sc_type c, sc_unsigned c)) scs /\
  Forall2 holds scs row /\ row_as_binary scs row bpkt /\
  forall (show32 show64 : Z -> list Z -> Prop) f32 f64 debug, show32 1266679808 (s2l "16777200") -> f32 (s2l "16777200") = Some 1266679792 ->
    row_as_text show32 show64 scs row tpkt /\
    exists a b, read_text_row debug f32 f64 tpkt cols = Ok a /\ read_bin_row bpkt cols = Ok b /\ a <> b.
Proof.
  exists [col CFloat 0], [mkSqlColumn CFloat false 0], [DFloat 1266679808], ([8] ++ s2l "16777200" ++ []), ([0] ++ [0] ++ wire_uint 4 1266679808 ++ []).
  splits; try reflexivity.
  - constructor; [apply holds_float; unfold u32; lia | constructor].
  - exists [0], (wire_uint 4 1266679808 ++ []). splits; [reflexivity | reflexivity | repeat constructor; lia | |].
    + intros [|[|i]] Hi; cbn in Hi; try lia. vm_compute. split; discriminate.
    + apply cb_cell; [constructor | constructor].
  - intros show32 show64 f32 f64 debug Hs Hf. split; [apply rt_cell; [constructor; exact Hs | constructor; cbn; lia | constructor]|].
    exists [VFloat 1266679792], [VFloat 1266679808]. splits; [| vm_compute; reflexivity | congruence].
    assert (R : text_row (fun x l => x = 1266679792 /\ l = s2l "16777200") (fun _ _ => False)
      (map (fun c => (col_type c, has_flag (col_flags c) UNSIGNED_FLAG)) [col CFloat 0]) [VFloat 1266679792] ([8] ++ s2l "16777200" ++ [])).
    { apply tr_val; [constructor; auto | constructor; cbn; lia | constructor]. }
    eapply (C12_text_rows_partial _ _ f32 f64 debug [col CFloat 0] _ _ []) in R.
    + rewrite app_nil_r in R. exact R.
    + intros x l (-> & ->). split; [repeat constructor; lia | exact Hf].
    + contradiction.
    + constructor; [discriminate | constructor].
Qed.
Print Assumptions C122_float_refuted.

(** A row with a negative number, NULL, a date, a time of day at midnight and a time of more than a day. *)
Example C122_case :
  let scs := [mkSqlColumn CInt24 false 0; mkSqlColumn CVarString false 0; mkSqlColumn CDate false 0; mkSqlColumn CDatetime false 2; mkSqlColumn CTime false 0] in
  let row := [DNumber (-7); DNull; DDate 0 0 0; DDatetime 2024 2 29 0 0 0 0; DTime true 25 1 2 0] in
  Forall2 holds scs row /\
  row_as_text (fun _ _ => False) (fun _ _ => False) scs row
    (([2] ++ s2l "-7" ++ [251] ++ [10] ++ s2l "0000-00-00" ++ [22] ++ s2l "2024-02-29 00:00:00.00" ++ [9] ++ s2l "-25:01:02")%list) /\
  row_as_binary scs row ([0] ++ [8] ++ [249; 255; 255; 255] ++ [0] ++ [4; 232; 7; 2; 29] ++ [8; 1; 1; 0; 0; 0; 1; 1; 2])%list.
Proof.
  cbv zeta. splits.
  - constructor; [apply (holds_signed _ _ 24); [reflexivity | lia]|]. constructor; [constructor|].
    constructor; [constructor; lia|]. constructor; [constructor; auto; try lia; split; [lia | exists 0; cbn; lia]|].
    constructor; [constructor; try lia; split; [lia | exists 0; cbn; lia] | constructor].
  - assert (F : forall w n l, length l = w -> forallb (fun c => (48 <=? c) && (c <=? 57)) l = true -> dec_val l = n -> fixed_text w n l).
    { intros w n l A B C. split; [exact A|]. split; [|exact C]. apply Forall_forall. intros c Hc. rewrite forallb_forall in B.
      specialize (B c Hc). unfold digit. lia. }
    apply (rt_cell _ _ _ _ _ _ (s2l "-7") [2]); [|constructor; cbn; lia|].
    { apply wt_negative; [lia|]. split; [discriminate|]. apply (F 1%nat 7 [55]); reflexivity. }
    apply rt_null. apply (rt_cell _ _ _ _ _ _ (s2l "0000-00-00") [10]); [|constructor; cbn; lia|].
    { constructor. exists (s2l "0000"), (s2l "00"), (s2l "00"). splits; [reflexivity | apply F; reflexivity ..]. }
    apply (rt_cell _ _ _ _ _ _ (s2l "2024-02-29 00:00:00.00") [22]); [|constructor; cbn; lia|].
    { apply (wt_datetime _ _ _ _ _ _ _ _ _ _ (s2l "2024-02-29") (s2l "00:00:00.00")).
      - exists (s2l "2024"), (s2l "02"), (s2l "29"). splits; [reflexivity | apply F; reflexivity ..].
      - exists (s2l "00"), (s2l "00"), (s2l "00"), (s2l ".00"). splits; [reflexivity | apply F; reflexivity ..|].
        exists (s2l "00"). split; [reflexivity | apply F; reflexivity]. }
    apply (rt_cell _ _ _ _ _ _ (s2l "-25:01:02") [9] []); [|constructor; cbn; lia | constructor].
    apply (wt_time _ _ _ true _ _ _ _ (s2l "25:01:02")).
    exists (s2l "25"), (s2l "01"), (s2l "02"), []. splits; [reflexivity | cbn; lia | | apply F; reflexivity | apply F; reflexivity | reflexivity].
    split; [discriminate|]. apply (F 2%nat 25 (s2l "25")); reflexivity.
  - exists [8], ([249; 255; 255; 255] ++ [0] ++ [4; 232; 7; 2; 29] ++ [8; 1; 1; 0; 0; 0; 1; 1; 2])%list.
    splits; [reflexivity | reflexivity | repeat constructor; lia | |].
    + intros i Hi. do 5 (destruct i as [|i]; [vm_compute; split; (discriminate || reflexivity)|]). cbn in Hi. lia.
    + apply (cb_cell _ _ _ _ [249; 255; 255; 255]); [exact (wb_number (mkSqlColumn CInt24 false 0) (-7) 24 eq_refl)|].
      apply cb_null. apply (cb_cell _ _ _ _ [0]); [constructor|].
      apply (cb_cell _ _ _ _ [4; 232; 7; 2; 29]); [apply (wb_datetime_day _ 2024 2 29); discriminate|].
      apply (cb_cell _ _ _ _ [8; 1; 1; 0; 0; 0; 1; 1; 2] []); [apply (wb_time_second _ true 25 1 2); discriminate | constructor].
Qed.
