(** Proofs about PrimaryAddress.v. *)
From Coq Require Import String ZArith List Bool Lia Permutation.
From Verif Require Import Base BaseFacts Types Utf8 Framing Framing_proofs Spec_Wire Packets Spec_Packets Packets_proofs Auth Auth_proofs
  Spec_Stmt Spec_Text Rows Rows_proofs ValueText_proofs StmtPackets Conn Spec_Conn Conn_proofs Spec_Program Program_proofs
  Migrator MigratorWire Spec_MigratorWire MigratorWire_proofs PrimaryAddress Spec_PrimaryAddress.
Import ListNotations.
Open Scope Z_scope.

Lemma stmt_query_opens : forall id params values k c cols rows pkts w wi qn qe rest,
  Z.testbit (c_caps c) DEPRECATE_EOF_BIT = true -> use_ok (UStmtQuery id params values k) ->
  requests (use_packets (UStmtQuery id params values k)) w qn -> answer_packets (c_caps c) (ARows cols rows) pkts -> framed qn pkts wi qe ->
  between c (wi ++ rest) ->
  exists c1, stmt_query (mkPrepared id params) values c = (Ok (mkSet cols None), c1) /\ open_set c1 rows rest /\ c_data c1 = c_data c /\
    s_out (c_stream c1) = s_out (c_stream c) ++ w.
Proof.
  intros id params values k c cols rows pkts w wi qn qe rest Hc Hu Hr Ha Hf Hb.
  destruct (use_packets_request _ Hu) as (Hn & _).
  destruct (write_commands_between _ c _ Hc Hb Hn) as (w0 & q0 & R0 & Hq & c1 & E & As).
  destruct (requests_det _ _ _ R0 _ _ Hr) as (-> & ->).
  destruct (rs_read_opens (c_caps c) c1 cols rows pkts wi qe rest) as (c2 & E2 & O & S); auto; try (rewrite As; auto; fail).
  destruct Hu as (U1 & U2 & U3 & U4). destruct (stmt_request_ok _ _ _ U1 U2 U3 U4) as (ps & Ep & _).
  exists c2. destruct S as (S1 & S2). splits; [|exact O|now rewrite S1, As|now rewrite S2, As].
  unfold stmt_query. cbn [ps_params ps_id]. replace (lenZ values =? params) with true by (unfold lenZ; lia). cbn [negb].
  rewrite iob, (send_execute_packets id values ps Ep). cbn [use_packets] in E. rewrite Ep in E. rewrite E. exact E2.
Qed.

Lemma bin_shown : forall cols vs p, bin_row (columns_sig cols) vs p -> bin_rows cols p = Ok vs.
Proof.
  intros cols vs p H. unfold bin_rows. pose proof (bin_row_ok cols vs p [] H) as B. rewrite app_nil_r in B. now rewrite B.
Qed.

Lemma bin_all : forall cols vss rows, Forall2 (bin_row (columns_sig cols)) vss rows -> all_rows bin_rows cols rows = Ok vss.
Proof.
  induction 1 as [|vs p vss rows H R IH]; [reflexivity|]. cbn [all_rows]. now rewrite (bin_shown _ _ _ H), IH.
Qed.

(** One row, or several. *)
Lemma only_row_of : forall cols vss rows c rest, Z.testbit (c_caps c) DEPRECATE_EOF_BIT = true -> open_set c rows rest ->
  Forall2 (bin_row (columns_sig cols)) vss rows ->
  exists c', dropping (mkSet cols None) only_row c = (Ok (match vss with [vs] => Some vs | _ => None end), c') /\
    between c' rest /\ same_side c c'.
Proof.
  intros cols vss rows c rest Hc Ho H. unfold dropping, only_row. destruct H as [|vs p vss rows H R].
  - destruct (open_end _ bin_rows cols c rest Hc Ho) as (c' & x & E & Cl & S). rewrite iob, E.
    exists c'. split; [reflexivity|]. split; [now apply closed_between|exact S].
  - destruct (open_next _ bin_rows cols p rows c rest Hc Ho) as (c1 & E & O & S & _). rewrite iob, E, (bin_shown _ _ _ H). cbn [rbind].
    assert (Hc1 : Z.testbit (c_caps c1) DEPRECATE_EOF_BIT = true). { unfold c_caps. destruct S as (-> & _). exact Hc. }
    destruct (one_rows _ bin_rows cols rows c1 rest vss Hc1 O (bin_all _ _ _ R)) as (c2 & x & E2 & Cl & S2). rewrite iob, E2.
    exists c2. split; [destruct vss; reflexivity|]. split; [now apply closed_between|].
    destruct S as (A & B), S2 as (A2 & B2). split; congruence.
Qed.

Lemma limited_one : forall A (all shown : list A) a, all = [a] -> limited all shown -> shown = [a].
Proof.
  intros A all shown a -> (left & P & L). cbn in L. destruct shown as [|x [|y s]]; try discriminate.
  destruct left as [|z l]; [|apply Permutation_length in P; cbn in P; discriminate].
  apply Permutation_length_1_inv in P. cbn in P. congruence.
Qed.

Lemma limited_not : forall A (all shown : list A), length all <> 1%nat -> limited all shown -> length shown <> 1%nat.
Proof. intros A all shown N (left & P & L). destruct all as [|x [|y l]]; cbn in *; lia. Qed.

(** The addresses of a user. *)
Lemma addresses_of : forall id all u w i c rest, Z.testbit (c_caps c) DEPRECATE_EOF_BIT = true ->
  addresses_shown use_packets (c_caps c) id all u w i -> between c (i ++ rest) ->
  exists cols c1 c', stmt_query (mkPrepared id 1) [u] c = (Ok (mkSet cols None), c1) /\
    dropping (mkSet cols None) only_row c1 = (Ok (match all u with [a] => Some [a] | _ => None end), c') /\
    between c' rest /\ c_data c' = c_data c /\ s_out (c_stream c') = s_out (c_stream c) ++ w.
Proof.
  intros id all u w i c rest Hc (shown & k & cols & rows & L & R & Hu & q & pkts & q' & Rq & Ap & Fr) Hb.
  destruct (stmt_query_opens id 1 [u] k c cols rows pkts w i q q' rest Hc Hu Rq Ap Fr Hb) as (c1 & E & O & D & Out).
  assert (Hc1 : Z.testbit (c_caps c1) DEPRECATE_EOF_BIT = true) by (unfold c_caps; now rewrite D).
  destruct (only_row_of cols _ rows c1 rest Hc1 O R) as (c' & E' & B & (D' & O')).
  exists cols, c1, c'. splits; [exact E| |exact B|congruence|congruence]. rewrite E'. do 2 f_equal.
  destruct (all u) as [|a [|b l]] eqn:Ea.
  - apply limited_not in L as N; [|cbn; lia]. destruct shown as [|x [|y s]]; [reflexivity|cbn in N; lia|reflexivity].
  - now rewrite (limited_one _ _ _ a eq_refl L).
  - apply limited_not in L as N; [|cbn; lia]. destruct shown as [|x [|y s]]; [reflexivity|cbn in N; lia|reflexivity].
Qed.

Lemma stmt_executed : forall id params values c rows lid status warnings msg st w i rest, Z.testbit (c_caps c) DEPRECATE_EOF_BIT = true ->
  used use_packets (c_caps c) (UStmtExecute id params values) (AOk rows lid status warnings msg st) w i -> between c (i ++ rest) ->
  exists x c', stmt_execute (mkPrepared id params) values c = (Ok x, c') /\ between c' rest /\ c_data c' = c_data c /\
    s_out (c_stream c') = s_out (c_stream c) ++ w.
Proof.
  intros id params values c rows lid status warnings msg st w i rest Hc (Hu & q & pkts & q' & Rq & Ap & Fr) Hb.
  destruct (run_use_served bytes (fun _ p => Ok p) _ _ _ w q pkts i q' c rest Hc Hu Rq Ap Fr (ex_stmt_execute _ id params values rows lid status warnings msg st) Hb)
    as (c' & E & B & D & O). cbn [run_use] in E.
  destruct (stmt_execute (mkPrepared id params) values c) as [[x|e|] c2] eqn:Eq; cbn in E; try discriminate.
  injection E as _ _ _ _ _ _ <-. eauto 8.
Qed.

(** A refused use. *)
Lemma refused_use : forall u c code state msg w i rest, Z.testbit (c_caps c) DEPRECATE_EOF_BIT = true ->
  used use_packets (c_caps c) u (AErr code state msg) w i -> between c (i ++ rest) ->
  exists c', run_use (fun _ p => Ok p) u c = (SFailed (EServer (ErrError code state msg)), c') /\ between c' rest /\ c_data c' = c_data c /\
    s_out (c_stream c') = s_out (c_stream c) ++ w.
Proof.
  intros u c code state msg w i rest Hc (Hu & q & pkts & q' & Rq & Ap & Fr) Hb.
  exact (run_use_served bytes (fun _ p => Ok p) u _ _ w q pkts i q' c rest Hc Hu Rq Ap Fr (ex_err _ u code state msg) Hb).
Qed.

Lemma prepare_done : forall text id params c w i rest, Z.testbit (c_caps c) DEPRECATE_EOF_BIT = true ->
  statement_made use_packets (c_caps c) text id params w i -> between c (i ++ rest) ->
  exists c', prepare_statement text c = (Ok (mkPrepared id params), c') /\ between c' rest /\ c_data c' = c_data c /\
    s_out (c_stream c') = s_out (c_stream c) ++ w.
Proof.
  intros text id params c w i rest Hc (columns & Hu & q & pkts & q' & Rq & Ap & Fr) Hb.
  destruct (run_use_served bytes (fun _ p => Ok p) _ _ _ w q pkts i q' c rest Hc Hu Rq Ap Fr (ex_prepare _ text id params columns) Hb)
    as (c' & E & B & D & O). cbn [run_use] in E.
  destruct (prepare_statement text c) as [[[x y]|e|] c2] eqn:Eq; cbn in E; try discriminate.
  injection E as -> -> <-. eauto 8.
Qed.

Lemma prepare_refused : forall text code state msg c w i rest, Z.testbit (c_caps c) DEPRECATE_EOF_BIT = true ->
  used use_packets (c_caps c) (UPrepare text) (AErr code state msg) w i -> between c (i ++ rest) ->
  exists c', prepare_statement text c = (Err (EServer (ErrError code state msg)), c') /\ between c' rest /\ c_data c' = c_data c /\
    s_out (c_stream c') = s_out (c_stream c) ++ w.
Proof.
  intros text code state msg c w i rest Hc Hu Hb. destruct (refused_use _ c _ _ _ w i rest Hc Hu Hb) as (c' & E & R).
  cbn [run_use] in E. destruct (prepare_statement text c) as [[x|e|] c2] eqn:Eq; cbn in E; try discriminate. injection E as -> <-. eauto.
Qed.

Lemma stmt_query_refused : forall id params values k code state msg c w i rest, Z.testbit (c_caps c) DEPRECATE_EOF_BIT = true ->
  used use_packets (c_caps c) (UStmtQuery id params values k) (AErr code state msg) w i -> between c (i ++ rest) ->
  exists c', stmt_query (mkPrepared id params) values c = (Err (EServer (ErrError code state msg)), c') /\ between c' rest /\ c_data c' = c_data c /\
    s_out (c_stream c') = s_out (c_stream c) ++ w.
Proof.
  intros id params values k code state msg c w i rest Hc Hu Hb.
  change (used use_packets (c_caps c) (UStmtQuery id params values 0) (AErr code state msg) w i) in Hu. destruct (refused_use _ c _ _ _ w i rest Hc Hu Hb) as (c' & E & R).
  cbn [run_use] in E. destruct (stmt_query (mkPrepared id params) values c) as [[x|e|] c2] eqn:Eq; cbn in E.
  - destruct (rs_ok x); discriminate.
  - injection E as -> <-. eauto.
  - discriminate.
Qed.

Lemma stmt_execute_refused : forall id params values code state msg c w i rest, Z.testbit (c_caps c) DEPRECATE_EOF_BIT = true ->
  used use_packets (c_caps c) (UStmtExecute id params values) (AErr code state msg) w i -> between c (i ++ rest) ->
  exists c', stmt_execute (mkPrepared id params) values c = (Err (EServer (ErrError code state msg)), c') /\ between c' rest /\ c_data c' = c_data c /\
    s_out (c_stream c') = s_out (c_stream c) ++ w.
Proof.
  intros id params values code state msg c w i rest Hc Hu Hb. destruct (refused_use _ c _ _ _ w i rest Hc Hu Hb) as (c' & E & R).
  cbn [run_use] in E. destruct (stmt_execute (mkPrepared id params) values c) as [[x|e|] c2] eqn:Eq; cbn in E; try discriminate. injection E as -> <-. eauto.
Qed.

(** The state of the loop: the rows of the users to come, and what the other two connections will read. *)
Definition at_work (s : trio) (cols : list column) (caps2 caps3 : Z) (rows : list bytes) (rest1 in2 in3 : bytes) : Prop :=
  let '((c1, rs), c2, c3) := s in
  rs = mkSet cols None /\ Z.testbit (c_caps c1) DEPRECATE_EOF_BIT = true /\ open_set c1 rows rest1 /\
  Z.testbit caps2 DEPRECATE_EOF_BIT = true /\ c_caps c2 = caps2 /\ between c2 in2 /\
  Z.testbit caps3 DEPRECATE_EOF_BIT = true /\ c_caps c3 = caps3 /\ between c3 in3.

Definition sent_on (s : trio) : bytes * bytes * bytes :=
  let '((c1, _), c2, c3) := s in (s_out (c_stream c1), s_out (c_stream c2), s_out (c_stream c3)).

Lemma gone : forall caps2 caps3 id2 id3 all us w2 i2 w3 i3, gone_through use_packets caps2 caps3 id2 id3 all us w2 i2 w3 i3 ->
  forall debug f32 f64 cols rows more s rest1 rest2 rest3 fuel,
  Forall2 (text_row (fun _ _ => False) (fun _ _ => False) (columns_sig cols)) (map (fun u => [u]) us) rows ->
  Forall (fun c => col_type c <> CLongBlob) cols ->
  at_work s cols caps2 caps3 (rows ++ more) rest1 (i2 ++ rest2) (i3 ++ rest3) ->
  exists s', users_loop debug f32 f64 (mkPrepared id2 1) (mkPrepared id3 2) (length us + fuel) s =
      users_loop debug f32 f64 (mkPrepared id2 1) (mkPrepared id3 2) fuel s' /\
    at_work s' cols caps2 caps3 more rest1 rest2 rest3 /\
    sent_on s' = let '(o1, o2, o3) := sent_on s in (o1, o2 ++ w2, o3 ++ w3).
Proof.
  intros caps2 caps3 id2 id3 all us w2 i2 w3 i3 H debug f32 f64 cols.
  induction H as [|u us w i w2 i2 w3 i3 Hn Ha H IH|u a us w i w2 i2 nr nid status warnings msg st w' i' w3 i3 Hone Ha He H IH];
    intros rows more [[[c1 rs] c2] c3] rest1 rest2 rest3 fuel Ht Hb W.
  - inversion Ht; subst. exists ((c1, rs), c2, c3). split; [reflexivity|]. split; [exact W|]. cbn. now rewrite !app_nil_r.
  - inversion Ht as [|? p ? rows' T0 T1]; subst. destruct W as (-> & D1 & O & D2 & C2 & B2 & D3 & C3 & B3). rewrite <- app_assoc in B2.
    destruct (open_next _ (text_rows debug f32 f64) cols p (rows' ++ more) c1 rest1 D1 O) as (k1 & E1 & O1 & (S1 & S1') & _).
    rewrite (shown_rows debug f32 f64 cols [u] p T0 Hb) in E1. cbn [rbind] in E1.
    rewrite <- C2 in D2, Ha. destruct (addresses_of id2 all u w i c2 (i2 ++ rest2) D2 Ha B2) as (cs & k2 & c2' & E2 & E2' & B2' & Dt2 & O2).
    destruct (IH rows' more ((k1, mkSet cols None), c2', c3) rest1 rest2 rest3 fuel T1 Hb) as (s' & E & W' & So).
    { split; [reflexivity|]. unfold c_caps in *. rewrite S1, Dt2. rewrite C2 in D2. auto 9. }
    exists s'. split; [|split; [exact W'|]].
    + cbn [length plus users_loop]. rewrite iob. unfold on_users at 1. rewrite E1. rewrite iob. unfold set_primary. rewrite iob.
      unfold on_addresses at 1. rewrite E2, iob. unfold on_addresses at 1. rewrite E2'. rewrite <- E.
      destruct (all u) as [|x [|y l]]; [reflexivity|cbn in Hn; lia|reflexivity].
    + rewrite So. cbn [sent_on]. now rewrite S1', O2, <- app_assoc.
  - inversion Ht as [|? p ? rows' T0 T1]; subst. destruct W as (-> & D1 & O & D2 & C2 & B2 & D3 & C3 & B3). rewrite <- app_assoc in B2, B3.
    destruct (open_next _ (text_rows debug f32 f64) cols p (rows' ++ more) c1 rest1 D1 O) as (k1 & E1 & O1 & (S1 & S1') & _).
    rewrite (shown_rows debug f32 f64 cols [u] p T0 Hb) in E1. cbn [rbind] in E1.
    rewrite <- C2 in D2, Ha. destruct (addresses_of id2 all u w i c2 (i2 ++ rest2) D2 Ha B2) as (cs & k2 & c2' & E2 & E2' & B2' & Dt2 & O2).
    rewrite <- C3 in D3, He. destruct (stmt_executed id3 2 [a; u] c3 nr nid status warnings msg st w' i' (i3 ++ rest3) D3 He B3) as (x & c3' & E3 & B3' & Dt3 & O3).
    destruct (IH rows' more ((k1, mkSet cols None), c2', c3') rest1 rest2 rest3 fuel T1 Hb) as (s' & E & W' & So).
    { split; [reflexivity|]. unfold c_caps in *. rewrite S1, Dt2, Dt3. rewrite C2 in D2. rewrite C3 in D3. auto 9. }
    exists s'. split; [|split; [exact W'|]].
    + cbn [length plus users_loop]. rewrite iob. unfold on_users at 1. rewrite E1. rewrite iob. unfold set_primary. rewrite iob.
      unfold on_addresses at 1. rewrite E2, iob. unfold on_addresses at 1. rewrite E2', Hone, iob. unfold on_set at 1. rewrite E3. exact E.
    + rewrite So. cbn [sent_on]. now rewrite S1', O2, O3, <- !app_assoc.
Qed.

(** The first connection until the users can be read. *)
Lemma users_opened : forall add us w i c rest, Z.testbit (c_caps c) DEPRECATE_EOF_BIT = true ->
  listed_users (c_caps c) add us w i -> between c (i ++ rest) ->
  exists x c1 cols c2 rows, execute_query add c = (Ok x, c1) /\ query list_users c1 = (Ok (mkSet cols None), c2) /\
    Forall2 (text_row (fun _ _ => False) (fun _ _ => False) (columns_sig cols)) (map (fun u => [u]) us) rows /\
    Forall (fun c => col_type c <> CLongBlob) cols /\
    open_set c2 rows rest /\ c_data c2 = c_data c /\ s_out (c_stream c2) = s_out (c_stream c) ++ w.
Proof.
  intros add us w i c rest Hc (nr & nid & status & warnings & msg & st & w0 & i0 & cols & w1 & i1 & (q & pk & q' & X1 & X2 & X3) &
    (rows & T & Bl & (qq & pq & qq' & Y1 & Y2 & Y3)) & -> & ->) Hb.
  rewrite <- app_assoc in Hb.
  destruct (execute_done c add nr nid status warnings msg st w0 q pk i0 q' _ Hc X1 X2 X3 Hb) as (x & c1 & E1 & B1 & D1 & O1).
  assert (C1 : c_caps c1 = c_caps c) by (unfold c_caps; now rewrite D1).
  rewrite <- C1 in Hc, Y2. destruct (query_opens list_users c1 cols rows pq w1 i1 qq qq' rest Hc Y1 Y2 Y3 B1) as (c2 & E2 & O2 & D2 & Out).
  exists x, c1, cols, c2, rows. splits; auto; [congruence|]. rewrite Out, O1, <- app_assoc. reflexivity.
Qed.
