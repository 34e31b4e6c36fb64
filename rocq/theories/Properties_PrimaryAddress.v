(** A migration that reads a result set while it executes statements on other connections: C112. *)
From Coq Require Import String ZArith List Bool Lia Permutation.
From Verif Require Import Base BaseFacts Types Utf8 Framing Framing_proofs Spec_Wire Packets Spec_Packets Packets_proofs Auth Auth_proofs
  Spec_Stmt Spec_Text Rows Rows_proofs ValueText_proofs StmtPackets Conn Spec_Conn Conn_proofs Spec_Program Program_proofs
  Pool Spec_Pool Pool_proofs Migrator MigratorWire Spec_MigratorWire MigratorWire_proofs PrimaryAddress Spec_PrimaryAddress PrimaryAddress_proofs
  Properties_Command Properties_Pool Properties_ModelWire Properties_Simple Properties_MigratorWire.
Import ListNotations.
Open Scope Z_scope.

Lemma add_text : utf8_encode add_query = add_query.
Proof. apply utf8_ascii. vm_compute. reflexivity. Qed.
Lemma users_text : utf8_encode users_query = list_users.
Proof. apply (utf8_ascii users_query). vm_compute. reflexivity. Qed.
Lemma addresses_text : utf8_encode addresses_query = two_addresses.
Proof. apply (utf8_ascii addresses_query). vm_compute. reflexivity. Qed.
Lemma set_text : utf8_encode set_query = set_address.
Proof. apply (utf8_ascii set_query). vm_compute. reflexivity. Qed.

(** The fuel is enough. *)
Lemma fuel_for : forall c (us : list value) rows more rest, length us = length rows -> open_set c (rows ++ more) rest ->
  exists fuel, rounds c = (length us + S (S fuel))%nat.
Proof.
  intros c us rows more rest L O. apply (open_rounds bytes (fun _ p => Ok p)) in O. unfold rounds. rewrite app_length in O.
  exists (length (s_in (c_stream c)) - length us)%nat. lia.
Qed.

Lemma primary_done : forall debug f32 f64 c1 c2 c3 us all id2 id3 w1 i1 w2 i2 w3 i3 v2 j2 v3 j3 rest1 rest2 rest3,
  Z.testbit (c_caps c1) DEPRECATE_EOF_BIT = true -> Z.testbit (c_caps c2) DEPRECATE_EOF_BIT = true ->
  Z.testbit (c_caps c3) DEPRECATE_EOF_BIT = true ->
  listed_users (c_caps c1) add_query us w1 i1 ->
  statement_made use_packets (c_caps c2) two_addresses id2 1 w2 i2 -> statement_made use_packets (c_caps c3) set_address id3 2 w3 i3 ->
  gone_through use_packets (c_caps c2) (c_caps c3) id2 id3 all us v2 j2 v3 j3 ->
  between c1 (i1 ++ rest1) -> between c2 (i2 ++ j2 ++ rest2) -> between c3 (i3 ++ j3 ++ rest3) ->
  exists c1' c2' c3', primary_address_up debug f32 f64 (Ok tt) (c1, c2, c3) = (Ok tt, (c1', c2', c3')) /\
    (exists x c, execute_query (utf8_encode add_query) c1 = (Ok x, c)) /\ c_caps c3' = c_caps c3 /\
    between c1' rest1 /\ between c2' rest2 /\ between c3' rest3 /\
    s_out (c_stream c1') = s_out (c_stream c1) ++ w1 /\ s_out (c_stream c2') = s_out (c_stream c2) ++ w2 ++ v2 /\
    s_out (c_stream c3') = s_out (c_stream c3) ++ w3 ++ v3.
Proof.
  intros debug f32 f64 c1 c2 c3 us all id2 id3 w1 i1 w2 i2 w3 i3 v2 j2 v3 j3 rest1 rest2 rest3 D1 D2 D3 HL H2 H3 HG B1 B2 B3.
  destruct (users_opened _ us w1 i1 c1 rest1 D1 HL B1) as (x & k1 & cols & c1o & rows & E1 & E1' & T & Bl & O1 & Dt1 & Out1).
  destruct (prepare_done _ id2 1 c2 w2 i2 _ D2 H2 B2) as (c2p & E2 & B2p & Dt2 & Out2).
  destruct (prepare_done _ id3 2 c3 w3 i3 _ D3 H3 B3) as (c3p & E3 & B3p & Dt3 & Out3).
  assert (L : length us = length rows). { apply Forall2_len in T. now rewrite map_length in T. }
  destruct (fuel_for c1o us rows [] rest1 L) as (fuel & Hf); [now rewrite app_nil_r|].
  destruct (gone _ _ _ _ _ _ _ _ _ _ HG debug f32 f64 cols rows [] ((c1o, mkSet cols None), c2p, c3p) rest1 rest2 rest3 (S (S fuel)) T Bl)
    as ([[[c1e rs] c2e] c3e] & E & W & So).
  { rewrite app_nil_r. split; [reflexivity|]. unfold c_caps in *. rewrite Dt1, Dt2, Dt3. auto 10. }
  destruct W as (-> & De & Oe & _ & _ & Be2 & _ & Ce3 & Be3).
  destruct (open_end _ (text_rows debug f32 f64) cols c1e rest1 De Oe) as (c1f & y & Ee & Ce & (_ & Se)).
  exists c1f, c2e, c3e. cbn [sent_on] in So. injection So as So1 So2 So3. splits; [|rewrite add_text; eauto|exact Ce3|now apply closed_between|exact Be2|exact Be3| | |].
  - unfold primary_address_up, primary_address_rest. rewrite add_text, E1, users_text, E1'. rewrite iob. unfold on_addresses at 1. rewrite addresses_text, E2.
    rewrite iob. unfold on_set at 1. rewrite set_text, E3, Hf, E. cbn [users_loop]. rewrite iob. unfold on_users at 1. rewrite Ee. reflexivity.
  - rewrite Se, So1. exact Out1.
  - rewrite So2, Out2. now rewrite <- app_assoc.
  - rewrite So3, Out3. now rewrite <- app_assoc.
Qed.

(** The server executes everything: each user with exactly one address gets it as the primary
    address, in the order of the users, and no other user is changed.  Afterwards all three
    connections can be used again. *)
Theorem C112_done : exists (packets : use -> list (list Z)) add,
  (forall u, use_ok u -> request u (packets u)) /\ says_add add /\
  forall debug f32 f64 c1 c2 c3 us all id2 id3 w1 i1 w2 i2 w3 i3 v2 j2 v3 j3 rest1 rest2 rest3,
  Z.testbit (c_caps c1) DEPRECATE_EOF_BIT = true -> Z.testbit (c_caps c2) DEPRECATE_EOF_BIT = true ->
  Z.testbit (c_caps c3) DEPRECATE_EOF_BIT = true ->
  listed_users (c_caps c1) add us w1 i1 ->
  statement_made packets (c_caps c2) two_addresses id2 1 w2 i2 -> statement_made packets (c_caps c3) set_address id3 2 w3 i3 ->
  gone_through packets (c_caps c2) (c_caps c3) id2 id3 all us v2 j2 v3 j3 ->
  between c1 (i1 ++ rest1) -> between c2 (i2 ++ j2 ++ rest2) -> between c3 (i3 ++ j3 ++ rest3) ->
  exists c1' c2' c3', primary_address_up debug f32 f64 (Ok tt) (c1, c2, c3) = (Ok tt, (c1', c2', c3')) /\
    between c1' rest1 /\ between c2' rest2 /\ between c3' rest3 /\
    s_out (c_stream c1') = s_out (c_stream c1) ++ w1 /\ s_out (c_stream c2') = s_out (c_stream c2) ++ w2 ++ v2 /\
    s_out (c_stream c3') = s_out (c_stream c3) ++ w3 ++ v3.
Proof.
  exists use_packets, add_query. split; [intros u H; now apply use_packets_request|]. split; [vm_compute; reflexivity|].
  intros debug f32 f64 c1 c2 c3 us all id2 id3 w1 i1 w2 i2 w3 i3 v2 j2 v3 j3 rest1 rest2 rest3 D1 D2 D3 HL H2 H3 HG B1 B2 B3.
  destruct (primary_done debug f32 f64 c1 c2 c3 us all id2 id3 w1 i1 w2 i2 w3 i3 v2 j2 v3 j3 rest1 rest2 rest3 D1 D2 D3 HL H2 H3 HG B1 B2 B3)
    as (c1' & c2' & c3' & E & _ & _ & R). exists c1', c2', c3'. split; [exact E|exact R].
Qed.
Print Assumptions C112_done.

(** The server refuses a statement, wherever: the migration ends with that error.  Nothing is sent
    after it on any of the connections, and all three can be used again, even if users had
    not been read yet. *)
Theorem C112_refused : exists (packets : use -> list (list Z)) add,
  (forall u, use_ok u -> request u (packets u)) /\ says_add add /\
  forall debug f32 f64 c1 c2 c3 code state msg w1 i1 w2 i2 w3 i3 rest1 rest2 rest3,
  Z.testbit (c_caps c1) DEPRECATE_EOF_BIT = true -> Z.testbit (c_caps c2) DEPRECATE_EOF_BIT = true ->
  Z.testbit (c_caps c3) DEPRECATE_EOF_BIT = true ->
  run_refused packets (c_caps c1) (c_caps c2) (c_caps c3) add (AErr code state msg) w1 i1 w2 i2 w3 i3 ->
  between c1 (i1 ++ rest1) -> between c2 (i2 ++ rest2) -> between c3 (i3 ++ rest3) ->
  exists c1' c2' c3', primary_address_up debug f32 f64 (Ok tt) (c1, c2, c3) = (Err (EServer (ErrError code state msg)), (c1', c2', c3')) /\
    between c1' rest1 /\ between c2' rest2 /\ between c3' rest3 /\
    s_out (c_stream c1') = s_out (c_stream c1) ++ w1 /\ s_out (c_stream c2') = s_out (c_stream c2) ++ w2 /\
    s_out (c_stream c3') = s_out (c_stream c3) ++ w3.
Proof.
  exists use_packets, add_query. split; [intros u H; now apply use_packets_request|]. split; [vm_compute; reflexivity|].
  intros debug f32 f64 c1 c2 c3 code state msg w1 i1 w2 i2 w3 i3 rest1 rest2 rest3 D1 D2 D3 HR B1 B2 B3.
  unfold primary_address_up, primary_address_rest. rewrite add_text, users_text, addresses_text, set_text.
  inversion HR as [w i X|nr nid status warnings msg0 st w i w' i' (q & pk & q' & X1 & X2 & X3) (qq & pq & qq' & Y1 & Y2 & Y3)|
    us w i v2 j2 HL X|us id2 w i v2 j2 v3 j3 HL H2 X|us id2 id3 all w i v2 j2 v3 j3 x2 y2 x3 y3 HL H2 H3 X]; subst; clear HR.
  - destruct X as (q & pk & q' & X1 & X2 & X3).
    destruct (execute_refused c1 _ code state msg w1 q pk i1 q' rest1 D1 X1 X2 X3 B1) as (c' & E & B & O). rewrite E.
    exists c', c2, c3. rewrite !app_nil_r. splits; auto.
  - rewrite <- app_assoc in B1.
    destruct (execute_done c1 _ nr nid status warnings msg0 st w q pk i q' _ D1 X1 X2 X3 B1) as (x & c' & E & B & Dt & O). rewrite E.
    assert (C1 : c_caps c' = c_caps c1) by (unfold c_caps; now rewrite Dt). rewrite <- C1 in D1, Y2.
    destruct (query_refused c' _ code state msg w' qq pq i' qq' rest1 D1 Y1 Y2 Y3 B) as (c'' & E' & B' & O'). rewrite E'.
    exists c'', c2, c3. rewrite !app_nil_r. splits; auto. rewrite O', O. now rewrite <- app_assoc.
  - destruct (users_opened _ us w1 i1 c1 rest1 D1 HL B1) as (x & k1 & cols & c1o & rows & E1 & E1' & T & Bl & O1 & Dt1 & Out1). rewrite E1, E1'.
    destruct (prepare_refused _ code state msg c2 w2 i2 _ D2 X B2) as (c2p & E2 & B2p & Dt2 & Out2).
    rewrite iob. unfold on_addresses at 1. rewrite E2. exists c1o, c2p, c3. rewrite !app_nil_r. splits; auto. eapply open_between; eauto.
  - destruct (users_opened _ us w1 i1 c1 rest1 D1 HL B1) as (x & k1 & cols & c1o & rows & E1 & E1' & T & Bl & O1 & Dt1 & Out1). rewrite E1, E1'.
    destruct (prepare_done _ id2 1 c2 w2 i2 _ D2 H2 B2) as (c2p & E2 & B2p & Dt2 & Out2).
    destruct (prepare_refused _ code state msg c3 w3 i3 _ D3 X B3) as (c3p & E3 & B3p & Dt3 & Out3).
    rewrite iob. unfold on_addresses at 1. rewrite E2, iob. unfold on_set at 1. rewrite E3. exists c1o, c2p, c3p. splits; auto. eapply open_between; eauto.
  - destruct (users_opened _ us w1 i1 c1 rest1 D1 HL B1) as (x & k1 & cols & c1o & rows & E1 & E1' & T & Bl & O1 & Dt1 & Out1). rewrite E1, E1'.
    rewrite <- app_assoc in B2, B3.
    destruct (prepare_done _ id2 1 c2 v2 j2 _ D2 H2 B2) as (c2p & E2 & B2p & Dt2 & Out2).
    destruct (prepare_done _ id3 2 c3 v3 j3 _ D3 H3 B3) as (c3p & E3 & B3p & Dt3 & Out3).
    rewrite iob. unfold on_addresses at 1. rewrite E2, iob. unfold on_set at 1. rewrite E3.
    assert (D : forall done u more, us = done ++ u :: more -> exists r0 p r1, rows = r0 ++ p :: r1 /\
      Forall2 (text_row (fun _ _ => False) (fun _ _ => False) (columns_sig cols)) (map (fun u => [u]) done) r0 /\
      text_row (fun _ _ => False) (fun _ _ => False) (columns_sig cols) [u] p /\ length done = length r0).
    { intros done u more ->. rewrite map_app in T. apply Forall2_app_inv_l in T as (r0 & r1 & T0 & T1 & ->). inversion T1 as [|? p ? r2 T2 T3]; subst.
      exists r0, p, r2. splits; auto. apply Forall2_len in T0. now rewrite map_length in T0. }
    inversion X as [done u more w i g2 h2 g3 h3 k HG HU|done u a more w i g2 h2 w' i' g3 h3 HG Hone Ha HU]; subst; clear X;
      destruct (D done u more eq_refl) as (r0 & p & r1 & -> & T0 & T1 & L); destruct (fuel_for c1o done r0 (p :: r1) rest1 L O1) as (fuel & Hf);
      rewrite Hf.
    + rewrite <- app_assoc in B2p.
      destruct (gone _ _ _ _ _ _ _ _ _ _ HG debug f32 f64 cols r0 (p :: r1) ((c1o, mkSet cols None), c2p, c3p) rest1 (i ++ rest2) rest3 (S (S fuel)) T0 Bl)
        as ([[[c1e rs] c2e] c3e] & E & W & So).
      { split; [reflexivity|]. unfold c_caps in *. rewrite Dt1, Dt2, Dt3. auto 10. }
      rewrite E. destruct W as (-> & De & Oe & De2 & Ce2 & Be2 & _ & _ & Be3). cbn [sent_on] in So. injection So as So1 So2 So3.
      destruct (open_next _ (text_rows debug f32 f64) cols p r1 c1e rest1 De Oe) as (c1f & Ee & Of & (_ & Sf) & _).
      rewrite (shown_rows debug f32 f64 cols [u] p T1 Bl) in Ee. cbn [rbind] in Ee.
      rewrite <- Ce2 in De2, HU. destruct (stmt_query_refused id2 1 [u] k code state msg c2e w i rest2 De2 HU Be2) as (c2f & Eq & B2f & _ & O2f).
      cbn [users_loop]. rewrite iob. unfold on_users at 1. rewrite Ee. rewrite iob. unfold set_primary. rewrite iob. unfold on_addresses at 1. rewrite Eq.
      exists c1f, c2f, c3e. splits; [reflexivity|eapply open_between; eauto|exact B2f|exact Be3|congruence| |].
      * rewrite O2f, So2, Out2. now rewrite <- !app_assoc.
      * rewrite So3, Out3. now rewrite <- app_assoc.
    + rewrite <- app_assoc in B2p, B3p.
      destruct (gone _ _ _ _ _ _ _ _ _ _ HG debug f32 f64 cols r0 (p :: r1) ((c1o, mkSet cols None), c2p, c3p) rest1 (i ++ rest2) (i' ++ rest3) (S (S fuel)) T0 Bl)
        as ([[[c1e rs] c2e] c3e] & E & W & So).
      { split; [reflexivity|]. unfold c_caps in *. rewrite Dt1, Dt2, Dt3. auto 10. }
      rewrite E. destruct W as (-> & De & Oe & De2 & Ce2 & Be2 & De3 & Ce3 & Be3). cbn [sent_on] in So. injection So as So1 So2 So3.
      destruct (open_next _ (text_rows debug f32 f64) cols p r1 c1e rest1 De Oe) as (c1f & Ee & Of & (_ & Sf) & _).
      rewrite (shown_rows debug f32 f64 cols [u] p T1 Bl) in Ee. cbn [rbind] in Ee.
      rewrite <- Ce2 in De2, Ha. destruct (addresses_of id2 all u w i c2e rest2 De2 Ha Be2) as (cs & k2 & c2f & Ea & Ea' & B2f & _ & O2f).
      rewrite <- Ce3 in De3, HU. destruct (stmt_execute_refused id3 2 [a; u] code state msg c3e w' i' rest3 De3 HU Be3) as (c3f & Eq & B3f & _ & O3f).
      cbn [users_loop]. rewrite iob. unfold on_users at 1. rewrite Ee. rewrite iob. unfold set_primary. rewrite iob. unfold on_addresses at 1. rewrite Ea.
      rewrite iob. unfold on_addresses at 1. rewrite Ea', Hone, iob. unfold on_set at 1. rewrite Eq.
      exists c1f, c2f, c3f. splits; [reflexivity|eapply open_between; eauto|exact B2f|exact B3f|congruence| |].
      * rewrite O2f, So2, Out2. now rewrite <- !app_assoc.
      * rewrite O3f, So3, Out3. now rewrite <- !app_assoc.
Qed.
Print Assumptions C112_refused.

(** Without a second or a third connection nothing but the change of the table is sent. *)
Theorem C112_not_connected : exists add, says_add add /\
  forall debug f32 f64 e c1 c2 c3 rows id status warnings msg st w i rest, Z.testbit (c_caps c1) DEPRECATE_EOF_BIT = true ->
  exchange (c_caps c1) add (AOk rows id status warnings msg st) w i -> between c1 (i ++ rest) ->
  exists c1', primary_address_up debug f32 f64 (Err e) (c1, c2, c3) = (Err e, (c1', c2, c3)) /\ between c1' rest /\
    s_out (c_stream c1') = s_out (c_stream c1) ++ w.
Proof.
  exists add_query. split; [vm_compute; reflexivity|].
  intros debug f32 f64 e c1 c2 c3 rows id status warnings msg st w i rest D (q & pk & q' & X1 & X2 & X3) B.
  destruct (execute_done c1 _ rows id status warnings msg st w q pk i q' rest D X1 X2 X3 B) as (x & c' & E & B' & _ & O).
  exists c'. unfold primary_address_up, primary_address_rest. rewrite add_text, E. auto.
Qed.
Print Assumptions C112_not_connected.

(** Undoing it: one statement. *)
Theorem C112_undone : exists remove, says_remove remove /\
  forall c rows id status warnings msg st w i rest, Z.testbit (c_caps c) DEPRECATE_EOF_BIT = true ->
  exchange (c_caps c) remove (AOk rows id status warnings msg st) w i -> between c (i ++ rest) ->
  exists c', primary_address_down c = (Ok tt, c') /\ between c' rest /\ s_out (c_stream c') = s_out (c_stream c) ++ w.
Proof.
  exists remove_query. split; [vm_compute; reflexivity|].
  intros c rows id status warnings msg st w i rest D (q & pk & q' & X1 & X2 & X3) B.
  destruct (execute_done c _ rows id status warnings msg st w q pk i q' rest D X1 X2 X3 B) as (x & c' & E & B' & _ & O).
  exists c'. unfold primary_address_down. rewrite (utf8_ascii remove_query) by (vm_compute; reflexivity). rewrite iob, E. auto.
Qed.
Print Assumptions C112_undone.

(** The three are held at once; a pool of two never gives them, whoever else uses it. *)
Theorem C112_three_needed : forall spurious N s, steps spurious N sys_new s -> (N < 3)%nat -> (length (held (s_tasks s)) < 3)%nat.
Proof.
  intros spurious N s H L. pose proof (C53_at_most_N spurious N s H) as E. unfold existing in E. lia.
Qed.
Print Assumptions C112_three_needed.

(** Four users: the first has one address, the second none, the third three, the fourth one. *)
Definition c112_column : column := mig_column "id" CLong 32.
Definition c112_set (rows : list bytes) : list bytes := [[1]; mig_definition "id" 3 32] ++ rows ++ [last_packet].
Definition c112_id (n : Z) : bytes := [0; 0; n; 0; 0; 0].
Definition c112_all (u : value) : list value :=
  match u with
  | VUInt 1 => [VUInt 11]
  | VUInt 3 => [VUInt 31; VUInt 32; VUInt 33]
  | VUInt 4 => [VUInt 41]
  | _ => []
  end.
Definition c112_in1 : bytes := frame 1 ok_packet_bytes ++ frame_all 1 (c112_set [[1; 49]; [1; 50]; [1; 51]; [1; 52]]).
Definition c112_in2 : bytes := frame_all 1 (c96_prepared 5 1) ++
  frame_all 1 (c112_set [c112_id 11]) ++ frame_all 1 (c112_set []) ++ frame_all 1 (c112_set [c112_id 33; c112_id 31]) ++ frame_all 1 (c112_set [c112_id 41]).
Definition c112_in3 : bytes := frame_all 1 (c96_prepared 9 2) ++ frame 1 ok_packet_bytes ++ frame 1 ok_packet_bytes.
Definition c112_refusal : bytes := frame_all 1 (c96_prepared 9 2) ++ frame 1 ok_packet_bytes ++ frame 1 c86_refusal.
Definition sent_by (u : use) : bytes := concat (map (frame 0) (use_packets u)).
Definition c112_run (in1 in2 in3 : bytes) : res error unit * (bytes * bytes) * (bytes * bytes) * (bytes * bytes) :=
  let '(r, (c1, c2, c3)) := primary_address_up true (fun _ => None) (fun _ => None) (Ok tt) (idle in1, idle in2, idle in3) in
  (r, (s_out (c_stream c1), s_in (c_stream c1)), (s_out (c_stream c2), s_in (c_stream c2)), (s_out (c_stream c3), s_in (c_stream c3))).

Example C112_case :
  c112_run c112_in1 c112_in2 c112_in3 =
    (Ok tt, (asked_for add_query ++ asked_for list_users, []),
     (frame 0 (22 :: two_addresses) ++ sent_by (UStmtQuery 5 1 [VUInt 1] 0) ++ sent_by (UStmtQuery 5 1 [VUInt 2] 0) ++
        sent_by (UStmtQuery 5 1 [VUInt 3] 0) ++ sent_by (UStmtQuery 5 1 [VUInt 4] 0), []),
     (frame 0 (22 :: set_address) ++ sent_by (UStmtExecute 9 2 [VUInt 11; VUInt 1]) ++ sent_by (UStmtExecute 9 2 [VUInt 41; VUInt 4]), [])) /\
  c112_run c112_in1 c112_in2 c112_refusal =
    (Err (EServer (ErrError 1050 (Some (s2l "42000")) (s2l "no"))), (asked_for add_query ++ asked_for list_users, frame 7 last_packet),
     (frame 0 (22 :: two_addresses) ++ sent_by (UStmtQuery 5 1 [VUInt 1] 0) ++ sent_by (UStmtQuery 5 1 [VUInt 2] 0) ++
        sent_by (UStmtQuery 5 1 [VUInt 3] 0) ++ sent_by (UStmtQuery 5 1 [VUInt 4] 0), []),
     (frame 0 (22 :: set_address) ++ sent_by (UStmtExecute 9 2 [VUInt 11; VUInt 1]) ++ sent_by (UStmtExecute 9 2 [VUInt 41; VUInt 4]), [])).
Proof. vm_compute. split; reflexivity. Qed.

(** That these are instances of the theorems. *)
Lemma c112_rows : forall rows, Forall row_packet rows -> Forall (fun p => Z.of_nat (length p) < 1000) rows ->
  answer_packets some_caps (ARows [c112_column] rows) (c112_set rows) /\ exists q', framed 1 (c112_set rows) (frame_all 1 (c112_set rows)) q'.
Proof.
  intros rows R L. split.
  - apply (ap_rows some_caps [c112_column] [mig_definition "id" 3 32] rows 2 0 last_packet); auto.
    + discriminate.
    + constructor; [|constructor]. apply mig_column_layout; [cbn; tauto|lia|repeat constructor; lia|vm_compute; reflexivity].
    + split; [split; [lia|intros H; discriminate]|split; [lia|reflexivity]].
    + reflexivity.
  - apply frame_all_framed. unfold c112_set. repeat (apply Forall_cons; [vm_compute; reflexivity|]). cbn [app]. apply Forall_app. split; [exact L|].
    constructor; [vm_compute; reflexivity|constructor].
Qed.

Lemma c112_bin : forall n, 0 <= n < 256 -> bin_row (columns_sig [c112_column]) [VUInt n] (c112_id n).
Proof.
  intros n H. exists [0], [n; 0; 0; 0]. splits.
  - split; [reflexivity|]. split; [repeat constructor; lia|]. intros [|i] Hi; [|cbn in Hi; lia]. cbn. split; discriminate.
  - replace [n; 0; 0; 0] with (wire_uint 4 n ++ []). { apply bv_val; [|constructor]. apply be_long_u; [now left|unfold u32; lia]. }
    rewrite app_nil_r. cbn. change (256 ^ 0) with 1. change (256 ^ 1) with 256. change (256 ^ 2) with 65536. change (256 ^ 3) with 16777216.
    rewrite Z.div_1_r, (Z.mod_small n) by lia. rewrite !Z.div_small by lia. reflexivity.
  - reflexivity.
Qed.

Lemma c112_asked : forall u w, use_ok u -> w = sent_by u -> (exists p, use_packets u = [p] /\ Z.of_nat (length p) < 1000) -> requests (use_packets u) w 1.
Proof.
  intros u w H -> (p & E & L). unfold sent_by. rewrite E. cbn [map concat]. rewrite app_nil_r. constructor. apply (frame_frames 0). lia.
Qed.

Lemma c112_addresses : forall n shown, 0 <= n < 256 -> limited (c112_all (VUInt n)) (map VUInt shown) -> Forall (fun n => 0 <= n < 256) shown ->
  (exists p, use_packets (UStmtQuery 5 1 [VUInt n] 0) = [p] /\ Z.of_nat (length p) < 1000) ->
  addresses_shown use_packets some_caps 5 c112_all (VUInt n) (sent_by (UStmtQuery 5 1 [VUInt n] 0)) (frame_all 1 (c112_set (map c112_id shown))).
Proof.
  intros n shown Hn L S P. exists (map VUInt shown), 0%nat, [c112_column], (map c112_id shown).
  split; [exact L|]. split.
  { clear L. induction S as [|x l Hx S IH]; cbn [map]; constructor; [now apply c112_bin|exact IH]. }
  assert (U : use_ok (UStmtQuery 5 1 [VUInt n] 0)). { cbn [use_ok]. split; [lia|split; [lia|split; [small_values|reflexivity]]]. }
  split; [exact U|].
  destruct (c112_rows (map c112_id shown)) as (A & q' & F).
  - apply Forall_forall. intros p Hp. apply in_map_iff in Hp as (x & <- & _). eexists _, _. split; [reflexivity|]. split; intros; lia.
  - apply Forall_forall. intros p Hp. apply in_map_iff in Hp as (x & <- & _). vm_compute. reflexivity.
  - exists 1, (c112_set (map c112_id shown)), q'. splits; [now apply c112_asked|exact A|exact F].
Qed.

Lemma c112_ok : exists q', answer_packets some_caps (AOk 0 0 2 0 [] []) [ok_packet_bytes] /\ framed 1 [ok_packet_bytes] (frame 1 ok_packet_bytes) q'.
Proof.
  exists (next_seq 1). split.
  - apply (ap_ok some_caps InfoAbsent 0 0 2 0 [] []); [discriminate|exact ok_packet_layout|split; [lia|intros K; discriminate]|reflexivity].
  - rewrite <- (app_nil_r (frame 1 ok_packet_bytes)). econstructor; [apply frame_frames; vm_compute; reflexivity|constructor].
Qed.

Lemma c112_set_ok : forall a u, 0 <= a < 256 -> 0 <= u < 256 -> (exists p, use_packets (UStmtExecute 9 2 [VUInt a; VUInt u]) = [p] /\ Z.of_nat (length p) < 1000) ->
  used use_packets some_caps (UStmtExecute 9 2 [VUInt a; VUInt u]) (AOk 0 0 2 0 [] []) (sent_by (UStmtExecute 9 2 [VUInt a; VUInt u])) (frame 1 ok_packet_bytes).
Proof.
  intros a u Ha Hu P.
  assert (U : use_ok (UStmtExecute 9 2 [VUInt a; VUInt u])). { cbn [use_ok]. split; [lia|split; [lia|split; [small_values|reflexivity]]]. }
  split; [exact U|]. destruct c112_ok as (q' & A & F). exists 1, [ok_packet_bytes], q'. splits; [now apply c112_asked|exact A|exact F].
Qed.

Lemma c112_made : forall text id n, Z.of_nat (length text) < 1000 -> 0 <= id < 1000 -> 0 <= n < 100 ->
  statement_made use_packets some_caps text id n (frame 0 (22 :: text)) (frame_all 1 (c96_prepared id n)).
Proof.
  intros text id n Ht Hi Hn. exists 0. split; [exact I|].
  destruct (frame_all_framed (c96_prepared id n) 1) as (q & F).
  { constructor; [cbn; lia|]. apply Forall_forall. intros x Hx. apply repeat_spec in Hx. subst x. cbn. lia. }
  exists 1, (c96_prepared id n), q. splits; [| |exact F].
  - constructor. apply (frame_frames 0). cbn [length]. lia.
  - apply (ap_prepared some_caps id n 0 0 (wire_uint 4 id ++ wire_uint 2 0 ++ wire_uint 2 n ++ [0] ++ wire_uint 2 0)).
    + unfold stmt_layout. splits; try lia. exists 0, 0, []. reflexivity.
    + rewrite repeat_length. lia.
Qed.

Example C112_hypotheses_case :
  listed_users some_caps add_query [VUInt 1; VUInt 2; VUInt 3; VUInt 4] (asked_for add_query ++ asked_for list_users) c112_in1 /\
  statement_made use_packets some_caps two_addresses 5 1 (frame 0 (22 :: two_addresses)) (frame_all 1 (c96_prepared 5 1)) /\
  statement_made use_packets some_caps set_address 9 2 (frame 0 (22 :: set_address)) (frame_all 1 (c96_prepared 9 2)) /\
  (exists v2 j2 v3 j3, gone_through use_packets some_caps some_caps 5 9 c112_all [VUInt 1; VUInt 2; VUInt 3; VUInt 4] v2 j2 v3 j3 /\
    c112_in2 = frame_all 1 (c96_prepared 5 1) ++ j2 /\ c112_in3 = frame_all 1 (c96_prepared 9 2) ++ j3) /\
  (exists v2 j2 v3 j3, gone_refused use_packets some_caps some_caps 5 9 c112_all (AErr 1050 (Some (s2l "42000")) (s2l "no"))
      [VUInt 1; VUInt 2; VUInt 3; VUInt 4] v2 j2 v3 j3 /\
    c112_in2 = frame_all 1 (c96_prepared 5 1) ++ j2 /\ c112_refusal = frame_all 1 (c96_prepared 9 2) ++ j3) /\
  Z.testbit some_caps DEPRECATE_EOF_BIT = true /\ between (idle c112_in1) (c112_in1 ++ []).
Proof.
  assert (P : forall u, In u [UStmtQuery 5 1 [VUInt 1] 0; UStmtQuery 5 1 [VUInt 2] 0; UStmtQuery 5 1 [VUInt 3] 0; UStmtQuery 5 1 [VUInt 4] 0;
      UStmtExecute 9 2 [VUInt 11; VUInt 1]; UStmtExecute 9 2 [VUInt 41; VUInt 4]] -> exists p, use_packets u = [p] /\ Z.of_nat (length p) < 1000).
  { intros u H. repeat (destruct H as [<-|H]; [eexists; split; [reflexivity|vm_compute; reflexivity]|]). destruct H. }
  assert (N : forall n shown, 0 <= n < 256 -> In (UStmtQuery 5 1 [VUInt n] 0) [UStmtQuery 5 1 [VUInt 1] 0; UStmtQuery 5 1 [VUInt 2] 0; UStmtQuery 5 1 [VUInt 3] 0; UStmtQuery 5 1 [VUInt 4] 0;
      UStmtExecute 9 2 [VUInt 11; VUInt 1]; UStmtExecute 9 2 [VUInt 41; VUInt 4]] -> limited (c112_all (VUInt n)) (map VUInt shown) -> Forall (fun n => 0 <= n < 256) shown ->
      addresses_shown use_packets some_caps 5 c112_all (VUInt n) (sent_by (UStmtQuery 5 1 [VUInt n] 0)) (frame_all 1 (c112_set (map c112_id shown)))).
  { intros n shown Hn Hin L S. apply c112_addresses; auto. }
  assert (L1 : limited (c112_all (VUInt 1)) (map VUInt [11])) by (exists []; split; [reflexivity|reflexivity]).
  assert (L2 : limited (c112_all (VUInt 2)) (map VUInt [])) by (exists []; split; [reflexivity|reflexivity]).
  assert (L3 : limited (c112_all (VUInt 3)) (map VUInt [33; 31])).
  { exists [VUInt 32]. split; [|reflexivity]. cbn. change [VUInt 33; VUInt 31; VUInt 32] with ([VUInt 33] ++ [VUInt 31; VUInt 32]).
    change [VUInt 31; VUInt 32; VUInt 33] with ([VUInt 31; VUInt 32] ++ [VUInt 33]). apply Permutation_app_comm. }
  assert (L4 : limited (c112_all (VUInt 4)) (map VUInt [41])) by (exists []; split; [reflexivity|reflexivity]).
  splits.
  - exists 0, 0, 2, 0, [], [], (asked_for add_query), (frame 1 ok_packet_bytes), [c112_column], (asked_for list_users), (frame_all 1 (c112_set [[1; 49]; [1; 50]; [1; 51]; [1; 52]])).
    splits; [| |reflexivity|reflexivity].
    + destruct c112_ok as (q' & A & F). exists 1, [ok_packet_bytes], q'. splits; [|exact A|exact F].
      constructor. apply (frame_frames 0 (3 :: add_query)). vm_compute. reflexivity.
    + exists [[1; 49]; [1; 50]; [1; 51]; [1; 52]]. splits.
      * repeat constructor;
          match goal with |- text_row _ _ _ [VUInt ?n] [1; ?d] => apply (tr_val _ _ CLong true _ _ _ [d] [1] []); [apply te_long_u; [now left|unfold u32; lia|unfold nat_text; splits; [discriminate|repeat constructor; unfold digit; lia|reflexivity]]|constructor; cbn; lia|constructor] end.
      * repeat constructor; discriminate.
      * destruct (c112_rows [[1; 49]; [1; 50]; [1; 51]; [1; 52]]) as (A & q' & F).
        { repeat constructor; eexists _, _; (split; [reflexivity|]); split; intros; lia. }
        { repeat constructor. }
        exists 1, (c112_set [[1; 49]; [1; 50]; [1; 51]; [1; 52]]), q'. splits; [|exact A|exact F].
        constructor. apply (frame_frames 0 (3 :: list_users)). vm_compute. reflexivity.
  - apply c112_made; [vm_compute; reflexivity|lia|lia].
  - apply c112_made; [vm_compute; reflexivity|lia|lia].
  - eexists _, _, _, _. split.
    + eapply gt_one; [reflexivity|apply (N 1 [11]); [lia|cbn; tauto|exact L1|repeat constructor; lia]|apply (c112_set_ok 11 1); [lia|lia|apply P; cbn; tauto]|].
      eapply gt_other; [discriminate|apply (N 2 []); [lia|cbn; tauto|exact L2|constructor]|].
      eapply gt_other; [discriminate|apply (N 3 [33; 31]); [lia|cbn; tauto|exact L3|repeat constructor; lia]|].
      eapply gt_one; [reflexivity|apply (N 4 [41]); [lia|cbn; tauto|exact L4|repeat constructor; lia]|apply (c112_set_ok 41 4); [lia|lia|apply P; cbn; tauto]|constructor].
    + rewrite !app_nil_r. split; reflexivity.
  - eexists _, _, _, _. split.
    + apply (gr_set use_packets some_caps some_caps 5 9 c112_all _ [VUInt 1; VUInt 2; VUInt 3] (VUInt 4) (VUInt 41) []).
      * eapply gt_one; [reflexivity|apply (N 1 [11]); [lia|cbn; tauto|exact L1|repeat constructor; lia]|apply (c112_set_ok 11 1); [lia|lia|apply P; cbn; tauto]|].
        eapply gt_other; [discriminate|apply (N 2 []); [lia|cbn; tauto|exact L2|constructor]|].
        eapply gt_other; [discriminate|apply (N 3 [33; 31]); [lia|cbn; tauto|exact L3|repeat constructor; lia]|constructor].
      * reflexivity.
      * apply (N 4 [41]); [lia|cbn; tauto|exact L4|repeat constructor; lia].
      * split; [cbn [use_ok]; split; [lia|split; [lia|split; [small_values|reflexivity]]]|]. exists 1, [c86_refusal], 2. splits.
        -- apply c112_asked; [cbn [use_ok]; split; [lia|split; [lia|split; [small_values|reflexivity]]]|reflexivity|apply P; cbn; tauto].
        -- apply ap_err. apply (err_state _ _ 1050 (s2l "42000") (s2l "42000") (s2l "no") (s2l "no")); [reflexivity|lia|intros (X & _); lia|reflexivity| |];
             apply utf8_text_ascii; repeat constructor; lia.
        -- eapply framed_cons; [apply frame_frames; vm_compute; reflexivity|constructor].
    + rewrite !app_nil_r. split; reflexivity.
  - reflexivity.
  - split; [cbn; unfold byte_ok; lia|]. split; [reflexivity|]. left. split; [reflexivity|]. now rewrite app_nil_r.
Qed.
