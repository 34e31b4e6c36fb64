(** Property C86: what a migration run sends to the server. *)
From Coq Require Import String ZArith List Bool Lia.
From Verif Require Import Base BaseFacts Types Utf8 ParseBuf BufMut Spec_Wire ParseBuf_proofs Framing Framing_proofs
  Packets Spec_Packets Packets_proofs Spec_Stmt Spec_Text Spec_Conv Conversion_proofs Conn Spec_Conn Conn_proofs Pool Migrator Spec_Migrate Migrator_proofs
  Properties_Command Properties_Migrate SimpleMigration Spec_Simple Simple_proofs.
Import ListNotations.
Open Scope Z_scope.

(** The migrator is opened on a table holding [t].  An upward run sends, for each pending migration
    in order, its own statement and then the one that records it, each as one COM_QUERY; it stops
    at the first one the server refuses, and returns that error.  Guard as in C59. *)
Theorem C86_up_statements_partial : exists packets : use -> list (list Z),
  (forall u, use_ok u -> request u (packets u)) /\
  forall A (decode : list column -> bytes -> res error A) caps bs coll debug lists get ex create cols rows t a texts effect target c,
  (forall n, coll n n = true) -> storable coll (listed lists) -> NoDup t -> select_answer t cols rows ->
  migrator_new debug lists get ex create (Ok (cols, rows, None)) = Ok a ->
  Z.testbit caps DEPRECATE_EOF_BIT = true -> c_caps c = caps ->
  exists plan qs, up_plan lists target t plan /\ statements (st_up texts) (says_insert bs) plan qs /\
  forall hs i o r rest, answered qs hs r -> history decode caps packets hs i o -> between c (i ++ rest) ->
  exists a' h, up_to_version (wire_oracle texts effect c) target lists (a, []) = (r, (a', h)) /\
    between (conn_after texts h c) rest /\
    s_out (c_stream (conn_after texts h c)) = s_out (c_stream c) ++ o.
Proof.
  exists use_packets. split.
  - intros u H. now apply use_packets_request.
  - intros A decode caps bs coll debug lists get ex create cols rows t a texts ef target c R S N Sel New Hd Hc.
    destruct (new_opens _ _ _ _ _ _ _ _ _ N Sel New) as (Rep & _ & I).
    destruct (up_to_version (wire_oracle texts ef c) target lists (a, [])) as [r (a', h)] eqn:E.
    destruct (up_facts _ _ _ _ _ _ _ _ _ _ R S N I Rep E) as (plan & tr & d & H & P & U & _ & F).
    cbn [app] in H. subst h. exists plan, (plan_texts (st_up texts) insert_statement plan). splits.
    + exact P.
    + apply up_statements. exact (proj1 F).
    + intros hs i o r' rest An Hh Hb.
      destruct (run_uses_history A decode caps hs i o Hh Hd c rest Hc Hb) as (c' & Er & B & _ & O).
      rewrite up_flat in E.
      destruct (keeps_all _ _ _ (keeps_up (wire_oracle texts ef c)) _ _ _ _ _ E) as (tr' & Et & Co). cbn [app] in Et. subst tr'.
      pose proof (up_sent texts _ _ _ _ U (get_done _ _ _ _ _ Co)) as Se.
      destruct (sent_answered A decode texts ef c [] tr Co _ _ _ _ Se An) as (-> & K); [cbn [conn_after]; now rewrite Er|].
      cbn [app conn_after] in K. rewrite Er in K. cbn [snd] in K. exists a', tr. rewrite K. auto.
Qed.
Print Assumptions C86_up_statements_partial.

(** A downward run likewise: the own statement, then the one that removes the record. *)
Theorem C86_down_statements_partial : exists packets : use -> list (list Z),
  (forall u, use_ok u -> request u (packets u)) /\
  forall A (decode : list column -> bytes -> res error A) caps bs coll debug lists get ex create cols rows t a texts effect target c,
  (forall n, coll n n = true) -> storable coll (listed lists) -> NoDup t -> select_answer t cols rows ->
  migrator_new debug lists get ex create (Ok (cols, rows, None)) = Ok a ->
  Z.testbit caps DEPRECATE_EOF_BIT = true -> c_caps c = caps ->
  exists plan qs, down_plan lists target t plan /\ statements (st_down texts) (says_delete bs) plan qs /\
  forall hs i o r rest, answered qs hs r -> history decode caps packets hs i o -> between c (i ++ rest) ->
  exists a' h, down_to_version (wire_oracle texts effect c) target lists (a, []) = (r, (a', h)) /\
    between (conn_after texts h c) rest /\
    s_out (c_stream (conn_after texts h c)) = s_out (c_stream c) ++ o.
Proof.
  exists use_packets. split.
  - intros u H. now apply use_packets_request.
  - intros A decode caps bs coll debug lists get ex create cols rows t a texts ef target c R S N Sel New Hd Hc.
    destruct (new_opens _ _ _ _ _ _ _ _ _ N Sel New) as (Rep & _ & I).
    destruct (down_to_version (wire_oracle texts ef c) target lists (a, [])) as [r (a', h)] eqn:E.
    destruct (down_facts _ _ _ _ _ _ _ _ _ _ R S I Rep E) as (plan & tr & d & t1 & H & P & U & _ & _ & F).
    cbn [app] in H. subst h. exists plan, (plan_texts (st_down texts) delete_statement plan). splits.
    + exact P.
    + apply down_statements. exact (proj1 F).
    + intros hs i o r' rest An Hh Hb.
      destruct (run_uses_history A decode caps hs i o Hh Hd c rest Hc Hb) as (c' & Er & B & _ & O).
      rewrite down_flat in E.
      destruct (keeps_all _ _ _ (keeps_down (wire_oracle texts ef c)) _ _ _ _ _ E) as (tr' & Et & Co). cbn [app] in Et. subst tr'.
      pose proof (down_sent texts _ _ _ _ U (get_done _ _ _ _ _ Co)) as Se.
      destruct (sent_answered A decode texts ef c [] tr Co _ _ _ _ Se An) as (-> & K); [cbn [conn_after]; now rewrite Er|].
      cbn [app conn_after] in K. rewrite Er in K. cbn [snd] in K. exists a', tr. rewrite K. auto.
Qed.
Print Assumptions C86_down_statements_partial.

(** One of two migrations is pending; both statements are answered with OK.  In the second case
    the server refuses the first statement and nothing more is sent. *)
Definition c86_lists : list migration_list := [mkMigrations v1 [s2l "a"; s2l "b"]].
Definition c86_texts : simple_texts := mkTexts (fun m => s2l "create " ++ snd m) (fun m => s2l "drop " ++ snd m).
Definition c86_record : str := s2l "insert into `migrations` (`version_0`, `version_1`, `version_2`, `name`) values (1, 0, 0, ""b"")".
Definition c86_refusal : bytes := [255; 26; 4; 35; 52; 50; 48; 48; 48; 110; 111].
Example C86_case :
  let c := idle (frame 1 ok_packet_bytes ++ frame 1 ok_packet_bytes) in
  let '(r, (a', h)) := up (wire_oracle c86_texts (fun _ => false) c) c86_lists ([(v1, [s2l "a"])], []) in
  r = Ok tt /\ s_out (c_stream (conn_after c86_texts h c)) = frame 0 (3 :: s2l "create b") ++ frame 0 (3 :: c86_record) /\
  s_in (c_stream (conn_after c86_texts h c)) = [].
Proof. vm_compute. repeat split. Qed.
Example C86_refused_case :
  let c := idle (frame 1 c86_refusal) in
  let '(r, (a', h)) := up (wire_oracle c86_texts (fun _ => false) c) c86_lists ([(v1, [s2l "a"])], []) in
  r = Err (EServer (ErrError 1050 (Some (s2l "42000")) (s2l "no"))) /\
  s_out (c_stream (conn_after c86_texts h c)) = frame 0 (3 :: s2l "create b").
Proof. vm_compute. repeat split. Qed.

(** The first case meets the hypotheses. *)
Definition c86_history : list (use * seen bytes) :=
  [(UExecute (s2l "create b"), SDone 0 0 2 0 None None); (UExecute c86_record, SDone 0 0 2 0 None None)].
Example C86_hypotheses_case :
  statements (st_up c86_texts) (says_insert true) [(v1, s2l "b")] [s2l "create b"; c86_record] /\
  answered [s2l "create b"; c86_record] c86_history (Ok tt) /\
  history (fun _ p => Ok p) some_caps use_packets c86_history (frame 1 ok_packet_bytes ++ frame 1 ok_packet_bytes)
    (frame 0 (3 :: s2l "create b") ++ frame 0 (3 :: c86_record)).
Proof.
  pose proof utf8_text_ascii as T.
  splits.
  - apply (ss_cons (st_up c86_texts) (says_insert true) (v1, s2l "b") [] c86_record []); [|constructor].
    apply (says_insert_self true v1 (s2l "b")); [unfold version_small, u16; cbn; lia|].
    apply plain_without; [cbn; lia | |]; intros K; vm_compute in K; intuition discriminate.
  - unfold c86_history. constructor; [apply T; vm_compute; repeat constructor; discriminate|].
    constructor; [apply T; vm_compute; repeat constructor; discriminate|]. constructor.
  - assert (One : forall q h i o, Z.of_nat (length q) < 1000 -> history (A := bytes) (fun _ p => Ok p) some_caps use_packets h i o ->
      history (A := bytes) (fun _ p => Ok p) some_caps use_packets ((UExecute q, SDone 0 0 2 0 None None) :: h) ((frame 1 ok_packet_bytes ++ []) ++ i) (frame 0 (3 :: q) ++ o)).
    { intros q h i o L H. eapply history_cons; [exact I | constructor; apply frame_frames; cbn [length]; lia | | | |exact H].
      - eapply (ap_ok some_caps InfoAbsent 0 0 2 0 [] []); [discriminate | exact ok_packet_layout | | reflexivity].
        split; [lia | intros K; discriminate].
      - framed_by.
      - apply ex_execute. }
    pose proof (One (s2l "create b") _ _ _ ltac:(vm_compute; reflexivity) (One c86_record [] [] [] ltac:(vm_compute; reflexivity) ltac:(constructor))) as H.
    rewrite !app_nil_r in H. exact H.
Qed.

(** C86 is false for a name with a backslash: the statement sent after the migration's own records
    another name. *)
Theorem C86_recorded_refuted : exists lists c own q,
  listed lists = [(v1, slashed)] /\
  (let '(r, (_, h)) := up (wire_oracle c86_texts (fun _ => false) c) lists ([], []) in
   r = Ok tt /\ s_out (c_stream (conn_after c86_texts h c)) = frame 0 (3 :: own) ++ frame 0 (3 :: q)) /\
  says_insert true q (v1, unslashed) /\ ~ says_insert true q (v1, slashed).
Proof.
  exists [mkMigrations v1 [slashed]], (idle (frame 1 ok_packet_bytes ++ frame 1 ok_packet_bytes)),
    (st_up c86_texts (v1, slashed)), (insert_statement v1 slashed).
  assert (S : says_insert true (insert_statement v1 slashed) (v1, unslashed)).
  { exists [49], [48], [48], [34; 97; 92; 110; 98; 34]. cbn [fst snd v1 v_0 v_1 v_2].
    splits; try reflexivity; try (split; [discriminate|split; [|reflexivity]; repeat constructor; unfold digit; lia]). }
  splits; [reflexivity|vm_compute; split; reflexivity|exact S|].
  intros K. pose proof (says_insert_unique _ _ _ _ S K). discriminate.
Qed.
Print Assumptions C86_recorded_refuted.

(** Why one connection: a pool that holds one gives it to the next request and gets it back. *)
Theorem C86_same_connection : forall N p k index loaded att, (1 <= N)%nat -> ap_queue p = [k] ->
  exists p1 p2, poll_step N index loaded att task_new p = (Holding k, p1) /\
    drop_step N (Holding k) p1 = (Gone, p2) /\ ap_queue p2 = [k].
Proof.
  intros N p k index loaded att Hn Hq. unfold task_new. cbn [poll_step]. unfold aq_pop. rewrite Hq. cbn match.
  eexists _, _. split; [reflexivity|]. cbn [drop_step]. unfold async_put, aq_push. cbn [ap_queue length].
  destruct (Nat.ltb_spec 0 N); [|lia]. split; reflexivity.
Qed.
Print Assumptions C86_same_connection.
Example C86_same_case : ap_queue (mkPool 1 [5%nat] [] 6 0 []) = [5%nat] /\
  fst (poll_step 1 0 0 APending task_new (mkPool 1 [5%nat] [] 6 0 [])) = Holding 5.
Proof. split; reflexivity. Qed.
