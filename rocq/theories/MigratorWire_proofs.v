(** Proofs about MigratorWire.v. *)
From Coq Require Import String ZArith List Bool Lia.
From Verif Require Import Base BaseFacts Types Utf8 Framing Framing_proofs Spec_Wire Packets Spec_Packets Packets_proofs Auth Auth_proofs Spec_Stmt Spec_Text ValueText_proofs
  Rows Rows_proofs StmtPackets Conn Spec_Conn Conn_proofs Conversion Spec_Conv Conversion_proofs Migrator Spec_Migrate Migrator_proofs SimpleMigration Spec_Simple Simple_proofs
  Properties_Migrate Spec_Program Program_proofs MigratorWire Spec_MigratorWire.
Import ListNotations.
Open Scope Z_scope.

(** ** Opening *)
Lemma shown_rows : forall debug f32 f64 cols vs p, text_row (fun _ _ => False) (fun _ _ => False) (columns_sig cols) vs p ->
  Forall (fun c => col_type c <> CLongBlob) cols -> text_rows debug f32 f64 cols p = Ok vs.
Proof.
  intros debug f32 f64 cols vs p H Hb. unfold text_rows. rewrite <- (app_nil_r p).
  rewrite (text_row_ok' (fun _ _ => False) (fun _ _ => False) f32 f64 debug cols vs p []); [reflexivity|tauto|tauto|exact H|exact Hb].
Qed.

Lemma record_read : forall debug f32 f64 cols vs p r, map col_org_name cols = [s2l "version_0"; s2l "version_1"; s2l "version_2"; s2l "name"] ->
  Forall (fun c => col_type c <> CLongBlob) cols -> text_row (fun _ _ => False) (fun _ _ => False) (columns_sig cols) vs p ->
  record_row r vs -> migration_rows debug f32 f64 cols p = Ok r.
Proof.
  intros debug f32 f64 cols vs p r Hc Hb Ht Hr. unfold migration_rows. rewrite (shown_rows debug f32 f64 _ _ _ Ht Hb). cbn [rbind].
  rewrite (mapping_four _ Hc), (row_four _ _ Hr). reflexivity.
Qed.

Lemma records_read : forall debug f32 f64 cols t vss rows, select_answer t cols vss -> Forall (fun c => col_type c <> CLongBlob) cols ->
  Forall2 (text_row (fun _ _ => False) (fun _ _ => False) (columns_sig cols)) vss rows ->
  Forall2 (fun r p => migration_rows debug f32 f64 cols p = Ok r) t rows.
Proof.
  intros debug f32 f64 cols t vss rows (Hc & Hr) Hb Ht. revert rows Ht.
  induction Hr as [|r vs t vss R Hr IH]; intros rows Ht; inversion Ht; subst; constructor; auto. eapply record_read; eauto.
Qed.

Lemma applied_run : forall debug f32 f64 lists cols t rows, Forall2 (fun r p => migration_rows debug f32 f64 cols p = Ok r) t rows ->
  forall c rest fuel a t0, Z.testbit (c_caps c) DEPRECATE_EOF_BIT = true -> open_set c rows rest -> (length rows < fuel)%nat ->
  represents a t0 -> NoDup (t0 ++ t) ->
  exists r c' rs', applied_loop debug f32 f64 lists fuel a (c, mkSet cols None) = (r, (c', rs')) /\
    between c' rest /\ same_side c c' /\
    (Forall (fun r => known lists (fst r) (snd r) = true) t /\ (exists a', r = Ok a' /\ represents a' (t0 ++ t)) \/
     ~ Forall (fun r => known lists (fst r) (snd r) = true) t /\ r = Panic).
Proof.
  intros debug f32 f64 lists cols t rows H. induction H as [|(v, n) p t rows R H IH]; intros c rest fuel a t0 Hd Ho Hf Rep N;
    (destruct fuel as [|fuel]; [cbn in Hf; lia|]); cbn [applied_loop].
  - destruct (open_end migration_record (migration_rows debug f32 f64) cols c rest Hd Ho) as (c' & x & E & C & S). rewrite iob, E.
    eexists _, c', _. split; [reflexivity|]. split; [now apply closed_between|]. split; [exact S|].
    left. split; [constructor|]. exists a. rewrite app_nil_r. auto.
  - destruct (open_next migration_record (migration_rows debug f32 f64) cols p rows c rest Hd Ho) as (c' & E & O & S & _).
    rewrite iob, E, R. cbn [rbind]. cbn [fst snd]. destruct (known lists v n) eqn:K.
    + assert (Hin : ~ In (v, n) t0).
      { intros X. apply NoDup_remove_2 in N. apply N. apply in_app_iff. auto. }
      pose proof (represents_insert _ _ _ _ Rep Hin) as Rep'.
      unfold migration_record in *. assert (A1 : t0 ++ (v, n) :: t = (t0 ++ [(v, n)]) ++ t) by (rewrite <- app_assoc; reflexivity).
      rewrite A1 in N. rewrite A1.
      destruct (IH c' rest fuel (insert_applied a v n) (t0 ++ [(v, n)])) as (r & c2 & rs2 & E2 & B2 & S2 & F2); [| exact O | cbn in Hf; lia | exact Rep' | exact N |].
      { unfold c_caps. destruct S as (-> & _). exact Hd. }
      exists r, c2, rs2. split; [exact E2|]. split; [exact B2|]. split; [destruct S, S2; split; congruence|].
      destruct F2 as [(F & X)|(F & X)]; [left|right]; (split; [|exact X]); [constructor; auto|].
      intros Y. inversion Y; subst. contradiction.
    + eexists _, c', _. split; [reflexivity|]. split; [eapply open_between; eauto|]. split; [exact S|].
      right. split; [|reflexivity]. intros Y. inversion Y; subst. cbn [fst snd] in *. congruence.
Qed.

Lemma query_opens : forall q c cols rows pkts w wi qn qe rest,
  Z.testbit (c_caps c) DEPRECATE_EOF_BIT = true ->
  requests [3 :: q] w qn -> answer_packets (c_caps c) (ARows cols rows) pkts -> framed qn pkts wi qe ->
  between c (wi ++ rest) ->
  exists c1, query q c = (Ok (mkSet cols None), c1) /\ open_set c1 rows rest /\ c_data c1 = c_data c /\
    s_out (c_stream c1) = s_out (c_stream c) ++ w.
Proof.
  intros q c cols rows pkts w wi qn qe rest Hc Hr Ha Hf Hb.
  destruct (write_command_between (3 :: q) c _ Hc Hb) as (w0 & q0 & F0 & c1 & E & As).
  assert (w0 = w /\ q0 = qn) as (-> & ->). { inversion Hr as [? ? ? F|? ? ? ? ? ? ? R]; subst; [exact (frames_det _ _ _ _ F0 _ _ F) | inversion R]. }
  destruct (rs_read_opens (c_caps c) c1 cols rows pkts wi qe rest) as (c2 & E2 & O & S); auto; try (rewrite As; auto; fail).
  { rewrite As. cbn. eapply frames_seq_ok; [exact F0 | unfold byte_ok; lia]. }
  exists c2. split; [|split; [exact O|]].
  - unfold query. change (execute_command COM_QUERY q) with (write_command (3 :: q)). rewrite iob, E. exact E2.
  - destruct S as (D2 & S2). rewrite D2, S2, As. split; reflexivity.
Qed.

Lemma all_shown : forall debug f32 f64 cols vss rows, Forall (fun c => col_type c <> CLongBlob) cols ->
  Forall2 (text_row (fun _ _ => False) (fun _ _ => False) (columns_sig cols)) vss rows ->
  all_rows (text_rows debug f32 f64) cols rows = Ok vss.
Proof.
  intros debug f32 f64 cols vss rows Hb H. induction H as [|vs p vss rows Hp H IH]; cbn [all_rows]; [reflexivity|].
  rewrite (shown_rows debug f32 f64 _ _ _ Hp Hb), IH. reflexivity.
Qed.

Lemma utf8_ascii : forall q, forallb (fun c => (0 <=? c) && (c <? 128)) q = true -> utf8_encode q = q.
Proof.
  intros q H. apply (utf8_text_iff q q). apply utf8_text_ascii. apply Forall_forall. intros x Hx.
  rewrite forallb_forall in H. specialize (H x Hx). apply andb_prop in H as (A & B). lia.
Qed.
Lemma look_text : utf8_encode exists_query = look.
Proof. apply (utf8_ascii exists_query). vm_compute. reflexivity. Qed.
Lemma create_text : utf8_encode create_query = create_query.
Proof. apply utf8_ascii. vm_compute. reflexivity. Qed.
Lemma list_text : utf8_encode select_query = list_records.
Proof. apply (utf8_ascii select_query). vm_compute. reflexivity. Qed.

(** The part of the opening before the table is read. *)
Definition make_table (debug : bool) (f32 f64 : str -> option Z) : IO conn unit :=
  iobind (query look) (fun rs =>
  iobind (fun c => let '(r, (c', _)) := collect (text_rows debug f32 f64) (c, rs) in (r, c')) (fun rows =>
  match rows with [] => iobind (execute_query create_query) (fun _ => ioret tt) | _ => ioret tt end)).
Definition read_table (debug : bool) (f32 f64 : str -> option Z) (lists : list migration_list) : IO conn applied_map :=
  iobind (query list_records) (fun rs c =>
    let '(r, (c', _)) := applied_loop debug f32 f64 lists (rounds c) [] (c, rs) in (r, c')).

Lemma open_parts : forall debug f32 f64 lists c, debug && negb (ordered lists) = false ->
  migrator_open debug f32 f64 lists c = iobind (make_table debug f32 f64) (fun _ => read_table debug f32 f64 lists) c.
Proof.
  intros debug f32 f64 lists c H. unfold migrator_open. rewrite H, look_text, create_text, list_text.
  unfold make_table, read_table. rewrite iobind_assoc. apply iobind_ext; [reflexivity|]. intros rs s.
  rewrite iobind_assoc. apply iobind_ext; [reflexivity|]. intros rows s'. reflexivity.
Qed.

Lemma table_shown : forall debug f32 f64 cols vss w i c rest, Z.testbit (c_caps c) DEPRECATE_EOF_BIT = true ->
  shown (c_caps c) look cols vss w i -> between c (i ++ rest) ->
  exists c', make_table debug f32 f64 c =
    (match vss with [] => iobind (execute_query create_query) (fun _ => ioret tt) | _ => ioret tt end) c' /\
    between c' rest /\ c_data c' = c_data c /\ s_out (c_stream c') = s_out (c_stream c) ++ w.
Proof.
  intros debug f32 f64 cols vss w i c rest Hd (rows & Ht & Hb & q & pkts & q' & Hr & Ha & Hf) B.
  destruct (query_collected _ (text_rows debug f32 f64) look c cols rows pkts w i q q' rest Hd Hr Ha Hf B) as (c1 & c2 & rs & E1 & E2 & B2 & D2 & O2).
  rewrite (all_shown debug f32 f64 _ _ _ Hb Ht) in E2.
  exists c2. split; [|auto]. unfold make_table. rewrite iob, E1, iob. rewrite E2. destruct vss; reflexivity.
Qed.

Lemma table_ready : forall debug f32 f64 w i c rest, Z.testbit (c_caps c) DEPRECATE_EOF_BIT = true ->
  table_made (c_caps c) create_query w i -> between c (i ++ rest) ->
  exists c', make_table debug f32 f64 c = (Ok tt, c') /\ between c' rest /\ c_data c' = c_data c /\
    s_out (c_stream c') = s_out (c_stream c) ++ w.
Proof.
  intros debug f32 f64 w i c rest Hd (cols & vss & w0 & i0 & w1 & i1 & Sh & Mk & -> & ->) B. rewrite <- app_assoc in B.
  destruct (table_shown debug f32 f64 _ _ _ _ _ _ Hd Sh B) as (c1 & E1 & B1 & D1 & O1). rewrite E1.
  destruct Mk as [(Hv & -> & ->)|(-> & rows & id & status & warnings & msg & st & q & pkts & q' & Hr & Ha & Hf)].
  - exists c1. rewrite app_nil_r. cbn [app] in B1. destruct vss; [congruence|]. auto.
  - assert (Cap : c_caps c1 = c_caps c) by (unfold c_caps; now rewrite D1).
    destruct (execute_done c1 create_query rows id status warnings msg st w1 q pkts i1 q' rest) as (x & c2 & E2 & B2 & D2 & O2);
      rewrite ?Cap; auto.
    exists c2. rewrite iob, E2. split; [reflexivity|]. split; [exact B2|]. rewrite D2, O2, O1, <- app_assoc. auto.
Qed.

Lemma table_read : forall debug f32 f64 lists t cols vss w i c rest, NoDup t -> Z.testbit (c_caps c) DEPRECATE_EOF_BIT = true ->
  shown (c_caps c) list_records cols vss w i -> select_answer t cols vss -> between c (i ++ rest) ->
  exists r c', read_table debug f32 f64 lists c = (r, c') /\ between c' rest /\ c_data c' = c_data c /\
    s_out (c_stream c') = s_out (c_stream c) ++ w /\
    (Forall (fun r => known lists (fst r) (snd r) = true) t /\ (exists a, r = Ok a /\ represents a t) \/
     ~ Forall (fun r => known lists (fst r) (snd r) = true) t /\ r = Panic).
Proof.
  intros debug f32 f64 lists t cols vss w i c rest N Hd (rows & Ht & Hb & q & pkts & q' & Hr & Ha & Hf) Sel B.
  destruct (query_opens list_records c cols rows pkts w i q q' rest Hd Hr Ha Hf B) as (c1 & E1 & O1 & D1 & S1).
  destruct (applied_run debug f32 f64 lists cols t rows (records_read debug f32 f64 _ _ _ _ Sel Hb Ht) c1 rest (rounds c1) [] [])
    as (r & c2 & rs & E2 & B2 & (D2 & S2) & F2); auto.
  - unfold c_caps. rewrite D1. exact Hd.
  - pose proof (open_rounds migration_record (migration_rows debug f32 f64) _ _ _ O1). unfold rounds. lia.
  - apply represents_nil.
  - exists r, c2. unfold read_table. rewrite iob, E1. rewrite E2. split; [reflexivity|]. split; [exact B2|].
    rewrite D2, S2, D1, S1. auto.
Qed.

Lemma known_all : forall lists t, increasing (map ml_version lists) ->
  (Forall (fun r => known lists (fst r) (snd r) = true) t <-> incl t (listed lists)).
Proof.
  intros lists t Inc. rewrite Forall_forall. split.
  - intros A (v, n) H. apply known_in. apply (A (v, n) H).
  - intros A (v, n) H. apply in_known; auto.
Qed.

Lemma open_done : forall debug f32 f64 lists t w i c rest, increasing (map ml_version lists) -> NoDup t ->
  Z.testbit (c_caps c) DEPRECATE_EOF_BIT = true -> opened (c_caps c) create_query t w i -> between c (i ++ rest) ->
  exists r c', migrator_open debug f32 f64 lists c = (r, c') /\ between c' rest /\ c_data c' = c_data c /\
    s_out (c_stream c') = s_out (c_stream c) ++ w /\
    (incl t (listed lists) /\ (exists a, r = Ok a /\ represents a t) \/ ~ incl t (listed lists) /\ r = Panic).
Proof.
  intros debug f32 f64 lists t w i c rest Inc N Hd (w0 & i0 & cols & vss & w2 & i2 & Mk & Sh & Sel & -> & ->) B. rewrite <- app_assoc in B.
  destruct (table_ready debug f32 f64 _ _ _ _ Hd Mk B) as (c1 & E1 & B1 & D1 & O1).
  assert (Cap : c_caps c1 = c_caps c) by (unfold c_caps; now rewrite D1).
  destruct (table_read debug f32 f64 lists t cols vss w2 i2 c1 rest N) as (r & c2 & E2 & B2 & D2 & O2 & F2); rewrite ?Cap; auto.
  exists r, c2. rewrite open_parts by (rewrite (proj2 (ordered_iff lists) Inc); apply andb_false_r). rewrite iob, E1, E2.
  split; [reflexivity|]. split; [exact B2|]. split; [congruence|]. split; [rewrite O2, O1, <- app_assoc; reflexivity|].
  rewrite (known_all lists t Inc) in F2. exact F2.
Qed.

Lemma open_stops : forall debug f32 f64 lists code state msg w i c rest, increasing (map ml_version lists) ->
  Z.testbit (c_caps c) DEPRECATE_EOF_BIT = true -> opening_refused (c_caps c) create_query code state msg w i -> between c (i ++ rest) ->
  exists c', migrator_open debug f32 f64 lists c = (Err (EServer (ErrError code state msg)), c') /\ between c' rest /\
    s_out (c_stream c') = s_out (c_stream c) ++ w.
Proof.
  intros debug f32 f64 lists code state msg w i c rest Inc Hd H B.
  rewrite open_parts by (rewrite (proj2 (ordered_iff lists) Inc); apply andb_false_r). rewrite iob.
  destruct H as [w i (q & pkts & q' & Hr & Ha & Hf)|cols w0 i0 w1 i1 Sh (q & pkts & q' & Hr & Ha & Hf)|w0 i0 w1 i1 Mk (q & pkts & q' & Hr & Ha & Hf)].
  - destruct (query_refused c look code state msg w q pkts i q' rest Hd Hr Ha Hf B) as (c1 & E1 & B1 & O1).
    exists c1. unfold make_table. rewrite iob, E1. auto.
  - rewrite <- app_assoc in B. destruct (table_shown debug f32 f64 _ _ _ _ _ _ Hd Sh B) as (c1 & E1 & B1 & D1 & O1). rewrite E1.
    assert (Cap : c_caps c1 = c_caps c) by (unfold c_caps; now rewrite D1).
    destruct (execute_refused c1 create_query code state msg w1 q pkts i1 q' rest) as (c2 & E2 & B2 & O2); rewrite ?Cap; auto.
    exists c2. rewrite iob, E2. split; [reflexivity|]. split; [exact B2|]. rewrite O2, O1, <- app_assoc. reflexivity.
  - rewrite <- app_assoc in B. destruct (table_ready debug f32 f64 _ _ _ _ Hd Mk B) as (c1 & E1 & B1 & D1 & O1). rewrite E1.
    assert (Cap : c_caps c1 = c_caps c) by (unfold c_caps; now rewrite D1).
    destruct (query_refused c1 list_records code state msg w1 q pkts i1 q' rest) as (c2 & E2 & B2 & O2); rewrite ?Cap; auto.
    exists c2. unfold read_table. rewrite iob, E2. split; [reflexivity|]. split; [exact B2|]. rewrite O2, O1, <- app_assoc. reflexivity.
Qed.

(** ** Running *)
Definition own_text (texts : simple_texts) (s : step) : str :=
  match s with Apply m => st_up texts m | Remove m => st_down texts m end.
Definition record_text (s : step) : str :=
  match s with Apply m => insert_statement (fst m) (snd m) | Remove m => delete_statement (fst m) (snd m) end.
Definition step_texts (texts : simple_texts) (steps : list step) : list str :=
  flat_map (fun s => [own_text texts s; record_text s]) steps.

Lemma up_texts : forall texts plan, step_texts texts (map Apply plan) = plan_texts (st_up texts) insert_statement plan.
Proof. intros texts plan. induction plan as [|m plan IH]; [reflexivity|]. unfold step_texts, plan_texts in *. cbn [map flat_map]. rewrite IH. reflexivity. Qed.
Lemma down_texts : forall texts plan, step_texts texts (map Remove plan) = plan_texts (st_down texts) delete_statement plan.
Proof. intros texts plan. induction plan as [|m plan IH]; [reflexivity|]. unfold step_texts, plan_texts in *. cbn [map flat_map]. rewrite IH. reflexivity. Qed.
Lemma texts_app : forall texts s1 s2, step_texts texts (s1 ++ s2) = step_texts texts s1 ++ step_texts texts s2.
Proof. intros texts s1 s2. unfold step_texts. apply flat_map_app. Qed.

Lemma performed_app : forall bs coll own s1 q1 t t1, performed bs coll own s1 q1 t t1 -> forall s2 q2 t2, performed bs coll own s2 q2 t1 t2 ->
  performed bs coll own (s1 ++ s2) (q1 ++ q2) t t2.
Proof. intros bs coll own s1 q1 t t1 H. induction H; intros s2 q2 t2 K; cbn [app]; [exact K| |]; econstructor; eauto. Qed.

Lemma performed_up : forall bs coll texts plan t, fits coll t plan ->
  performed bs coll (own_text texts) (map Apply plan) (step_texts texts (map Apply plan)) t (t ++ plan).
Proof.
  intros bs coll texts plan. induction plan as [|(v, n) plan IH]; intros t F; cbn [map].
  - rewrite app_nil_r. constructor.
  - unfold migration_record in *. assert (A : t ++ (v, n) :: plan = (t ++ [(v, n)]) ++ plan) by (rewrite <- app_assoc; reflexivity). rewrite A.
    unfold step_texts. cbn [flat_map app]. fold (step_texts texts (map Apply plan)). cbn [own_text record_text fst snd].
    pose proof (proj1 F) as E. inversion E as [|? ? (E1 & E2) _]; subst.
    eapply (pf_apply bs coll (own_text texts) (v, n)); [now apply says_insert_self| |apply IH, fits_next, F].
    apply (fits_insert bs coll _ _ _ _ F). reflexivity.
Qed.

Lemma performed_down : forall bs coll, (forall n, coll n n = true) -> forall texts plan t t', fits_down coll t plan ->
  sublist_of (fun m => ~ In m plan) t t' ->
  performed bs coll (own_text texts) (map Remove plan) (step_texts texts (map Remove plan)) t t'.
Proof.
  intros bs coll R texts plan. induction plan as [|(v, n) plan IH]; intros t t' F S; cbn [map].
  - apply sublist_nothing in S. subst. constructor.
  - unfold step_texts. cbn [flat_map app]. fold (step_texts texts (map Remove plan)). cbn [own_text record_text fst snd].
    pose proof (proj1 F) as E. inversion E as [|? ? (E1 & E2) _]; subst.
    destruct (sublist_exists (fun m => m <> (v, n)) t) as (t1 & S1). { intros x _. destruct (record_dec x (v, n)); auto. }
    eapply (pf_remove bs coll (own_text texts) (v, n)); [now apply says_delete_self| |apply (IH t1)].
    + apply (fits_delete bs coll R _ _ _ _ F). exact S1.
    + eapply fits_down_next; eauto.
    + destruct (sublist_exists (fun m => ~ In m plan) t1) as (t2 & S2). { intros x _. destruct (in_classic x plan); auto. }
      assert (t2 = t'); [|subst; exact S2]. eapply sublist_unique; [|exact S].
      eapply sublist_ext; [|eapply sublist_comp; [exact S1|exact S2]]. intros x _. cbn [In]. intuition congruence.
Qed.

Lemma sent_app : forall q1 l1, sent q1 l1 (Ok tt) -> forall q2 l2 r, sent q2 l2 r -> sent (q1 ++ q2) (l1 ++ l2) r.
Proof.
  intros q1 l1 H. remember (Ok tt) as k eqn:Ek. induction H; intros q2 l2 r' K; cbn [app]; [exact K|discriminate|].
  constructor. auto.
Qed.
Lemma sent_stop : forall q1 l1 e, sent q1 l1 (Err e) -> forall q2, sent (q1 ++ q2) l1 (Err e).
Proof.
  intros q1 l1 e H. remember (Err e) as k eqn:Ek. induction H; intros q2; cbn [app]; [discriminate| |].
  - injection Ek as <-. constructor.
  - constructor. auto.
Qed.
Lemma sent_no_panic : forall qs l, ~ sent qs l Panic.
Proof. intros qs l H. remember Panic as k eqn:Ek. induction H; try discriminate. auto. Qed.
Lemma events_app : forall texts p q, text_events texts (p ++ q) = text_events texts p ++ text_events texts q.
Proof. intros. apply flat_map_app. Qed.

Lemma keeps_revert : forall w v n l i, keeps w (revert w v n l i).
Proof.
  intros w v n l i. unfold revert. apply keeps_bind; [apply keeps_await|]. intros _.
  apply keeps_bind; [apply (keeps_pure unit w (fun x => map_set x v (swap_remove l i)) tt)|]. intros _.
  apply keeps_bind; [apply keeps_await|]. intros _. apply keeps_await.
Qed.
Lemma keeps_one_down : forall w lists, keeps w (one_down w lists).
Proof.
  intros w lists a h r a' h' E. rewrite one_down_flat in E. revert a h r a' h' E.
  assert (P : forall (x : bool) (a : applied_map) h (r : res error bool) a' h', (Ok x, (a, h)) = (r, (a', h')) -> exists tr, h' = h ++ tr /\ consistent w h tr).
  { intros x a h r a' h' E. injection E as _ _ <-. exists []. rewrite app_nil_r. split; [reflexivity|constructor]. }
  induction (rev (listed lists)) as [|m ms IH]; intros a h r a' h' E; cbn [one_down_all] in E; [eapply P; eauto|].
  cbn [fst] in E. destruct (get_applied a (fst m) (snd m)) as [(l, i)|]; [|eapply IH; eauto].
  revert E. apply (keeps_bind unit bool w (revert w (fst m) (snd m) l i) (fun _ s => (Ok true, s))); [apply keeps_revert|].
  intros _ a1 h1 r1 a2 h2 E. eapply P; eauto.
Qed.

(** The state of a migrator on a table. *)
Definition on_table (lists : list migration_list) (a : applied_map) (t : list migration_record) : Prop :=
  NoDup t /\ incl t (listed lists) /\ represents a t.

Section runs.
  Variables (bs : bool) (coll : list Z -> list Z -> bool) (lists : list migration_list) (texts : simple_texts) (ef : list event -> bool) (c0 : conn).
  Hypotheses (R : forall n, coll n n = true) (S : storable coll (listed lists)).
  Let w := wire_oracle texts ef c0.

  (** What a call does. *)
  Definition does (t : list migration_record) (steps : list step) (t' : list migration_record) (f : IO mig_state unit) : Prop :=
    performed bs coll (own_text texts) steps (step_texts texts steps) t t' /\
    forall a h r a' h', on_table lists a t -> f (a, h) = (r, (a', h')) ->
    exists tr, h' = h ++ tr /\ consistent w h tr /\ sent (step_texts texts steps) (text_events texts tr) r /\ (r = Ok tt -> on_table lists a' t').

  Lemma does_up : forall target t plan, NoDup t -> incl t (listed lists) -> up_plan lists target t plan ->
    does t (map Apply plan) (t ++ plan) (up_to_version w target lists).
  Proof.
    intros target t plan N I P. split.
    { apply performed_up. eapply plan_fits; eauto. cbv beta. tauto. }
    intros a h r a' h' (_ & _ & Rep) E.
    destruct (up_facts _ _ _ _ _ _ _ _ _ _ R S N I Rep E) as (plan' & tr & d & -> & P' & U & Rep' & F).
    assert (plan' = plan) as -> by (eapply sublist_unique; eauto).
    rewrite up_flat in E. destruct (keeps_all _ _ _ (keeps_up w) _ _ _ _ _ E) as (tr' & Et & Co).
    apply app_inv_head in Et. subst tr'. exists tr. splits; auto.
    - rewrite up_texts. eapply up_sent; [exact U|]. exact (get_done _ _ _ _ _ Co).
    - intros ->. destruct (up_complete bs coll _ _ _ _ U eq_refl _ F) as (-> & _). unfold on_table. splits.
      + exact (proj1 (proj2 F)).
      + intros x Hx. apply in_app_iff in Hx. destruct Hx as [Hx|Hx]; [apply I; assumption|].
        apply (sublist_in _ _ _ _ P) in Hx. tauto.
      + exact Rep'.
  Qed.

  Lemma does_down : forall target t plan t', NoDup t -> incl t (listed lists) -> down_plan lists target t plan ->
    sublist_of (fun m => ~ In m plan) t t' -> does t (map Remove plan) t' (down_to_version w target lists).
  Proof.
    intros target t plan t' N I P Sl.
    assert (F : fits_down coll t plan).
    { assert (J : incl plan (listed lists)). { intros x Hx. apply (sublist_in _ _ _ _ P) in Hx. apply in_rev. tauto. }
      split.
      - rewrite Forall_forall. intros m Hm. apply (storable_ok coll _ S), J, Hm.
      - intros x y Hx Hy. apply (storable_clash coll _ S); auto. }
    split; [now apply performed_down|].
    intros a h r a' h' (_ & _ & Rep) E.
    destruct (down_facts _ _ _ _ _ _ _ _ _ _ R S I Rep E) as (plan' & tr & d & t1 & -> & P' & U & S1 & Rep' & _).
    assert (plan' = plan) as -> by (eapply sublist_unique; eauto).
    rewrite down_flat in E. destruct (keeps_all _ _ _ (keeps_down w) _ _ _ _ _ E) as (tr' & Et & Co).
    apply app_inv_head in Et. subst tr'. exists tr. splits; auto.
    - rewrite down_texts. eapply down_sent; [exact U|]. exact (get_done _ _ _ _ _ Co).
    - intros ->. destruct (down_complete bs coll R _ _ _ _ U eq_refl _ F) as (-> & _).
      assert (t1 = t') as -> by (eapply sublist_unique; eauto). unfold on_table. splits.
      + eapply sublist_nodup; eauto.
      + intros x Hx. apply I. apply (sublist_in _ _ _ _ Sl) in Hx. tauto.
      + exact Rep'.
  Qed.

  Lemma does_bind : forall t s1 t1 s2 t2 f g, does t s1 t1 f -> does t1 s2 t2 g -> does t (s1 ++ s2) t2 (iobind f (fun _ => g)).
  Proof.
    intros t s1 t1 s2 t2 f g (P1 & D1) (P2 & D2). split; [rewrite texts_app; eapply performed_app; eauto|].
    intros a h r a' h' O E. unfold iobind in E. rewrite texts_app. destruct (f (a, h)) as [r1 (a1, h1)] eqn:E1.
    destruct (D1 _ _ _ _ _ O E1) as (tr1 & -> & C1 & Se1 & O1). destruct r1 as [[]|e|].
    - destruct (D2 _ _ _ _ _ (O1 eq_refl) E) as (tr2 & -> & C2 & Se2 & O2). exists (tr1 ++ tr2). rewrite app_assoc. splits; auto.
      + now apply consistent_app.
      + rewrite events_app. now apply sent_app.
    - injection E as <- <- <-. exists tr1. splits; auto; [|discriminate]. now apply sent_stop.
    - exfalso. eapply sent_no_panic; eauto.
  Qed.

  Lemma does_call : forall k t steps t', call_steps lists k t steps t' -> NoDup t -> incl t (listed lists) ->
    does t steps t' (run_call w lists k) /\ NoDup t' /\ incl t' (listed lists).
  Proof.
    assert (Up : forall target t plan, up_plan lists target t plan -> NoDup t -> incl t (listed lists) ->
      NoDup (t ++ plan) /\ incl (t ++ plan) (listed lists)).
    { intros target t plan P N I. split.
      - assert (F : fits coll t plan) by (eapply plan_fits; eauto; cbv beta; tauto). exact (proj1 (proj2 F)).
      - intros x Hx. apply in_app_iff in Hx. destruct Hx as [Hx|Hx]; [apply I; assumption|].
        apply (sublist_in _ _ _ _ P) in Hx. tauto. }
    assert (Dn : forall (Q : migration_record -> Prop) t t', sublist_of Q t t' -> NoDup t -> incl t (listed lists) -> NoDup t' /\ incl t' (listed lists)).
    { intros Q t t' Sl N I. split; [eapply sublist_nodup; eauto|]. intros x Hx. apply I. apply (sublist_in _ _ _ _ Sl) in Hx. tauto. }
    intros k t steps t' H. induction H as [t plan P|v t plan P|v t plan t' P Sl|v t s1 t1 s2 t2 H1 IH1 H2 IH2| |t earlier m later t' L Hm Hl Sl];
      intros N I; cbn [run_call].
    - split; [now apply does_up|eauto].
    - split; [now apply does_up|eauto].
    - split; [now apply does_down|eauto].
    - destruct (IH1 N I) as (D1 & N1 & I1). destruct (IH2 N1 I1) as (D2 & N2 & I2). split; [|auto].
      unfold to_version. eapply does_bind; eauto.
    - split; [|auto]. split; [constructor|]. intros a h r a' h' (_ & _ & Rep) E.
      unfold iobind in E. destruct (one_down w lists (a, h)) as [r1 (a1, h1)] eqn:E1. rewrite one_down_flat in E1.
      destruct (run_one_down _ _ _ _ _ _ _ _ Rep E1) as [(-> & -> & -> & _)|(p & m & q & tr & d & t' & r' & _ & _ & [] & _)].
      injection E as <- <- <-. exists []. rewrite app_nil_r. splits; auto; try constructor; auto.
    - split; [|eauto].
      assert (F : fits_down coll t [m]).
      { assert (Hi : In m (listed lists)) by (apply I; assumption). split.
        - constructor; [apply (storable_ok coll _ S), Hi|constructor].
        - intros x y Hx [<-|[]]. apply (storable_clash coll _ S); auto. }
      assert (Sl' : sublist_of (fun x => ~ In x [m]) t t').
      { eapply sublist_ext; [|exact Sl]. intros x _. cbn [In]. intuition congruence. }
      split; [exact (performed_down bs coll R texts [m] t t' F Sl')|].
      intros a h r a' h' (_ & _ & Rep) E.
      unfold iobind in E. destruct (one_down w lists (a, h)) as [r1 (a1, h1)] eqn:E1.
      destruct (keeps_one_down _ _ _ _ _ _ _ E1) as (tr0 & Et & Co). rewrite one_down_flat in E1.
      destruct (run_one_down _ _ _ _ _ _ _ _ Rep E1) as [(_ & _ & _ & K)|(p & m' & q & tr & d & t1 & r' & A & B & C & D & U & -> & Sd & Rep')].
      { exfalso. apply (K m); [|exact Hm]. apply -> in_rev. rewrite L. apply in_app_iff. right. now left. }
      assert (Q : listed lists = rev q ++ m' :: rev p).
      { rewrite <- (rev_involutive (listed lists)), A, rev_app_distr. cbn [rev]. rewrite <- app_assoc. reflexivity. }
      assert (m' = m) as ->.
      { rewrite L in Q. clear - Q B C Hm Hl.
        assert (X : forall x, In x (rev p) -> ~ In x t) by (intros x Hx; apply B; apply in_rev; exact Hx). clear B. revert Q X.
        generalize (rev q), (rev p). intros l1 l2 Q X. revert l1 Q. induction earlier as [|y e IH]; intros [|z l1] Q; cbn [app] in Q.
        - congruence.
        - injection Q as <- Q. exfalso. apply (Hl m'); [|exact C]. rewrite Q. apply in_app_iff. right. now left.
        - injection Q as <- Q. exfalso. apply (X m); [|exact Hm]. rewrite <- Q. apply in_app_iff. right. now left.
        - injection Q as _ Q. exact (IH _ Q). }
      rewrite Et in D. apply app_inv_head in D. subst tr0 h1.
      assert (h' = h ++ tr /\ r = r' /\ a' = a1) as (-> & -> & ->). { destruct r' as [[]|e|]; cbn [rmap] in E; injection E as <- <- <-; auto. }
      exists tr. splits; auto.
      + change [Remove m] with (map Remove [m]). rewrite down_texts. eapply down_sent; [exact U|]. exact (get_done _ _ _ _ _ Co).
      + intros ->. destruct (down_complete bs coll R _ _ _ _ U eq_refl _ F) as (-> & _).
        assert (t1 = t') as -> by (eapply sublist_unique; eauto). split; [|split; [|exact Rep']]; eapply Dn; eauto.
  Qed.

  Lemma does_calls : forall ks t steps t', calls_steps lists ks t steps t' -> NoDup t -> incl t (listed lists) ->
    does t steps t' (run_calls w lists ks).
  Proof.
    intros ks t steps t' H. induction H as [t|k ks t s1 t1 s2 t2 H1 H2 IH]; intros N I; cbn [run_calls].
    - split; [constructor|]. intros a h r a' h' O E. injection E as <- <- <-. exists []. rewrite app_nil_r. splits; auto; constructor.
    - destruct (does_call _ _ _ _ H1 N I) as (D1 & N1 & I1). eapply does_bind; solve [eauto].
  Qed.
End runs.
