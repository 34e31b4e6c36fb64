(** The migrator opened and used on a connection: C111. *)
From Coq Require Import String ZArith List Bool Lia Permutation.
From Verif Require Import Base BaseFacts Types Utf8 ParseBuf BufMut Spec_Wire ParseBuf_proofs Conversion Spec_Conv Conversion_proofs
  Packets Spec_Packets Packets_proofs Framing Framing_proofs Auth Auth_proofs ValueText Spec_Text ValueText_proofs Rows Rows_proofs
  Spec_Stmt StmtPackets Conn Spec_Conn Conn_proofs Migrator Spec_Migrate Migrator_proofs SimpleMigration Spec_Simple Simple_proofs
  Spec_Program Program_proofs MigratorWire Spec_MigratorWire MigratorWire_proofs Properties_Command Properties_Migrate Properties_Simple Properties_ModelWire.
Import ListNotations.
Open Scope Z_scope.

(** Whatever is called on whatever table, there is exactly one list of steps for it, and one table
    afterwards. *)
Theorem C111_steps : forall lists ks t, incl t (listed lists) -> NoDup t -> NoDup (listed lists) ->
  exists steps t', calls_steps lists ks t steps t' /\ NoDup t' /\ incl t' (listed lists) /\
  forall steps2 t2, calls_steps lists ks t steps2 t2 -> steps2 = steps /\ t2 = t'.
Proof.
  intros lists ks t I N ND.
  assert (Up : forall target t, exists plan, up_plan lists target t plan).
  { intros target t0. apply sublist_exists. intros x _.
    assert (D : within target x \/ ~ within target x). { pose proof (withinb_iff target x) as W. destruct (withinb target x); [left; tauto|right; intros X; apply W in X; discriminate]. }
    destruct (in_classic x t0); tauto. }
  assert (Dn : forall v t, exists plan, down_plan lists v t plan).
  { intros v t0. apply sublist_exists. intros x _. pose proof (version_gtb_iff (fst x) v) as G.
    destruct (in_classic x t0); [|tauto]. destruct (version_gtb (fst x) v); [tauto|]. right. intros (X & _). apply G in X. discriminate. }
  assert (Rm : forall (plan t : list migration_record), exists t', sublist_of (fun m => ~ In m plan) t t').
  { intros plan t0. apply sublist_exists. intros x _. destruct (in_classic x plan); tauto. }
  assert (UpOk : forall target t plan, up_plan lists target t plan -> NoDup t -> incl t (listed lists) -> NoDup (t ++ plan) /\ incl (t ++ plan) (listed lists)).
  { intros target t0 plan P N0 I0. split.
    - apply nodup_app; [exact N0|eapply sublist_nodup; eauto|]. intros x Hx K. apply (sublist_in _ _ _ _ P) in K. tauto.
    - intros x Hx. apply in_app_iff in Hx. destruct Hx as [Hx|Hx]; [apply I0; assumption|]. apply (sublist_in _ _ _ _ P) in Hx. tauto. }
  assert (DnOk : forall (Q : migration_record -> Prop) t t', sublist_of Q t t' -> NoDup t -> incl t (listed lists) -> NoDup t' /\ incl t' (listed lists)).
  { intros Q t0 t' Sl N0 I0. split; [eapply sublist_nodup; eauto|]. intros x Hx. apply I0. apply (sublist_in _ _ _ _ Sl) in Hx. tauto. }
  assert (K1 : forall k, (forall v, k <> CallTo v) -> forall t, incl t (listed lists) -> NoDup t -> exists steps t', call_steps lists k t steps t' /\ NoDup t' /\ incl t' (listed lists) /\
    forall s2 t2, call_steps lists k t s2 t2 -> s2 = steps /\ t2 = t').
  { intros k Hk t0 I0 N0. destruct k as [|v|v|v|].
    - destruct (Up None t0) as (plan & P). exists (map Apply plan), (t0 ++ plan). split; [now constructor|].
      destruct (UpOk _ _ _ P N0 I0). split; auto. split; auto. intros s2 t2 K. inversion K as [? p2 P2|? ? p2 P2| | | |]; subst.
      assert (p2 = plan) as -> by (eapply sublist_unique; eauto). auto.
    - destruct (Up (Some v) t0) as (plan & P). exists (map Apply plan), (t0 ++ plan). split; [now constructor|].
      destruct (UpOk _ _ _ P N0 I0). split; auto. split; auto. intros s2 t2 K. inversion K as [? p2 P2|? ? p2 P2| | | |]; subst.
      assert (p2 = plan) as -> by (eapply sublist_unique; eauto). auto.
    - destruct (Dn v t0) as (plan & P). destruct (Rm plan t0) as (t' & Sl). exists (map Remove plan), t'. split; [econstructor; eauto|].
      destruct (DnOk _ _ _ Sl N0 I0). split; auto. split; auto. intros s2 t2 K. inversion K as [| |? ? p2 ? P2 Sl2| | |]; subst.
      assert (p2 = plan) as -> by (eapply sublist_unique; eauto). split; [reflexivity|eapply sublist_unique; eauto].
    - exfalso. exact (Hk v eq_refl).
    - destruct t0 as [|x0 t0]; [exists [], []|].
      { split; [constructor|]. split; auto. split; auto. intros s2 t2 K. inversion K; subst; auto; contradiction. }
      remember (x0 :: t0) as tt0 eqn:Et. assert (Ne : exists x, In x tt0) by (exists x0; subst; now left).
      assert (L : exists earlier m later, listed lists = earlier ++ m :: later /\ In m tt0 /\ forall x, In x later -> ~ In x tt0).
      { destruct Ne as (x & Hx). specialize (I0 x Hx). clear - I0 Hx. revert I0. generalize (listed lists) as l.
        induction l as [|y l IH] using rev_ind; intros Hi; [destruct Hi|]. destruct (in_classic y tt0) as [Hy|Hy].
        - exists l, y, []. splits; auto.
        - apply in_app_iff in Hi. destruct Hi as [Hi|[->|[]]]; [|contradiction]. destruct (IH Hi) as (e & m & la & -> & A & B).
          exists e, m, (la ++ [y]). rewrite <- app_assoc. splits; auto. intros z Hz. apply in_app_iff in Hz. destruct Hz as [Hz|[<-|[]]]; auto. }
      destruct L as (e & m & la & L & Hm & Hl).
      destruct (sublist_exists (fun x => x <> m) tt0) as (t' & Sl). { intros x _. destruct (record_dec x m); tauto. }
      exists [Remove m], t'. split; [econstructor; eauto|]. destruct (DnOk _ _ _ Sl N0 I0). split; auto. split; auto.
      intros s2 t2 H2. inversion H2 as [| | | |E|t1 e2 m2 l2 t3 L2 Hm2 Hl2 Sl2]; subst; [discriminate|].
      assert (m2 = m) as ->.
      { rewrite L in L2. clear - L2 Hm Hl Hm2 Hl2. revert e2 L2. induction e as [|y e IH]; intros [|z e2] Q; cbn [app] in Q.
        - congruence.
        - injection Q as <- Q. exfalso. apply (Hl m2); [|exact Hm2]. rewrite Q. apply in_app_iff. right. now left.
        - injection Q as <- Q. exfalso. apply (Hl2 m); [|exact Hm]. rewrite <- Q. apply in_app_iff. right. now left.
        - injection Q as _ Q. exact (IH _ Q). }
      split; [reflexivity|]. eapply sublist_unique; eauto. }
  assert (K : forall k t, incl t (listed lists) -> NoDup t -> exists steps t', call_steps lists k t steps t' /\ NoDup t' /\ incl t' (listed lists) /\
    forall s2 t2, call_steps lists k t s2 t2 -> s2 = steps /\ t2 = t').
  { intros k t0 I0 N0. destruct k as [|v|v|v|]; try (apply K1; auto; discriminate).
    destruct (K1 (CallUpTo v) ltac:(discriminate) t0 I0 N0) as (s1 & t1 & A1 & N1 & I1 & U1).
    destruct (K1 (CallDownTo v) ltac:(discriminate) t1 I1 N1) as (s2 & t2 & A2 & N2 & I2 & U2).
    exists (s1 ++ s2), t2. split; [econstructor; eauto|]. split; auto. split; auto.
    intros s3 t3 H. inversion H as [| | |v0 ? x1 y1 x2 y2 B1 B2| |]; subst. apply U1 in B1. destruct B1 as (-> & ->). apply U2 in B2. destruct B2 as (-> & ->). auto. }
  revert t I N. induction ks as [|k ks IH]; intros t I N.
  - exists [], t. split; [constructor|]. split; auto. split; auto. intros s2 t2 H. inversion H; auto.
  - destruct (K k t I N) as (s1 & t1 & A1 & N1 & I1 & U1). destruct (IH t1 I1 N1) as (s2 & t2 & A2 & N2 & I2 & U2).
    exists (s1 ++ s2), t2. split; [econstructor; eauto|]. split; auto. split; auto.
    intros s3 t3 H. inversion H as [|? ? ? x1 y1 x2 y2 B1 B2]; subst. apply U1 in B1. destruct B1 as (-> & ->). apply U2 in B2. destruct B2 as (-> & ->). auto.
Qed.
Print Assumptions C111_steps.

(** The program of examples/migrations/main.rs with any lists and calls.  The server says whether the
    table is there, creates it if not, lists the records [t] and answers the statements of the steps
    until it refuses one.  Then the program ends with that error or without one.  It has sent
    exactly the queries of the opening and, for each step, the migration's own statement and the one
    that changes its record, up to the refused one, and has read every byte of the answers; and
    those statements, executed, leave the table with exactly [t'].  Guard as in C59. *)
Theorem C111_run_partial : exists packets : use -> list (list Z),
  (forall u, use_ok u -> request u (packets u)) /\
  exists create, is_create create /\
  forall A (decode : list column -> bytes -> res error A) caps debug f32 f64 bs coll lists texts effect ks t steps t' c,
  (forall n, coll n n = true) -> storable coll (listed lists) -> increasing (map ml_version lists) -> NoDup t -> incl t (listed lists) ->
  Z.testbit caps DEPRECATE_EOF_BIT = true -> c_caps c = caps -> calls_steps lists ks t steps t' ->
  exists qs, performed bs coll (fun s => match s with Apply m => st_up texts m | Remove m => st_down texts m end) steps qs t t' /\
  forall w i hs i' o r rest, opened caps create t w i -> answered qs hs r -> history decode caps packets hs i' o ->
  between c (i ++ i' ++ rest) ->
  exists c', migrate debug f32 f64 texts effect lists ks c = (r, c') /\ between c' rest /\
    s_out (c_stream c') = s_out (c_stream c) ++ w ++ o.
Proof.
  exists use_packets. split; [intros u H; now apply use_packets_request|].
  exists create_query. split; [vm_compute; reflexivity|].
  intros A decode caps debug f32 f64 bs coll lists texts ef ks t steps t' c R S Inc N I Hd Hc K.
  destruct (does_calls bs coll lists texts ef c R S ks t steps t' K N I) as (P & _).
  exists (step_texts texts steps). split; [exact P|].
  intros w i hs i' o r rest Op An Hh B. subst caps.
  destruct (open_done debug f32 f64 lists t w i c (i' ++ rest) Inc N Hd Op B) as (r1 & c1 & E1 & B1 & D1 & O1 & F1).
  destruct F1 as [(_ & a & -> & Rep)|(F & _)]; [|contradiction].
  assert (Cap : c_caps c1 = c_caps c) by (unfold c_caps; now rewrite D1).
  destruct (run_uses_history A decode (c_caps c) hs i' o Hh Hd c1 rest Cap B1) as (c2 & Er & B2 & _ & O2).
  destruct (does_calls bs coll lists texts ef c1 R S ks t steps t' K N I) as (_ & Do).
  destruct (run_calls (wire_oracle texts ef c1) lists ks (a, [])) as [r2 (a2, h2)] eqn:E2.
  destruct (Do a [] r2 a2 h2 (conj N (conj I Rep)) E2) as (tr & Et & Co & Se & _). cbn [app] in Et. subst h2.
  destruct (sent_answered A decode texts ef c1 [] tr Co _ _ _ _ Se An) as (-> & L); [cbn [conn_after]; now rewrite Er|].
  cbn [app conn_after] in L. rewrite Er in L. cbn [snd] in L.
  exists c2. unfold migrate. rewrite iob, E1, E2, L. split; [reflexivity|]. split; [exact B2|]. rewrite O2, O1, <- app_assoc. reflexivity.
Qed.
Print Assumptions C111_run_partial.

(** A program that ends with [up] leaves every listed migration recorded, once.  If it is started
    again, it sends the queries of the opening and nothing else. *)
Theorem C111_again_partial : exists create, is_create create /\
  forall caps debug f32 f64 texts effect lists ks t steps t' t2 c w i rest,
  increasing (map ml_version lists) -> NoDup t -> incl t (listed lists) -> NoDup (listed lists) ->
  Z.testbit caps DEPRECATE_EOF_BIT = true -> c_caps c = caps -> calls_steps lists (ks ++ [CallUp]) t steps t' -> Permutation t' t2 ->
  Permutation (listed lists) t' /\
  (opened caps create t2 w i -> between c (i ++ rest) ->
   exists c', migrate debug f32 f64 texts effect lists [CallUp] c = (Ok tt, c') /\ between c' rest /\
     s_out (c_stream c') = s_out (c_stream c) ++ w).
Proof.
  exists create_query. split; [vm_compute; reflexivity|].
  intros caps debug f32 f64 texts ef lists ks t steps t' t2 c w i rest Inc N I ND Hd Hc K Pm.
  assert (P : Permutation (listed lists) t').
  { destruct (C111_steps lists (ks ++ [CallUp]) t I N ND) as (s0 & t0 & _ & N0 & I0 & U). destruct (U _ _ K) as (_ & <-).
    apply NoDup_Permutation; auto. intros x. split; [|apply I0]. intros Hx.
    assert (X : forall ks t steps t', calls_steps lists (ks ++ [CallUp]) t steps t' -> exists t1 plan, up_plan lists None t1 plan /\ t' = t1 ++ plan).
    { clear. induction ks as [|k ks IH]; intros t steps t' K; inversion K as [|? ? ? s1 t1 s2 t2 K1 K2]; subst.
      - inversion K2; subst. inversion K1; subst. eauto.
      - eapply IH; eauto. }
    destruct (X _ _ _ _ K) as (t1 & plan & Up & ->). apply in_app_iff. destruct (in_classic x t1); [now left|right].
    apply (sublist_in _ _ _ _ Up). cbn. tauto. }
  split; [exact P|]. intros Op B. subst caps.
  assert (P2 : Permutation (listed lists) t2) by (eapply perm_trans; eauto).
  destruct (open_done debug f32 f64 lists t2 w i c rest Inc (Permutation_NoDup P2 ND) Hd Op B) as (r1 & c1 & E1 & B1 & D1 & O1 & F1).
  destruct F1 as [(_ & a & -> & Rep)|(F & _)]; [|exfalso; apply F; intros x Hx; eapply Permutation_in; [symmetry; exact P2|exact Hx]].
  exists c1. unfold migrate. rewrite iob, E1. cbn [run_calls run_call]. unfold up. rewrite iob.
  rewrite (represents_all a t2) by (first [exact Rep | intros m Hm _; exact (Permutation_in m P2 Hm)]). cbn [conn_after]. auto.
Qed.
Print Assumptions C111_again_partial.

(** If the server refuses a statement of the opening, the program ends with that error and has sent
    nothing after it. *)
Theorem C111_refused : exists create, is_create create /\
  forall caps debug f32 f64 texts effect lists ks code state msg c w i rest,
  increasing (map ml_version lists) -> Z.testbit caps DEPRECATE_EOF_BIT = true -> c_caps c = caps ->
  opening_refused caps create code state msg w i -> between c (i ++ rest) ->
  exists c', migrate debug f32 f64 texts effect lists ks c = (Err (EServer (ErrError code state msg)), c') /\ between c' rest /\
    s_out (c_stream c') = s_out (c_stream c) ++ w.
Proof.
  exists create_query. split; [vm_compute; reflexivity|].
  intros caps debug f32 f64 texts ef lists ks code state msg c w i rest Inc Hd Hc Op B. subst caps.
  destruct (open_stops debug f32 f64 lists code state msg w i c rest Inc Hd Op B) as (c1 & E1 & B1 & O1).
  exists c1. unfold migrate. rewrite iob, E1. auto.
Qed.
Print Assumptions C111_refused.

(** A recorded migration that is not listed: the program panics before it has run anything; an unordered
    list: a debug build panics before it has sent anything. *)
Theorem C111_unknown : (exists create, is_create create /\
  forall caps debug f32 f64 texts effect lists ks t c w i rest,
  increasing (map ml_version lists) -> NoDup t -> ~ incl t (listed lists) ->
  Z.testbit caps DEPRECATE_EOF_BIT = true -> c_caps c = caps -> opened caps create t w i -> between c (i ++ rest) ->
  exists c', migrate debug f32 f64 texts effect lists ks c = (Panic, c') /\ s_out (c_stream c') = s_out (c_stream c) ++ w) /\
  (forall f32 f64 texts effect lists ks c, ~ increasing (map ml_version lists) -> migrate true f32 f64 texts effect lists ks c = (Panic, c)).
Proof.
  split.
  - exists create_query. split; [vm_compute; reflexivity|].
    intros caps debug f32 f64 texts ef lists ks t c w i rest Inc N I Hd Hc Op B. subst caps.
    destruct (open_done debug f32 f64 lists t w i c rest Inc N Hd Op B) as (r1 & c1 & E1 & B1 & D1 & O1 & F1).
    destruct F1 as [(F & _)|(_ & ->)]; [contradiction|]. exists c1. unfold migrate. rewrite iob, E1. auto.
  - intros f32 f64 texts ef lists ks c H. unfold migrate. rewrite iob. unfold migrator_open.
    destruct (ordered lists) eqn:E; [exfalso; apply H, ordered_iff, E|reflexivity].
Qed.
Print Assumptions C111_unknown.

(** ** A concrete server *)
Definition mig_column (name : string) (type : column_type) (flags : Z) : column :=
  mkColumn (s2l name) (s2l name) (s2l "migrations") (s2l "migrations") type flags.
Definition mig_definition (name : string) (code flags : Z) : bytes :=
  [3; 100; 101; 102; 0] ++ wire_lenenc_str (s2l "migrations") ++ wire_lenenc_str (s2l "migrations") ++ wire_lenenc_str (s2l name) ++
  wire_lenenc_str (s2l name) ++ [12; 33; 0; 255; 0; 0; 0; code] ++ wire_uint 2 flags ++ [0; 0; 0].
Definition mig_columns : list column :=
  [mig_column "version_0" CShort 32; mig_column "version_1" CShort 32; mig_column "version_2" CShort 32; mig_column "name" CVarString 0].
Definition mig_definitions : list bytes :=
  [mig_definition "version_0" 2 32; mig_definition "version_1" 2 32; mig_definition "version_2" 2 32; mig_definition "name" 253 0].
Definition last_packet : bytes := [254; 0; 0; 2; 0; 0; 0].
Definition no_table : list bytes := [[1]; mig_definition "1" 8 0; last_packet].
Definition is_table : list bytes := [[1]; mig_definition "1" 8 0; [1; 49]; last_packet].
Definition mig_row (n : bytes) : bytes := [1; 49; 1; 48; 1; 48] ++ wire_lenenc_str n.
Definition mig_records (ns : list bytes) : list bytes := [4] :: mig_definitions ++ map mig_row ns ++ [last_packet].
Definition c111_ok : bytes := frame 1 ok_packet_bytes.
Definition record_of (n : string) : bytes := s2l "insert into `migrations` (`version_0`, `version_1`, `version_2`, `name`) values (1, 0, 0, """ ++ s2l n ++ s2l """)".
Definition unrecord (n : string) : bytes := s2l "delete from `migrations` where `version_0` = 1 and `version_1` = 0 and `version_2` = 0 and `name` = """ ++ s2l n ++ s2l """".
Definition asked_for (q : bytes) : bytes := frame 0 (3 :: q).
Definition run_on (lists : list migration_list) (ks : list call) (input : bytes) : res error unit * bytes * bytes :=
  let '(r, c) := migrate true (fun _ => None) (fun _ => None) c86_texts (fun _ => false) lists ks (idle input) in (r, s_out (c_stream c), s_in (c_stream c)).

(** On an empty database; then, with one of the two recorded, as in examples/migrations/main.rs; then with both. *)
Example C111_case :
  run_on c86_lists [CallUp] (frame_all 1 no_table ++ c111_ok ++ frame_all 1 (mig_records []) ++ c111_ok ++ c111_ok ++ c111_ok ++ c111_ok) =
    (Ok tt, asked_for look ++ asked_for create_query ++ asked_for list_records ++
       asked_for (s2l "create a") ++ asked_for (record_of "a") ++ asked_for (s2l "create b") ++ asked_for (record_of "b"), []) /\
  run_on c86_lists [CallTo (mkVersion 0 0 0); CallUp] (frame_all 1 is_table ++ frame_all 1 (mig_records [s2l "a"]) ++ c111_ok ++ c111_ok ++ c111_ok ++ c111_ok ++ c111_ok ++ c111_ok) =
    (Ok tt, asked_for look ++ asked_for list_records ++ asked_for (s2l "drop a") ++ asked_for (unrecord "a") ++
       asked_for (s2l "create a") ++ asked_for (record_of "a") ++ asked_for (s2l "create b") ++ asked_for (record_of "b"), []) /\
  run_on c86_lists [CallUp] (frame_all 1 is_table ++ frame_all 1 (mig_records [s2l "b"; s2l "a"])) =
    (Ok tt, asked_for look ++ asked_for list_records, []) /\
  run_on c86_lists [CallOneDown] (frame_all 1 is_table ++ frame_all 1 (mig_records [s2l "b"; s2l "a"]) ++ c111_ok ++ c111_ok) =
    (Ok tt, asked_for look ++ asked_for list_records ++ asked_for (s2l "drop b") ++ asked_for (unrecord "b"), []) /\
  run_on c86_lists [CallUp] (frame_all 1 is_table ++ frame_all 1 (mig_records [s2l "c"; s2l "a"])) =
    (Panic, asked_for look ++ asked_for list_records, skipn (length (frame_all 1 (firstn 6 (mig_records [s2l "c"])))) (frame_all 1 (mig_records [s2l "c"; s2l "a"]))) /\
  run_on c86_lists [CallUp] (frame_all 1 no_table ++ frame 1 c86_refusal) =
    (Err (EServer (ErrError 1050 (Some (s2l "42000")) (s2l "no"))), asked_for look ++ asked_for create_query, []).
Proof. vm_compute. repeat split; reflexivity. Qed.

Lemma mig_column_layout : forall name type code flags, In (code, type) type_code -> 0 <= flags < 65536 ->
  Forall (fun c => 0 <= c < 128) (s2l name) -> Z.of_nat (length (s2l name)) < 200 ->
  column_layout_by short_name_text (mig_column name type flags) (mig_definition name code flags).
Proof.
  intros name type code flags Hc Hf Ha Hl.
  assert (N : forall l, Forall (fun c => 0 <= c < 128) l -> Z.of_nat (length l) < 200 -> short_name_text l (wire_lenenc_str l)).
  { intros l H L. split; [exists l; split; [now apply utf8_text_ascii|reflexivity]|]. unfold wire_lenenc_str. rewrite app_length.
    unfold wire_lenenc. replace (Z.of_nat (length l) <=? 250) with true by (symmetry; apply Z.leb_le; lia). cbn [length]. lia. }
  assert (U : short_name_text (s2l "migrations") (wire_lenenc_str (s2l "migrations"))). { apply N; [repeat constructor; lia|cbn; lia]. }
  exists [], [0], (wire_lenenc_str (s2l "migrations")), (wire_lenenc_str (s2l "migrations")), (wire_lenenc_str (s2l name)), (wire_lenenc_str (s2l name)),
    33, 255, code, 0, [0; 0]. cbn [col_table col_org_table col_name col_org_name col_type col_flags mig_column].
  splits; auto; try lia; try (cbn; lia).
  - split; [|cbn; lia]. exists []. split; [constructor|reflexivity].
Qed.

Lemma exchange_rows : forall q cols defs rows, Z.of_nat (length q) < 1000 -> cols <> [] -> Forall2 (column_layout_by short_name_text) cols defs -> Forall row_packet rows ->
  Forall (fun p => Z.of_nat (length p) < 1000) (([wire_lenenc (Z.of_nat (length cols))] ++ defs ++ rows ++ [last_packet])) -> Z.of_nat (length cols) < 65536 ->
  exchange some_caps q (ARows cols rows) (asked_for q) (frame_all 1 ([wire_lenenc (Z.of_nat (length cols))] ++ defs ++ rows ++ [last_packet])).
Proof.
  intros q cols defs rows Hq Hc Hl Hr Hs Hn. destruct (frame_all_framed _ 1 Hs) as (q' & F).
  exists 1, ([wire_lenenc (Z.of_nat (length cols))] ++ defs ++ rows ++ [last_packet]), q'. splits; [|apply (ap_rows some_caps cols defs rows 2 0 last_packet); auto|exact F].
  - constructor. apply (frame_frames 0 (3 :: q)). cbn [length]. lia.
  - split; [split; [lia|intros H; discriminate]|split; [lia|reflexivity]].
Qed.

Lemma one_text : text_enc (fun _ _ => False) (fun _ _ => False) CLongLong false (VLong 1) [49].
Proof. apply te_longlong_s; [lia|]. left. unfold nat_text. splits; [discriminate|repeat constructor; unfold digit; lia|reflexivity]. Qed.

Lemma look_none : shown some_caps look [mig_column "1" CLongLong 0] [] (asked_for look) (frame_all 1 no_table).
Proof.
  exists []. splits; [constructor|repeat constructor; discriminate|]. apply (exchange_rows look [mig_column "1" CLongLong 0] [mig_definition "1" 8 0] []).
  - vm_compute. reflexivity.
  - discriminate.
  - constructor; [|constructor]. apply mig_column_layout; [cbn; tauto|lia|repeat constructor; lia|vm_compute; reflexivity].
  - constructor.
  - repeat constructor.
  - reflexivity.
Qed.
Lemma look_one : shown some_caps look [mig_column "1" CLongLong 0] [[VLong 1]] (asked_for look) (frame_all 1 is_table).
Proof.
  exists [[1; 49]]. splits.
  - constructor; [|constructor]. apply (tr_val _ _ CLongLong false _ _ _ [49] [1] []); [apply one_text|constructor; cbn; lia|constructor].
  - repeat constructor; discriminate.
  - apply (exchange_rows look [mig_column "1" CLongLong 0] [mig_definition "1" 8 0] [[1; 49]]).
    + vm_compute. reflexivity.
    + discriminate.
    + constructor; [|constructor]. apply mig_column_layout; [cbn; tauto|lia|repeat constructor; lia|vm_compute; reflexivity].
    + repeat constructor. eexists _, _. split; [reflexivity|]. split; intros; lia.
    + repeat constructor.
    + reflexivity.
Qed.

Definition mig_value (n : bytes) : list value := [VUShort 1; VUShort 0; VUShort 0; VBytes n].
Lemma records_shown : forall ns, Forall (fun n => Z.of_nat (length n) < 200) ns ->
  shown some_caps list_records mig_columns (map mig_value ns) (asked_for list_records) (frame_all 1 (mig_records ns)).
Proof.
  intros ns H. exists (map mig_row ns). splits.
  - assert (V : forall n l, n = 1 /\ l = [49] \/ n = 0 /\ l = [48] -> text_enc (fun _ _ => False) (fun _ _ => False) CShort true (VUShort n) l).
    { intros n l K. apply te_short_u; [now left|unfold u16; lia|]. unfold nat_text.
      destruct K as [(-> & ->)|(-> & ->)]; (splits; [discriminate|repeat constructor; unfold digit; lia|reflexivity]). }
    induction H as [|n ns Hn H IH]; cbn [map]; constructor; [|exact IH]. cbn [columns_sig map mig_columns mig_column col_type col_flags].
    apply (tr_val _ _ CShort true _ _ _ [49] [1]); [apply V; auto|constructor; cbn; lia|].
    apply (tr_val _ _ CShort true _ _ _ [48] [1]); [apply V; auto|constructor; cbn; lia|].
    apply (tr_val _ _ CShort true _ _ _ [48] [1]); [apply V; auto|constructor; cbn; lia|].
    change (wire_lenenc_str n) with (wire_lenenc (Z.of_nat (length n)) ++ n). rewrite <- (app_nil_r n) at 3.
    apply (tr_val _ _ CVarString false [] (VBytes n) [] n (wire_lenenc (Z.of_nat (length n))) []); [apply te_str; constructor|unfold wire_lenenc; replace (Z.of_nat (length n) <=? 250) with true by (symmetry; apply Z.leb_le; lia); constructor; lia|constructor].
  - repeat constructor; discriminate.
  - apply (exchange_rows list_records mig_columns mig_definitions (map mig_row ns)).
    + vm_compute. reflexivity.
    + discriminate.
    + repeat (constructor; [apply mig_column_layout; [cbn; tauto|lia|repeat constructor; lia|vm_compute; reflexivity]|]). constructor.
    + clear H. induction ns as [|n ns IH]; cbn [map]; constructor; [|exact IH]. eexists _, _. split; [reflexivity|]. split; intros; lia.
    + apply Forall_app. split; [repeat constructor|]. apply Forall_app. split; [repeat constructor|]. apply Forall_app. split; [|repeat constructor].
      induction H as [|n ns Hn H IH]; cbn [map]; constructor; [|exact IH]. unfold mig_row, wire_lenenc_str, wire_lenenc.
      replace (Z.of_nat (length n) <=? 250) with true by (symmetry; apply Z.leb_le; lia). rewrite !app_length. cbn [length]. lia.
    + reflexivity.
Qed.

Lemma mig_select : forall ns bs, Forall2 utf8_text ns bs -> select_answer (map (fun n => (v1, n)) ns) mig_columns (map mig_value bs).
Proof.
  intros ns bs H. split; [reflexivity|]. induction H as [|n b ns bs U H IH]; cbn [map]; constructor; [|exact IH].
  exists b. split; [reflexivity|exact U].
Qed.
Lemma opened_on : forall ns bs, Forall2 utf8_text ns bs -> Forall (fun n => Z.of_nat (length n) < 200) bs ->
  opened some_caps create_query (map (fun n => (v1, n)) ns) (asked_for look ++ asked_for list_records) (frame_all 1 is_table ++ frame_all 1 (mig_records bs)).
Proof.
  intros ns bs U L. exists (asked_for look), (frame_all 1 is_table), mig_columns, (map mig_value bs), (asked_for list_records), (frame_all 1 (mig_records bs)).
  splits; [|now apply records_shown|now apply mig_select|reflexivity|reflexivity].
  exists [mig_column "1" CLongLong 0], [[VLong 1]], (asked_for look), (frame_all 1 is_table), [], []. rewrite !app_nil_r.
  splits; [exact look_one|left; splits; [discriminate|reflexivity|reflexivity]|reflexivity|reflexivity].
Qed.

Definition c111_list : list migration_record := [(v1, s2l "a"); (v1, s2l "b")].
(** The second case meets the hypotheses, and the refused one those of C111_refused. *)
Example C111_hypotheses_case :
  storable list_eqb (listed c86_lists) /\ increasing (map ml_version c86_lists) /\ NoDup [(v1, s2l "a")] /\ incl [(v1, s2l "a")] (listed c86_lists) /\
  Z.testbit some_caps DEPRECATE_EOF_BIT = true /\
  calls_steps c86_lists [CallTo (mkVersion 0 0 0); CallUp] [(v1, s2l "a")] [Remove (v1, s2l "a"); Apply (v1, s2l "a"); Apply (v1, s2l "b")] c111_list /\
  opened some_caps create_query [(v1, s2l "a")] (asked_for look ++ asked_for list_records) (frame_all 1 is_table ++ frame_all 1 (mig_records [s2l "a"])) /\
  opening_refused some_caps create_query 1050 (Some (s2l "42000")) (s2l "no") (asked_for look ++ asked_for create_query) (frame_all 1 no_table ++ frame 1 c86_refusal).
Proof.
  splits.
  - split.
    + given_names.
    + cbn [listed flat_map c86_lists map ml_version ml_names app].
      repeat (constructor; [repeat constructor; intros (A & B); cbn [fst snd] in *; discriminate|]). constructor.
  - cbn. repeat constructor.
  - repeat constructor. intros [].
  - intros x [<-|[]]. now left.
  - reflexivity.
  - assert (Gt : forall n : str, vlt (mkVersion 0 0 0) (fst (v1, n))) by (intros n; left; cbn; lia).
    change [Remove (v1, s2l "a"); Apply (v1, s2l "a"); Apply (v1, s2l "b")] with ((map Apply [] ++ map Remove [(v1, s2l "a")]) ++ map Apply c111_list ++ []).
    eapply css_cons; [eapply cs_to|eapply css_cons; [|constructor]].
    + apply (cs_up_to c86_lists (mkVersion 0 0 0) [(v1, s2l "a")] []). repeat (apply so_skip; [intros (W & _); apply W, Gt|]). constructor.
    + apply (cs_down_to c86_lists (mkVersion 0 0 0) [(v1, s2l "a")] [(v1, s2l "a")] []).
      * apply so_skip; [intros (_ & [X|[]]); discriminate|]. apply so_take; [split; [apply Gt|now left]|]. constructor.
      * apply so_skip; [intros X; apply X; now left|constructor].
    + apply (cs_up c86_lists [] c111_list). repeat (apply so_take; [split; [exact I|intros []]|]). constructor.
  - apply (opened_on [s2l "a"] [s2l "a"]); [|repeat constructor]. constructor; [|constructor]. apply utf8_text_ascii. repeat constructor; lia.
  - apply (or_create some_caps create_query 1050 (Some (s2l "42000")) (s2l "no") [mig_column "1" CLongLong 0]); [exact look_none|].
    exists 1, [c86_refusal], 2. splits.
    + constructor. apply (frame_frames 0 (3 :: create_query)). vm_compute. reflexivity.
    + apply ap_err. apply (err_state _ _ 1050 (s2l "42000") (s2l "42000") (s2l "no") (s2l "no")); [reflexivity|lia|intros (X & _); lia|reflexivity| |];
        apply utf8_text_ascii; repeat constructor; lia.
    + rewrite <- (app_nil_r (frame 1 c86_refusal)). econstructor; [apply frame_frames; vm_compute; reflexivity|constructor].
Qed.

(** C111 is false for a name with a backslash: the program ends without error, and the next time it is
    started it panics, since the name that was recorded is not listed. *)
Theorem C111_again_refuted : exists lists c q t' w i,
  increasing (map ml_version lists) /\ length (listed lists) = 1%nat /\
  (let '(r, c') := migrate true (fun _ => None) (fun _ => None) c86_texts (fun _ => false) lists [CallUp] c in
   r = Ok tt /\ s_out (c_stream c') = asked_for look ++ asked_for create_query ++ asked_for list_records ++
     asked_for (st_up c86_texts (v1, slashed)) ++ asked_for q) /\
  effect true list_eqb q [] t' /\ opened some_caps create_query t' w i /\
  fst (migrate false (fun _ => None) (fun _ => None) c86_texts (fun _ => false) lists [CallUp] (idle i)) = Panic.
Proof.
  exists [mkMigrations v1 [slashed]], (idle (frame_all 1 no_table ++ c111_ok ++ frame_all 1 (mig_records []) ++ c111_ok ++ c111_ok)),
    (insert_statement v1 slashed), [(v1, unslashed)], (asked_for look ++ asked_for list_records), (frame_all 1 is_table ++ frame_all 1 (mig_records [unslashed])).
  splits.
  - cbn. repeat constructor.
  - reflexivity.
  - vm_compute. split; reflexivity.
  - apply (ef_insert true list_eqb _ [] (v1, unslashed)); cbn [fst snd v1 v_0 v_1 v_2]; unfold u16; try lia; try constructor; [|cbn; lia].
    exists [49], [48], [48], [34; 97; 92; 110; 98; 34]. cbn [fst snd v1 v_0 v_1 v_2].
    splits; try reflexivity; try (split; [discriminate|split; [|reflexivity]; repeat constructor; unfold digit; lia]).
  - apply (opened_on [unslashed] [unslashed]); [|repeat constructor]. constructor; [|constructor]. apply utf8_text_ascii. repeat constructor; lia.
  - vm_compute. reflexivity.
Qed.
Print Assumptions C111_again_refuted.
