(** A migrator with the pool it takes its connections from: C113. *)
From Coq Require Import String ZArith List Bool Lia Permutation.
From Verif Require Import Base BaseFacts Types Utf8 Framing Framing_proofs Spec_Wire Packets Spec_Packets Packets_proofs Auth Auth_proofs
  Spec_Stmt Spec_Text Rows Rows_proofs ValueText_proofs StmtPackets Conn Spec_Conn Conn_proofs Conversion Spec_Conv Conversion_proofs
  Migrator Spec_Migrate Migrator_proofs SimpleMigration Spec_Simple Simple_proofs Properties_Migrate Spec_Program Program_proofs
  MigratorWire Spec_MigratorWire MigratorWire_proofs PrimaryAddress Spec_PrimaryAddress PrimaryAddress_proofs PoolMigrator Spec_PoolMigrator PoolMigrator_proofs
  Properties_Command Properties_ModelWire Properties_Simple Properties_MigratorWire Properties_PrimaryAddress.
Import ListNotations.
Open Scope Z_scope.

Lemma steps_in : forall lists ks t steps t', calls_steps lists ks t steps t' -> incl t (listed lists) ->
  (forall s, In s steps -> exists m, In m (listed lists) /\ (s = Apply m \/ s = Remove m)) /\ incl t' (listed lists).
Proof.
  intros lists ks t steps t' H.
  assert (K : forall k t steps t', call_steps lists k t steps t' -> incl t (listed lists) ->
    (forall s, In s steps -> exists m, In m (listed lists) /\ (s = Apply m \/ s = Remove m)) /\ incl t' (listed lists)).
  { clear. intros k t steps t' H. induction H as [t plan P|v t plan P|v t plan t' P Sl|v t s1 t1 s2 t2 H1 IH1 H2 IH2| |t earlier m later t' L Hm Hl Sl]; intros I.
    - split; [intros s Hs; apply in_map_iff in Hs as (m & <- & Hm); exists m|intros x Hx; apply in_app_iff in Hx as [Hx|Hx]; [now apply I|]];
        match goal with H : In _ plan |- _ => apply (sublist_in _ _ _ _ P) in H end; tauto.
    - split; [intros s Hs; apply in_map_iff in Hs as (m & <- & Hm); exists m|intros x Hx; apply in_app_iff in Hx as [Hx|Hx]; [now apply I|]];
        match goal with H : In _ plan |- _ => apply (sublist_in _ _ _ _ P) in H end; tauto.
    - split; [intros s Hs; apply in_map_iff in Hs as (m & <- & Hm); exists m; apply (sublist_in _ _ _ _ P) in Hm; split; [apply in_rev; tauto|auto]|].
      intros x Hx. apply I. apply (sublist_in _ _ _ _ Sl) in Hx. tauto.
    - destruct (IH1 I) as (A1 & I1). destruct (IH2 I1) as (A2 & I2). split; [|exact I2]. intros s Hs. apply in_app_iff in Hs as [Hs|Hs]; auto.
    - split; [intros s []|exact I].
    - split; [intros s [<-|[]]; exists m; auto|]. intros x Hx. apply I. apply (sublist_in _ _ _ _ Sl) in Hx. tauto. }
  induction H as [t|k ks t s1 t1 s2 t2 H1 H2 IH]; intros I; [split; [intros s []|exact I]|].
  destruct (K _ _ _ _ H1 I) as (A1 & I1). destruct (IH I1) as (A2 & I2). split; [|exact I2]. intros s Hs. apply in_app_iff in Hs as [Hs|Hs]; auto.
Qed.

Lemma pool_run : forall N dial debug f32 f64 bs coll lists ms effect ks t steps t' p c p1 w i rest,
  (forall n, coll n n = true) -> storable coll (listed lists) -> Forall (fun m => exists b, utf8_text (snd m) b) (listed lists) ->
  increasing (map ml_version lists) -> NoDup t -> incl t (listed lists) -> calls_steps lists ks t steps t' ->
  taken N dial p (Ok c) p1 -> Z.testbit (c_caps c) DEPRECATE_EOF_BIT = true -> opened (c_caps c) create_query t w i -> between c (i ++ rest) ->
  recorded bs coll steps (map record_text steps) t t' /\
  exists c1 r p', migrate_on N dial debug f32 f64 ms effect lists ks p = (r, p') /\
    between c1 rest /\ c_data c1 = c_data c /\ s_out (c_stream c1) = s_out (c_stream c) ++ w /\
    ran N dial (own_of ms) (combine steps (map record_text steps)) (returned c1 p1) r p'.
Proof.
  intros N dial debug f32 f64 bs coll lists ms ef ks t steps t' p c p1 w i rest R S Tx Inc Nd I K Tk Hd Op B.
  destruct (does_calls bs coll lists (mkTexts (fun _ => []) (fun _ => [])) ef c R S ks t steps t' K Nd I) as (P & _).
  destruct (open_done debug f32 f64 lists t w i c rest Inc Nd Hd Op B) as (r1 & c1 & E1 & B1 & D1 & O1 & F1).
  destruct F1 as [(_ & a & -> & Rep)|(F & _)]; [|contradiction].
  destruct (run_calls (world_oracle N dial ms ef (returned c1 p1, None)) lists ks (a, [])) as [r2 (a2, h2)] eqn:E2.
  destruct (goes_calls coll lists (world_oracle N dial ms ef (returned c1 p1, None)) R S ks t steps t' K Nd I a [] r2 a2 h2 (conj Nd (conj I Rep)) E2)
    as (tr & Et & Co & Se & _). cbn [app] in Et. subst h2.
  assert (Hs : Forall (fun s => str_ok (record_text s)) steps).
  { apply Forall_forall. intros s Hs. destruct (steps_in _ _ _ _ _ K I) as (Hi & _). destruct (Hi s Hs) as (m & Hm & Hsm).
    apply (record_ok s m Hsm).
    - apply (proj2 (storable_ok coll _ S m Hm)).
    - rewrite Forall_forall in Tx. destruct (Tx m Hm) as (b & Hb). now apply utf8_text_iff in Hb. }
  split; [eapply recorded_of; [exact P|reflexivity]|].
  exists c1, (ended N dial ms tr (returned c1 p1, None)), (fst (world_after N dial ms tr (returned c1 p1, None))).
  splits; auto.
  - unfold migrate_on. assert (ordered lists = true) as -> by (now apply ordered_iff). rewrite andb_false_r. unfold with_conn. rewrite iob, iob.
    rewrite (taken_get _ _ _ _ _ Tk), E1. change (pool_put c1 p1) with (returned c1 p1). rewrite E2. reflexivity.
  - exact (trace_ran N dial ms ef (returned c1 p1, None) steps tr r2 Se Hs [] (returned c1 p1) Co eq_refl).
Qed.

(** Any migrations on a pool: the migrator is opened on the connection the pool gives and returns it;
    then for each required step the migration is run with the pool, and the statement that changes its
    record is executed on a connection of the pool, until something fails. *)
Theorem C113_run : exists create, is_create create /\
  forall N dial debug f32 f64 bs coll lists ms effect ks t steps t' p c p1 w i rest,
  (forall n, coll n n = true) -> storable coll (listed lists) -> Forall (fun m => exists b, utf8_text (snd m) b) (listed lists) ->
  increasing (map ml_version lists) -> NoDup t -> incl t (listed lists) -> calls_steps lists ks t steps t' ->
  taken N dial p (Ok c) p1 -> Z.testbit (c_caps c) DEPRECATE_EOF_BIT = true -> opened (c_caps c) create t w i -> between c (i ++ rest) ->
  exists qs c1 r p', recorded bs coll steps qs t t' /\ migrate_on N dial debug f32 f64 ms effect lists ks p = (r, p') /\
    between c1 rest /\ c_data c1 = c_data c /\ s_out (c_stream c1) = s_out (c_stream c) ++ w /\
    ran N dial (fun s p r p' => match s with Apply m => mg_up ms m p = (r, p') | Remove m => mg_down ms m p = (r, p') end)
      (combine steps qs) (returned c1 p1) r p'.
Proof.
  exists create_query. split; [vm_compute; reflexivity|].
  intros N dial debug f32 f64 bs coll lists ms ef ks t steps t' p c p1 w i rest R S Tx Inc Nd I K Tk Hd Op B.
  destruct (pool_run N dial debug f32 f64 bs coll lists ms ef ks t steps t' p c p1 w i rest R S Tx Inc Nd I K Tk Hd Op B)
    as (Rc & c1 & r & p' & E & B1 & D1 & O1 & Rn).
  exists (map record_text steps), c1, r, p'. splits; auto.
Qed.
Print Assumptions C113_run.

(** There is exactly one way for it to go. *)
Theorem C113_one_run : forall N dial ms l p r1 p1 r2 p2,
  let own := fun s p r p' => match s with Apply m => mg_up ms m p = (r, p') | Remove m => mg_down ms m p = (r, p') end in
  ran N dial own l p r1 p1 -> ran N dial own l p r2 p2 -> r1 = r2 /\ p1 = p2.
Proof. intros N dial ms l p r1 p1 r2 p2 own A B. eapply ran_fun; [|exact A|exact B]. apply (own_fun ms). Qed.
Print Assumptions C113_one_run.

(** Every connection is returned, however a run ends: the migrations of the example return what they
    take, and a run of migrations that do so does so. *)
Theorem C113_returned : forall N dial,
  (forall debug f32 f64 m p r p', let ms := example_migrations N dial debug f32 f64 in
     mg_up ms m p = (r, p') \/ mg_down ms m p = (r, p') -> in_use dial p' = in_use dial p) /\
  (forall debug f32 f64 lists p r p', with_conn N dial (migrator_open debug f32 f64 lists) p = (r, p') -> in_use dial p' = in_use dial p) /\
  (forall ms, (forall m p r p', mg_up ms m p = (r, p') \/ mg_down ms m p = (r, p') -> in_use dial p' = in_use dial p) ->
   forall l p r p', ran N dial (fun s p r p' => match s with Apply m => mg_up ms m p = (r, p') | Remove m => mg_down ms m p = (r, p') end) l p r p' ->
     in_use dial p' = in_use dial p).
Proof.
  intros N dial. splits.
  - intros debug f32 f64 m p r p' ms H. destruct (in_use_example N dial debug f32 f64 m p) as (A & B).
    destruct H as [H|H]; unfold ms in H; [rewrite H in A; exact A | rewrite H in B; exact B].
  - intros debug f32 f64 lists p r p' H. pose proof (in_use_with _ N dial (migrator_open debug f32 f64 lists) p) as A. rewrite H in A. exact A.
  - intros ms H. apply in_use_ran. intros [m|m] p r p' E; eapply H; eauto.
Qed.
Print Assumptions C113_returned.

(** A connection that is refused: it is back in the pool, and the failed third one is not in use. *)
Example C113_returned_case : forall e,
  in_use (fun k => match k with 2%nat => Err e | _ => Ok (idle []) end) (mkPool [idle []; idle []] 3) = 0.
Proof. reflexivity. Qed.

(** The opening fails: nothing else is done.  A refused opening returns its connection. *)
Theorem C113_not_opened : exists create, is_create create /\
  forall N dial debug f32 f64 lists ms effect ks p, increasing (map ml_version lists) ->
  (forall e p1, taken N dial p (Err e) p1 -> migrate_on N dial debug f32 f64 ms effect lists ks p = (Err e, p1)) /\
  (forall c p1 code state msg w i rest, taken N dial p (Ok c) p1 -> Z.testbit (c_caps c) DEPRECATE_EOF_BIT = true ->
     opening_refused (c_caps c) create code state msg w i -> between c (i ++ rest) ->
     exists c1, migrate_on N dial debug f32 f64 ms effect lists ks p = (Err (EServer (ErrError code state msg)), returned c1 p1) /\
       between c1 rest /\ s_out (c_stream c1) = s_out (c_stream c) ++ w).
Proof.
  exists create_query. split; [vm_compute; reflexivity|].
  intros N dial debug f32 f64 lists ms ef ks p Inc. unfold migrate_on. assert (ordered lists = true) as -> by (now apply ordered_iff).
  rewrite andb_false_r. unfold with_conn. split.
  - intros e p1 Tk. rewrite iob, iob, (taken_get _ _ _ _ _ Tk). reflexivity.
  - intros c p1 code state msg w i rest Tk Hd Op B. destruct (open_stops debug f32 f64 lists code state msg w i c rest Inc Hd Op B) as (c1 & E1 & B1 & O1).
    exists c1. rewrite iob, iob, (taken_get _ _ _ _ _ Tk), E1. auto.
Qed.
Print Assumptions C113_not_opened.

(** ** The program of examples/migrations *)
Definition example_texts : simple_texts := mkTexts (fun m => example_own (Apply m)) (fun m => example_own (Remove m)).

Lemma example_steps : forall t gone, incl t example_records -> sublist_of (fun m => In m t) (rev example_records) gone ->
  calls_steps example_lists [CallTo (mkVersion 0 0 0); CallUp] t (map Remove gone ++ map Apply example_records) example_records.
Proof.
  intros t gone I G.
  assert (P0 : up_plan example_lists (Some (mkVersion 0 0 0)) t []).
  { unfold up_plan. change (listed example_lists) with example_records. repeat constructor; intros (X & _); revert X; clear; unfold within; cbn; unfold vlt; cbn; lia. }
  assert (P1 : down_plan example_lists (mkVersion 0 0 0) (t ++ []) gone).
  { unfold down_plan. change (listed example_lists) with example_records. rewrite app_nil_r. eapply sublist_ext; [|exact G].
    intros x Hx. cbv beta. apply in_rev in Hx. split; [intros H|tauto]. split; [|exact H].
    destruct Hx as [<-|[<-|[<-|[]]]]; cbn; unfold vlt; cbn; lia. }
  assert (P2 : sublist_of (fun m => ~ In m gone) (t ++ []) []).
  { rewrite app_nil_r. assert (A : forall x, In x t -> In x gone).
    { intros x Hx. apply (sublist_in _ _ _ _ G). split; [|exact Hx]. apply -> in_rev. apply I, Hx. }
    clear - A. induction t as [|x t IH]; [constructor|]. apply so_skip; [intros X; apply X, A; now left|]. apply IH. intros y Hy. apply A. now right. }
  assert (P3 : up_plan example_lists None [] example_records).
  { unfold up_plan. change (listed example_lists) with example_records. repeat constructor; cbn; auto. }
  rewrite <- (app_nil_l (map Remove gone)). change (@nil step) with (map Apply []) at 1.
  rewrite <- (app_nil_r (map Apply example_records)).
  change example_records with ([] ++ example_records) at 2.
  eapply css_cons; [eapply cs_to; [apply cs_up_to; exact P0|eapply cs_down_to; [exact P1|exact P2]]|].
  eapply css_cons; [apply cs_up; exact P3|constructor].
Qed.

Lemma performed_split : forall bs coll own s1 s2 q t t', performed bs coll own (s1 ++ s2) q t t' ->
  exists q1 q2 t1, q = q1 ++ q2 /\ performed bs coll own s1 q1 t t1 /\ performed bs coll own s2 q2 t1 t'.
Proof.
  intros bs coll own s1. induction s1 as [|s s1 IH]; intros s2 q t t' H; cbn [app] in H.
  - exists [], q, t. splits; auto. constructor.
  - inversion H as [|m ? q0 qs ? ta ? Hs He Hp|m ? q0 qs ? ta ? Hs He Hp]; subst;
      destruct (IH _ _ _ _ Hp) as (q1 & q2 & t1 & -> & A & B); (eexists (_ :: _ :: q1), q2, t1; splits; [reflexivity| |exact B]).
    + eapply pf_apply; eauto.
    + eapply pf_remove; eauto.
Qed.
Lemma primary_on : forall N dial debug f32 f64 c1 c2 c3 r c1' c2' c3' x c, (3 <= N)%nat -> dial 1%nat = Ok c2 -> dial 2%nat = Ok c3 ->
  execute_query (utf8_encode add_query) c1 = (Ok x, c) ->
  primary_address_up debug f32 f64 (Ok tt) (c1, c2, c3) = (r, (c1', c2', c3')) ->
  primary_address_on N dial debug f32 f64 (mkPool [c1] 1) = (r, mkPool [c3'; c2'; c1'] 3).
Proof.
  intros N dial debug f32 f64 c1 c2 c3 r c1' c2' c3' x c L D1 D2 Ea E. unfold primary_address_up in E. unfold primary_address_on.
  unfold pool_get at 1. cbn [pl_idle pl_made]. rewrite Ea in *. unfold pool_get at 1. cbn [pl_idle pl_made].
  destruct (Nat.ltb_spec 1 N); [|lia]. rewrite D1. unfold pool_get at 1. cbn [pl_idle pl_made].
  destruct (Nat.ltb_spec 2 N); [|lia]. rewrite D2, E. reflexivity.
Qed.

Lemma executed_split : forall caps q1 q2 w i, executed caps (q1 ++ q2) w i ->
  exists wa ia wb ib, w = wa ++ wb /\ i = ia ++ ib /\ executed caps q1 wa ia /\ executed caps q2 wb ib.
Proof.
  intros caps q1. induction q1 as [|q q1 IH]; intros q2 w i H; cbn [app] in H.
  - exists [], [], w, i. splits; auto. constructor.
  - inversion H as [|? b ? rows id status warnings msg st w1 i1 w2 i2 U X K]; subst. destruct (IH _ _ _ K) as (wa & ia & wb & ib & -> & -> & A & B).
    exists (w1 ++ wa), (i1 ++ ia), wb, ib. rewrite <- !app_assoc. splits; auto. econstructor; eauto.
Qed.

Lemma steps_split : forall gone, map Remove gone ++ map Apply example_records =
  (map Remove gone ++ [Apply user_made; Apply address_made]) ++ [Apply primary_added].
Proof. intros gone. rewrite <- app_assoc. reflexivity. Qed.

(** All but the last step. *)
Lemma example_prefix : forall bs coll t gone, (forall n, coll n n = true) -> storable coll example_records ->
  NoDup t -> incl t example_records -> sublist_of (fun m => In m t) (rev example_records) gone ->
  performed bs coll (own_text example_texts) (map Remove gone ++ [Apply user_made; Apply address_made])
    (step_texts example_texts (map Remove gone ++ [Apply user_made; Apply address_made])) t [user_made; address_made] /\
  says_insert bs (record_text (Apply primary_added)) primary_added /\
  Spec_Migrate.effect bs coll (record_text (Apply primary_added)) [user_made; address_made] example_records.
Proof.
  intros bs coll t gone R S Nd I G. pose proof (example_steps t gone I G) as K.
  destruct (does_calls bs coll example_lists example_texts (fun _ => false) (idle []) R S _ t _ _ K Nd I) as (P & _).
  rewrite steps_split, texts_app in P. apply performed_split in P as (q1 & q2 & t1 & Q & P1 & P2).
  inversion P2 as [|m ? q3 qs ? ta ? Hs He Hp|]; subst. inversion Hp; subst.
  change (step_texts example_texts [Apply primary_added]) with
    [own_text example_texts (Apply primary_added); record_text (Apply primary_added)] in Q.
  assert (Q1 : q1 = step_texts example_texts (map Remove gone ++ [Apply user_made; Apply address_made]) /\ q3 = record_text (Apply primary_added)).
  { change (?a ++ [?x; ?y]) with (a ++ [x] ++ [y]) in Q. rewrite !app_assoc in Q. apply app_inj_tail in Q as (Q & <-). apply app_inj_tail in Q as (Q & _). auto. }
  destruct Q1 as (-> & ->).
  assert (T1 : t1 = [user_made; address_made]).
  { apply (effect_insert_iff bs coll (mkVersion 0 1 1) (s2l "UserAddPrimaryAddress") t1 example_records) in He as (E & _).
    - change example_records with ([user_made; address_made] ++ [primary_added]) in E. apply app_inj_tail in E. now destruct E.
    - apply (storable_ok coll _ S primary_added). cbn. auto. }
  subst t1. auto.
Qed.

Lemma example_begun : forall N dial debug f32 f64 ef (bs : bool) coll t gone c1 w0 i0 w i rest, (1 <= N)%nat -> dial 0%nat = Ok c1 ->
  (forall n, coll n n = true) -> storable coll example_records ->
  NoDup t -> incl t example_records -> sublist_of (fun m => In m t) (rev example_records) gone -> Z.testbit (c_caps c1) DEPRECATE_EOF_BIT = true ->
  opened (c_caps c1) create_query t w0 i0 ->
  executed (c_caps c1) (step_texts example_texts (map Remove gone ++ [Apply user_made; Apply address_made])) w i ->
  between c1 (i0 ++ i ++ rest) ->
  exists e1, c_caps e1 = c_caps c1 /\ between e1 rest /\ s_out (c_stream e1) = s_out (c_stream c1) ++ w0 ++ w /\
    forall r p', ran N dial (own_of (example_migrations N dial debug f32 f64)) (combine [Apply primary_added] (map record_text [Apply primary_added]))
      (mkPool [e1] 1) r p' -> example_main N dial debug f32 f64 ef = (r, p').
Proof.
  intros N dial debug f32 f64 ef bs coll t gone c1 w0 i0 w i rest L Di1 R S Nd I G D1 Op Ex B1.
  pose proof (example_steps t gone I G) as K.
  set (ms := example_migrations N dial debug f32 f64).
  assert (Tx : Forall (fun m : migration_record => exists b, utf8_text (snd m) b) (listed example_lists)).
  { repeat constructor; (eexists; apply utf8_text_iff; split; [|reflexivity]; apply ascii_text; vm_compute; reflexivity). }
  destruct (pool_run N dial debug f32 f64 bs coll example_lists ms ef _ t _ _ pool_new c1 (mkPool [] 1) w0 i0 (i ++ rest) R S Tx
    (proj1 (ordered_iff example_lists) eq_refl) Nd I K ltac:(rewrite <- Di1; constructor; lia) D1 Op B1) as (_ & d1 & r & p' & E & Bd & Dd & Od & Rn).
  assert (Cd : c_caps d1 = c_caps c1) by (unfold c_caps; now rewrite Dd).
  destruct (simple_steps N dial debug f32 f64 (c_caps c1) 1 (map Remove gone ++ [Apply user_made; Apply address_made]) D1) with (w := w) (i := i) (c := d1) (rest := rest)
    as (e1 & R1 & Be & De & Oe); [|exact Cd|exact Ex|exact Bd|].
  { apply Forall_app. split; [|repeat constructor; try discriminate; eexists; (split; [|left; reflexivity]); cbn; auto].
    apply Forall_forall. intros s Hin. apply in_map_iff in Hin as (m & <- & Hm). split; [discriminate|]. exists m. split; [|auto].
    apply (sublist_in _ _ _ _ G) in Hm. apply in_rev. tauto. }
  assert (Ce : c_caps e1 = c_caps c1) by (unfold c_caps; now rewrite De, Dd).
  exists e1. splits; [exact Ce|exact Be|rewrite Oe, Od, <- !app_assoc; reflexivity|].
  intros r2 p2 R2. pose proof (ran_app _ _ _ _ _ _ R1 _ _ _ R2) as R12.
  assert (Cm : forall (a b : list step), combine a (map record_text a) ++ combine b (map record_text b) = combine (a ++ b) (map record_text (a ++ b))).
  { intros a b. induction a as [|x0 a IH]; cbn [app map combine]; [reflexivity|]. now rewrite IH. }
  rewrite Cm, <- steps_split in R12.
  destruct (ran_fun N dial (own_of ms) (own_fun ms) _ _ _ _ Rn _ _ R12) as (-> & ->). exact E.
Qed.

(** Whatever the table holds at the start: its migrations are undone, the later first, then all three
    are applied.  The first connection does everything up to the list of the users; the second and the
    third are made for the last migration, and its record is written on the third, which was returned
    first.  All three are in the pool at the end and can be used again. *)
Theorem C113_example : exists (packets : use -> list (list Z)) create add own,
  (forall u, use_ok u -> request u (packets u)) /\ is_create create /\ says_add add /\ example_says own /\
  forall bs coll t gone, (forall n, coll n n = true) -> storable coll example_records ->
  NoDup t -> incl t example_records -> sublist_of (fun m => In m t) (rev example_records) gone ->
  exists qs q3, performed bs coll own (map Remove gone ++ [Apply user_made; Apply address_made]) qs t [user_made; address_made] /\
  says_insert bs q3 primary_added /\ Spec_Migrate.effect bs coll q3 [user_made; address_made] example_records /\
  forall N dial debug f32 f64 effect c1 c2 c3,
  (3 <= N)%nat -> dial 0%nat = Ok c1 -> dial 1%nat = Ok c2 -> dial 2%nat = Ok c3 ->
  Z.testbit (c_caps c1) DEPRECATE_EOF_BIT = true -> Z.testbit (c_caps c2) DEPRECATE_EOF_BIT = true ->
  Z.testbit (c_caps c3) DEPRECATE_EOF_BIT = true ->
  forall w0 i0 w i us all id2 id3 w1 i1 w2 i2 w3 i3 v2 j2 v3 j3 w4 i4 rest1 rest2 rest3,
  opened (c_caps c1) create t w0 i0 -> executed (c_caps c1) qs w i -> listed_users (c_caps c1) add us w1 i1 ->
  statement_made packets (c_caps c2) two_addresses id2 1 w2 i2 -> statement_made packets (c_caps c3) set_address id3 2 w3 i3 ->
  gone_through packets (c_caps c2) (c_caps c3) id2 id3 all us v2 j2 v3 j3 -> executed (c_caps c3) [q3] w4 i4 ->
  between c1 (i0 ++ i ++ i1 ++ rest1) -> between c2 (i2 ++ j2 ++ rest2) -> between c3 (i3 ++ j3 ++ i4 ++ rest3) ->
  exists c1' c2' c3', example_main N dial debug f32 f64 effect = (Ok tt, mkPool [c2'; c1'; c3'] 3) /\
    between c1' rest1 /\ between c2' rest2 /\ between c3' rest3 /\
    s_out (c_stream c1') = s_out (c_stream c1) ++ w0 ++ w ++ w1 /\ s_out (c_stream c2') = s_out (c_stream c2) ++ w2 ++ v2 /\
    s_out (c_stream c3') = s_out (c_stream c3) ++ w3 ++ v3 ++ w4.
Proof.
  exists use_packets, create_query, add_query, (own_text example_texts).
  split; [intros u H; now apply use_packets_request|]. split; [vm_compute; reflexivity|]. split; [vm_compute; reflexivity|].
  split; [vm_compute; repeat split; reflexivity|].
  intros bs coll t gone R S Nd I G.
  destruct (example_prefix bs coll t gone R S Nd I G) as (P1 & Hs & He). eexists _, _. split; [exact P1|]. split; [exact Hs|]. split; [exact He|].
  intros N dial debug f32 f64 ef c1 c2 c3 L Di1 Di2 Di3 D1 D2 D3.
  intros w0 i0 w i us all id2 id3 w1 i1 w2 i2 w3 i3 v2 j2 v3 j3 w4 i4 rest1 rest2 rest3 Op Ex HL H2 H3 HG E4 B1 B2 B3.
  destruct (example_begun N dial debug f32 f64 ef bs coll t gone c1 w0 i0 w i (i1 ++ rest1) ltac:(lia) Di1 R S Nd I G D1 Op Ex B1) as (e1 & Ce & Be & Oe & Go).
  rewrite <- Ce in HL, D1.
  destruct (primary_done debug f32 f64 e1 c2 c3 us all id2 id3 w1 i1 w2 i2 w3 i3 v2 j2 v3 j3 rest1 rest2 (i4 ++ rest3) D1 D2 D3 HL H2 H3 HG Be B2 B3)
    as (f1 & f2 & f3 & Ep & (x & ca & Ea) & Cf & Bf1 & Bf2 & Bf3 & Of1 & Of2 & Of3).
  pose proof (primary_on N dial debug f32 f64 e1 c2 c3 _ _ _ _ x ca L Di2 Di3 Ea Ep) as Po.
  rewrite <- Cf in E4, D3.
  destruct (executed_one _ _ _ _ _ f3 rest3 D3 eq_refl E4 Bf3) as (wa & ia & wb & ib & y & g3 & -> & -> & Eb & Xg & Ug & Bg & Dg & Og).
  inversion Eb; subst.
  assert (R2 : ran N dial (own_of (example_migrations N dial debug f32 f64)) (combine [Apply primary_added] (map record_text [Apply primary_added])) (mkPool [e1] 1) (Ok tt) (mkPool [f2; f1; g3] 3)).
  { cbn [map combine]. eapply rn_next; [exact Po|constructor|exact Ug|exact Xg|constructor]. }
  apply Go in R2. exists f1, f2, g3. splits; auto.
  - rewrite Of1, Oe, <- !app_assoc. reflexivity.
  - rewrite Og, Of3, !app_nil_r, <- !app_assoc. reflexivity.
Qed.
Print Assumptions C113_example.

(** Fewer than three connections: the column is added, but then the migration waits forever for a
    connection, or ends with the error of the connection that cannot be made.  Its record is not
    written, so the next run would add the column again. *)
Theorem C113_too_few : exists create add own, is_create create /\ says_add add /\ example_says own /\
  forall bs coll t gone, (forall n, coll n n = true) -> storable coll example_records ->
  NoDup t -> incl t example_records -> sublist_of (fun m => In m t) (rev example_records) gone ->
  exists qs, performed bs coll own (map Remove gone ++ [Apply user_made; Apply address_made]) qs t [user_made; address_made] /\
  forall N dial debug f32 f64 effect c1, (1 <= N)%nat -> dial 0%nat = Ok c1 -> Z.testbit (c_caps c1) DEPRECATE_EOF_BIT = true ->
  forall w0 i0 w i rest1, opened (c_caps c1) create t w0 i0 -> executed (c_caps c1) (qs ++ [add]) w i -> between c1 (i0 ++ i ++ rest1) ->
  exists c1', between c1' rest1 /\ s_out (c_stream c1') = s_out (c_stream c1) ++ w0 ++ w /\
    (N = 1%nat -> example_main N dial debug f32 f64 effect = (Panic, mkPool [c1'] 1)) /\
    (forall e, (2 <= N)%nat -> dial 1%nat = Err e -> example_main N dial debug f32 f64 effect = (Err e, mkPool [c1'] 2)) /\
    (forall c2, N = 2%nat -> dial 1%nat = Ok c2 -> example_main N dial debug f32 f64 effect = (Panic, mkPool [c2; c1'] 2)) /\
    (forall c2 e, (3 <= N)%nat -> dial 1%nat = Ok c2 -> dial 2%nat = Err e ->
       example_main N dial debug f32 f64 effect = (Err e, mkPool [c2; c1'] 3)).
Proof.
  exists create_query, add_query, (own_text example_texts). split; [vm_compute; reflexivity|]. split; [vm_compute; reflexivity|].
  split; [vm_compute; repeat split; reflexivity|].
  intros bs coll t gone R S Nd I G.
  destruct (example_prefix bs coll t gone R S Nd I G) as (P1 & _). eexists. split; [exact P1|].
  intros N dial debug f32 f64 ef c1 L Di1 D1 w0 i0 w i rest1 Op Ex B1.
  apply executed_split in Ex as (wa & ia & wb & ib & -> & -> & Ex & Ea). rewrite <- app_assoc in B1.
  destruct (example_begun N dial debug f32 f64 ef bs coll t gone c1 w0 i0 wa ia (ib ++ rest1) L Di1 R S Nd I G D1 Op Ex B1) as (e1 & Ce & Be & Oe & Go).
  rewrite <- Ce in D1, Ea. destruct (executed_one _ _ _ _ _ e1 rest1 D1 eq_refl Ea Be) as (w1 & i1 & w2 & i2 & y & g & -> & -> & Eb & Xg & Ug & Bg & Dg & Og).
  inversion Eb; subst. exists g. split; [exact Bg|]. split; [rewrite Og, Oe, app_nil_r, <- !app_assoc; reflexivity|].
  unfold execute_text in Xg.
  assert (K : forall r p', r <> Ok tt -> primary_address_on N dial debug f32 f64 (mkPool [e1] 1) = (r, p') -> example_main N dial debug f32 f64 ef = (r, p')).
  { intros r p' Hr E. apply Go. cbn [map combine]. apply rn_own; [exact E|exact Hr]. }
  splits; intros; apply K; try discriminate; unfold primary_address_on; unfold pool_get at 1; cbn [pl_idle pl_made]; rewrite Xg;
    unfold pool_get at 1; cbn [pl_idle pl_made].
  - destruct (Nat.ltb_spec 1 N); [lia|]. reflexivity.
  - destruct (Nat.ltb_spec 1 N); [|lia]. rewrite H0. reflexivity.
  - destruct (Nat.ltb_spec 1 N); [|lia]. rewrite H0. unfold pool_get. cbn [pl_idle pl_made]. destruct (Nat.ltb_spec 2 N); [lia|]. reflexivity.
  - destruct (Nat.ltb_spec 1 N); [|lia]. rewrite H0. unfold pool_get. cbn [pl_idle pl_made]. destruct (Nat.ltb_spec 2 N); [|lia]. rewrite H1. reflexivity.
Qed.
Print Assumptions C113_too_few.

(** Ten connections as in main.rs:10, with two migrations recorded from an earlier run; then only two,
    on an empty database. *)
Definition c113_row (m : migration_record) : bytes :=
  [1; 48 + v_0 (fst m); 1; 48 + v_1 (fst m); 1; 48 + v_2 (fst m)] ++ wire_lenenc_str (snd m).
Definition c113_records (t : list migration_record) : list bytes := [4] :: mig_definitions ++ map c113_row t ++ [last_packet].
Definition c113_oks (n : nat) : bytes := concat (repeat c111_ok n).
Definition c113_in1 (t : list migration_record) (n : nat) : bytes := frame_all 1 is_table ++ frame_all 1 (c113_records t) ++ c113_oks n ++ c112_in1.
Definition c113_dial (in1 : bytes) (k : nat) : res error conn :=
  match k with 0%nat => Ok (idle in1) | 1%nat => Ok (idle c112_in2) | 2%nat => Ok (idle (c112_in3 ++ c111_ok)) | _ => Panic end.
Definition c113_run (N : nat) (in1 : bytes) : res error unit * list (bytes * bytes) * nat :=
  let '(r, p) := example_main N (c113_dial in1) true (fun _ => None) (fun _ => None) (fun _ => false) in
  (r, map (fun c => (s_out (c_stream c), s_in (c_stream c))) (pl_idle p), pl_made p).
Definition c113_new (m : migration_record) : bytes := asked_for (example_own (Apply m)) ++ asked_for (record_text (Apply m)).
Definition c113_old (m : migration_record) : bytes := asked_for (example_own (Remove m)) ++ asked_for (record_text (Remove m)).

Example C113_case :
  c113_run 10 (c113_in1 [address_made; user_made] 8) =
    (Ok tt,
     [(frame 0 (22 :: two_addresses) ++ sent_by (UStmtQuery 5 1 [VUInt 1] 0) ++ sent_by (UStmtQuery 5 1 [VUInt 2] 0) ++
         sent_by (UStmtQuery 5 1 [VUInt 3] 0) ++ sent_by (UStmtQuery 5 1 [VUInt 4] 0), []);
      (asked_for look ++ asked_for list_records ++ c113_old address_made ++ c113_old user_made ++ c113_new user_made ++ c113_new address_made ++
         asked_for add_query ++ asked_for list_users, []);
      (frame 0 (22 :: set_address) ++ sent_by (UStmtExecute 9 2 [VUInt 11; VUInt 1]) ++ sent_by (UStmtExecute 9 2 [VUInt 41; VUInt 4]) ++
         asked_for (s2l "insert into `migrations` (`version_0`, `version_1`, `version_2`, `name`) values (0, 1, 1, ""UserAddPrimaryAddress"")"), [])], 3%nat) /\
  c113_run 2 (c113_in1 [] 4) =
    (Panic,
     [([], c112_in2);
      (asked_for look ++ asked_for list_records ++ c113_new user_made ++ c113_new address_made ++ asked_for add_query,
       frame_all 1 (c112_set [[1; 49]; [1; 50]; [1; 51]; [1; 52]]))], 2%nat).
Proof. vm_compute. split; reflexivity. Qed.

(** The hypotheses are met, with an empty table; those on the migration itself are met in
    C112_hypotheses_case. *)
Example C113_hypotheses_case :
  storable list_eqb example_records /\ NoDup (@nil migration_record) /\ incl [] example_records /\
  sublist_of (fun m => In m []) (rev example_records) [] /\
  taken 10 (c113_dial (c113_in1 [] 4)) pool_new (Ok (idle (c113_in1 [] 4))) (mkPool [] 1) /\
  Z.testbit (c_caps (idle (c113_in1 [] 4))) DEPRECATE_EOF_BIT = true /\
  opened (c_caps (idle (c113_in1 [] 4))) create_query [] (asked_for look ++ asked_for list_records) (frame_all 1 is_table ++ frame_all 1 (c113_records [])) /\
  executed (c_caps (idle (c113_in1 [] 4))) (step_texts example_texts [Apply user_made; Apply address_made]) (c113_new user_made ++ c113_new address_made) (c113_oks 4) /\
  executed (c_caps (idle c112_in3)) [record_text (Apply primary_added)] (asked_for (record_text (Apply primary_added))) c111_ok /\
  between (idle (c113_in1 [] 4)) (c113_in1 [] 4 ++ []) /\ increasing (map ml_version example_lists) /\
  Forall (fun m => exists b, utf8_text (snd m) b) (listed example_lists).
Proof.
  assert (X : forall q qs w i, str_ok q -> utf8_encode q = q -> Z.of_nat (length q) < 1000 -> executed some_caps qs w i ->
    executed some_caps (q :: qs) (asked_for q ++ w) (c111_ok ++ i)).
  { intros q qs w i S E L H. destruct c112_ok as (q' & A & F). econstructor; [apply utf8_text_iff; split; [exact S|exact E]| |exact H].
    exists 1, [ok_packet_bytes], q'. splits; [|exact A|exact F]. constructor. apply (frame_frames 0 (3 :: q)). cbn [length]. lia. }
  splits.
  - split.
    + given_names.
    + repeat (constructor; [repeat constructor; intros (A & B); cbn [fst snd] in *; discriminate|]). constructor.
  - constructor.
  - intros x [].
  - repeat constructor; intros [].
  - apply tk_new. lia.
  - reflexivity.
  - exact (opened_on [] [] (Forall2_nil _) (Forall_nil _)).
  - replace (c113_oks 4) with (c111_ok ++ c111_ok ++ c111_ok ++ c111_ok ++ []) by reflexivity.
    replace (c113_new user_made ++ c113_new address_made) with
      (asked_for (example_own (Apply user_made)) ++ asked_for (record_text (Apply user_made)) ++
       asked_for (example_own (Apply address_made)) ++ asked_for (record_text (Apply address_made)) ++ []) by (unfold c113_new; now rewrite <- !app_assoc, app_nil_r).
    repeat (apply X; [apply ascii_text; vm_compute; reflexivity|apply utf8_ascii; vm_compute; reflexivity|vm_compute; reflexivity|]). constructor.
  - rewrite <- (app_nil_r (asked_for _)), <- (app_nil_r c111_ok).
    apply X; [apply ascii_text; vm_compute; reflexivity|apply utf8_ascii; vm_compute; reflexivity|vm_compute; reflexivity|constructor].
  - split; [cbn; unfold byte_ok; lia|]. split; [reflexivity|]. left. split; [reflexivity|]. now rewrite app_nil_r.
  - apply ordered_iff. reflexivity.
  - repeat constructor; (eexists; apply utf8_text_iff; split; [|reflexivity]; apply ascii_text; vm_compute; reflexivity).
Qed.
