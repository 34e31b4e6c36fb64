(** Properties C58-C62, C68, C69: the migrator. *)
From Coq Require Import String ZArith List Bool Lia Permutation.
From Verif Require Import Base BaseFacts Types Framing ValueText Conversion Spec_Wire Spec_Stmt Spec_Text Spec_Conv
  Escape_proofs Packets_proofs Migrator Spec_Migrate Migrator_proofs.
Import ListNotations.
Open Scope Z_scope.

(** C58: comparison of versions is the lexicographic order of the components, a strict total
    order, and agrees with equality. *)
Theorem C58_compare : forall a b,
  (version_cmp a b = Lt <-> vlt a b) /\ (version_cmp a b = Eq <-> a = b) /\ (version_cmp a b = Gt <-> vlt b a) /\
  (version_eqb a b = true <-> a = b) /\ (version_gtb a b = true <-> vlt b a) /\ (version_geb a b = true <-> ~ vlt a b).
Proof.
  intros a b. pose proof (version_cmp_spec a b) as H.
  assert (X : forall a b, vlt a b -> a <> b) by (intros x y K ->; apply (vlt_irrefl y K)).
  assert (Y : forall a b, vlt a b -> ~ vlt b a) by (intros x y K L; apply (vlt_irrefl x); eapply vlt_trans; eassumption).
  splits; try apply version_eqb_iff; try apply version_gtb_iff.
  - destruct (version_cmp a b); split; intros K; try discriminate; auto; exfalso.
    + subst. apply (vlt_irrefl _ K).
    + apply (Y _ _ K H).
  - destruct (version_cmp a b); split; intros K; try discriminate; auto; exfalso; subst; apply (vlt_irrefl _ H).
  - destruct (version_cmp a b); split; intros K; try discriminate; auto; exfalso.
    + subst. apply (vlt_irrefl _ K).
    + apply (Y _ _ K H).
  - pose proof (version_geb_iff a b) as G. destruct (version_geb a b); split; intros K; try discriminate; auto.
    + intros L. apply G in L. discriminate.
    + exfalso. apply K, G. reflexivity.
Qed.
Print Assumptions C58_compare.

Theorem C58_order : (forall a, ~ vlt a a) /\ (forall a b c, vlt a b -> vlt b c -> vlt a c) /\
  forall a b, vlt a b \/ a = b \/ vlt b a.
Proof.
  splits; [exact vlt_irrefl | exact vlt_trans |]. intros a b. pose proof (version_cmp_spec a b) as H.
  destruct (version_cmp a b); auto.
Qed.
Print Assumptions C58_order.

(** The check of the list accepts exactly the strictly increasing lists. *)
Theorem C58_ordered : forall l, ordered l = true <-> increasing (map ml_version l).
Proof. exact ordered_iff. Qed.
Print Assumptions C58_ordered.

Definition v1 : version := mkVersion 1 0 0.
Definition v1_1 : version := mkVersion 1 1 0.
Definition v2 : version := mkVersion 2 0 0.
(** Three versions, five migrations. *)
Definition some_lists : list migration_list :=
  [mkMigrations v1 [s2l "users"; s2l "groups"]; mkMigrations v1_1 [s2l "users"]; mkMigrations v2 [s2l "logs"; s2l "index"]].

Example C58_case : vlt v1 v1_1 /\ vlt (mkVersion 1 9 9) v2 /\ ordered some_lists = true /\
  ordered (rev some_lists) = false /\ ordered [mkMigrations v1 []; mkMigrations v1 []] = false.
Proof. unfold vlt, v1, v1_1, v2. cbn. splits; try reflexivity; lia. Qed.

(** ** Upward *)

Lemma nodup_app : forall A (l r : list A), NoDup l -> NoDup r -> (forall x, In x l -> ~ In x r) -> NoDup (l ++ r).
Proof.
  induction l as [|x l IH]; intros r N M D; cbn [app]; auto. inversion N; subst. constructor.
  - rewrite in_app_iff. intros [K|K]; [contradiction|]. apply (D x); [left; reflexivity|assumption].
  - apply IH; auto. intros y Hy. apply D. right. assumption.
Qed.

Lemma plan_fits : forall coll lists t plan (P : migration_record -> Prop), (forall n, coll n n = true) ->
  storable coll (listed lists) -> NoDup t -> incl t (listed lists) ->
  sublist_of P (listed lists) plan -> (forall m, P m -> ~ In m t) -> fits coll t plan.
Proof.
  intros coll lists t plan P R S N I Sub HP. pose proof (sublist_in _ _ _ _ Sub) as In_p.
  assert (J : incl (t ++ plan) (listed lists)).
  { intros x Hx. apply in_app_iff in Hx. destruct Hx as [Hx|Hx]; [apply I; assumption|apply In_p; assumption]. }
  unfold fits. splits.
  - rewrite Forall_forall. intros m Hm. apply (storable_ok coll _ S). apply In_p. assumption.
  - apply nodup_app; auto.
    + eapply sublist_nodup; [exact Sub|]. apply (storable_nodup coll R _ S).
    + intros x Hx K. apply In_p in K. apply (HP x); tauto.
  - intros r s Hr Hs. apply (storable_clash coll _ S); apply J; assumption.
Qed.

Lemma withinb_iff : forall target m, withinb target m = true <-> within target m.
Proof.
  intros [t|] m; cbn; [|tauto]. pose proof (version_gtb_iff (fst m) t) as G.
  destruct (version_gtb (fst m) t); cbn; split; intros K; auto; try discriminate.
  - exfalso. apply K, G. reflexivity.
  - intros L. apply G in L. discriminate.
Qed.

Lemma up_facts : forall coll w target lists t a h r a' h', (forall n, coll n n = true) -> storable coll (listed lists) ->
  NoDup t -> incl t (listed lists) -> represents a t ->
  up_to_version w target lists (a, h) = (r, (a', h')) ->
  exists plan tr d, h' = h ++ tr /\ up_plan lists target t plan /\ up_run plan tr d r /\ represents a' (t ++ d) /\ fits coll t plan.
Proof.
  intros coll w target lists t a h r a' h' R S N I Rep E. rewrite up_flat in E.
  pose proof (storable_nodup coll R _ S) as ND.
  assert (S1 : sublist_of (within target) (listed lists) (filter (withinb target) (listed lists))).
  { apply sublist_filter. intros. apply withinb_iff. }
  destruct (run_up w _ t a h r a' h' (sublist_nodup _ _ _ _ S1 ND) Rep E) as (plan & tr & d & A & B & C & D).
  pose proof (sublist_comp _ _ _ _ _ _ S1 B) as S2.
  exists plan, tr, d. splits; auto. eapply plan_fits; eauto. cbv beta. tauto.
Qed.

Lemma represents_all : forall a t w target lists h, represents a t ->
  (forall m, In m (listed lists) -> within target m -> In m t) ->
  up_to_version w target lists (a, h) = (Ok tt, (a, h)).
Proof.
  intros a t w target lists h R H. rewrite up_flat.
  assert (G : forall m, In m (filter (withinb target) (listed lists)) -> get_applied a (fst m) (snd m) <> None).
  { intros m Hm. apply filter_In in Hm. destruct Hm as (Hm & W). apply withinb_iff in W. rewrite get_applied_none.
    intros K. apply K. apply (R (fst m)). destruct m. apply H; assumption. }
  induction (filter (withinb target) (listed lists)) as [|m l IH]; cbn [run_all]; [reflexivity|].
  unfold iobind, up_one at 1. cbn [fst]. pose proof (G m (or_introl eq_refl)) as G1.
  destruct (get_applied a (fst m) (snd m)); [|congruence]. apply IH. intros m' Hm. apply G. right. assumption.
Qed.

(** C59: the migrator is opened on a table holding [t]; a successful upward run starts
    exactly the pending migrations in order, leaves the table with the old records followed by
    those, and repeating it does nothing.  Guard ([storable]): names of at most 255 characters
    without double quote and with backslashes before % or _ only (exactly those that are recorded as they
    are: C59_names_exactly), distinct for the server within a version. *)
Theorem C59_up_partial : forall bs coll debug lists get ex create cols rows t a w target a' h,
  (forall n, coll n n = true) -> storable coll (listed lists) -> NoDup t -> select_answer t cols rows ->
  migrator_new debug lists get ex create (Ok (cols, rows, None)) = Ok a ->
  up_to_version w target lists (a, []) = (Ok tt, (a', h)) ->
  exists plan, up_plan lists target t plan /\ started h = plan /\ reverted h = [] /\
    (forall t', table_after bs coll t h t' <-> t' = t ++ plan) /\
    forall w' h', up_to_version w' target lists (a', h') = (Ok tt, (a', h')).
Proof.
  intros bs coll debug lists get ex create cols rows t a w target a' h R S N Sel New E.
  destruct (new_opens _ _ _ _ _ _ _ _ _ N Sel New) as (Rep & _ & I).
  destruct (up_facts _ _ _ _ _ _ _ _ _ _ R S N I Rep E) as (plan & tr & d & H & P & U & Rep' & F).
  cbn [app] in H. subst h. destruct (up_complete bs coll _ _ _ _ U eq_refl _ F) as (-> & A & B & C & D).
  exists plan. splits; auto. intros w' h'. eapply represents_all; [exact Rep'|].
  intros m Hm W. rewrite in_app_iff. destruct (in_classic m t) as [K|K]; auto.
  right. apply (sublist_in _ _ _ _ P). auto.
Qed.
Print Assumptions C59_up_partial.

(** If nothing fails the run succeeds. *)
Theorem C59_progress : forall w target lists a h, (forall h a, w h a = Done) ->
  exists a' h', up_to_version w target lists (a, h) = (Ok tt, (a', h')).
Proof.
  intros w target lists a h W. rewrite up_flat. revert a h.
  induction (filter (withinb target) (listed lists)) as [|m l IH]; intros a h; cbn [run_all]; [eauto|].
  unfold iobind at 1, up_one at 1. cbn [fst]. destruct (get_applied a (fst m) (snd m)); [apply IH|].
  unfold iobind, await. cbn match. rewrite !W. apply IH.
Qed.
Print Assumptions C59_progress.

(** Exactly these names are recorded as they are: no double quote, and a backslash only before % or _ if
    the server has backslash escapes; likewise the statement of a downward run names the same record for
    exactly these names. *)
Theorem C59_names_exactly : forall bs coll v n t, version_small v -> (length n <= 255)%nat ->
  Forall (fun s => ~ clash coll s (v, n)) t ->
  let ok := ~ In 34 n /\ (bs = true -> forall a b, n = a ++ 92 :: b -> exists c, b = 37 :: c \/ b = 95 :: c) in
  (effect bs coll (insert_statement v n) t (t ++ [(v, n)]) <-> ok) /\ (says_delete bs (delete_statement v n) (v, n) <-> ok).
Proof.
  intros bs coll v n t V L F ok. split; [|apply (says_delete_exactly bs v n V)].
  rewrite <- (says_insert_exactly bs v n V : _ <-> ok). split.
  - intros E. inversion E as [q t0 r S A B C Ln Fr Eq Et Er | q t0 t' r S Sub Eq Et Er].
    + apply app_inj_tail in Er. destruct Er as (_ & ->). exact S.
    + exfalso. destruct S as (a & b & c & lit & X & _). discriminate.
  - intros S. destruct V as (A & B & C). constructor; auto.
Qed.
Print Assumptions C59_names_exactly.

(** The names 50\% and a\b with backslash escapes, and the latter without. *)
Example C59_names_case :
  effect true list_eqb (insert_statement v1 [53; 48; 92; 37]) [] [(v1, [53; 48; 92; 37])] /\
  ~ effect true list_eqb (insert_statement v1 [97; 92; 98]) [] [(v1, [97; 92; 98])] /\
  effect false list_eqb (insert_statement v1 [97; 92; 98]) [] [(v1, [97; 92; 98])].
Proof.
  assert (V : version_small v1) by (unfold version_small, u16; cbn; lia).
  assert (F : forall r, Forall (fun s => ~ clash list_eqb s r) []) by constructor.
  splits.
  - apply (proj1 (C59_names_exactly true list_eqb v1 [53; 48; 92; 37] [] V ltac:(cbn; lia) (F _))). split; [cbn; lia|].
    intros _ a b E. destruct a as [|a0 [|a1 [|a2 a]]]; try discriminate E.
    + injection E as <-. eauto.
    + exfalso. cbn [app] in E. injection E as _ _ _ E. destruct a as [|a3 [|a4 a]]; discriminate E.
  - intros E. apply (proj1 (C59_names_exactly true list_eqb v1 [97; 92; 98] [] V ltac:(cbn; lia) (F _))) in E.
    destruct (proj2 E eq_refl [97] [98] eq_refl) as (c & [X | X]); discriminate.
  - apply (proj1 (C59_names_exactly false list_eqb v1 [97; 92; 98] [] V ltac:(cbn; lia) (F _))). split; [cbn; lia | discriminate].
Qed.

(** Names are put between double quotes as they are: the migration named a\nb (with a
    backslash) is recorded under another name, so opening the migrator again panics. *)
Theorem C59_name_refuted : exists lists w a' h t',
  migrator_new true lists (Ok tt) (Ok ([], [[]], None)) (Ok tt)
    (Ok ([mkColumn (s2l "version_0") [] [] [] CShort 0; mkColumn (s2l "version_1") [] [] [] CShort 0;
          mkColumn (s2l "version_2") [] [] [] CShort 0; mkColumn (s2l "name") [] [] [] CVarString 0], [], None)) = Ok [] /\
  up w lists ([], []) = (Ok tt, (a', h)) /\
  started h = [(v1, [97; 92; 110; 98])] /\
  table_after true list_eqb [] h t' /\ t' = [(v1, [97; 10; 98])] /\
  forall debug get ex create cols rows, select_answer t' cols rows ->
    forall a, migrator_new debug lists get ex create (Ok (cols, rows, None)) <> Ok a.
Proof.
  exists [mkMigrations v1 [[97; 92; 110; 98]]], (fun _ _ => Done). eexists _, _, [(v1, [97; 10; 98])].
  splits; [vm_compute; reflexivity | vm_compute; reflexivity | reflexivity | | reflexivity |].
  - apply ta_other; [discriminate|]. apply ta_other; [discriminate|]. eapply ta_done; [|apply ta_nil].
    apply (ef_insert true list_eqb _ [] (v1, [97; 10; 98])); try (unfold u16; cbn; lia); try constructor.
    exists [49], [48], [48], [34; 97; 92; 110; 98; 34]. cbn [fst snd v1 v_0 v_1 v_2].
    splits; try reflexivity; try (split; [discriminate|split; [|reflexivity]; repeat constructor; unfold digit; lia]).
  - intros debug get ex create cols rows Sel a E.
    destruct (new_opens _ _ _ _ _ _ _ _ _ (NoDup_cons _ (@in_nil _ _) (NoDup_nil _)) Sel E) as (_ & K & _).
    inversion K; subst. discriminate.
Qed.
Print Assumptions C59_name_refuted.

(** ** Downward *)

Lemma down_facts : forall coll w target lists t a h r a' h', (forall n, coll n n = true) -> storable coll (listed lists) ->
  incl t (listed lists) -> represents a t ->
  down_to_version w target lists (a, h) = (r, (a', h')) ->
  exists plan tr d t1, h' = h ++ tr /\ down_plan lists target t plan /\ down_run plan tr d r /\
    sublist_of (fun m => ~ In m d) t t1 /\ represents a' t1 /\ fits_down coll t plan.
Proof.
  intros coll w target lists t a h r a' h' R S I Rep E. rewrite down_flat in E.
  pose proof (storable_nodup coll R _ S) as ND. apply NoDup_rev in ND.
  assert (S1 : sublist_of (fun m => vlt target (fst m)) (rev (listed lists))
                 (filter (fun m => version_gtb (fst m) target) (rev (listed lists)))).
  { apply sublist_filter. intros. apply version_gtb_iff. }
  destruct (run_down w _ t a h r a' h' (sublist_nodup _ _ _ _ S1 ND) Rep E) as (plan & tr & d & t1 & A & B & C & D & F).
  pose proof (sublist_comp _ _ _ _ _ _ S1 B) as S2.
  assert (J : incl plan (listed lists)).
  { intros x Hx. apply (sublist_in _ _ _ _ S2) in Hx. apply in_rev. tauto. }
  exists plan, tr, d, t1. splits; auto. split.
  - rewrite Forall_forall. intros m Hm. apply (storable_ok coll _ S), J, Hm.
  - intros x y Hx Hy. apply (storable_clash coll _ S); auto.
Qed.

(** C60: a successful downward run reverts exactly the recorded migrations above the target,
    last first, and removes exactly their records.  Same guard as C59. *)
Theorem C60_down_partial : forall bs coll debug lists get ex create cols rows t a w target a' h,
  (forall n, coll n n = true) -> storable coll (listed lists) -> NoDup t -> select_answer t cols rows ->
  migrator_new debug lists get ex create (Ok (cols, rows, None)) = Ok a ->
  down_to_version w target lists (a, []) = (Ok tt, (a', h)) ->
  exists plan, down_plan lists target t plan /\ reverted h = plan /\ started h = [] /\
    (forall t', table_after bs coll t h t' <-> sublist_of (fun m => ~ vlt target (fst m)) t t').
Proof.
  intros bs coll debug lists get ex create cols rows t a w target a' h R S N Sel New E.
  destruct (new_opens _ _ _ _ _ _ _ _ _ N Sel New) as (Rep & _ & I).
  destruct (down_facts _ _ _ _ _ _ _ _ _ _ R S I Rep E) as (plan & tr & d & t1 & H & P & U & _ & _ & F).
  cbn [app] in H. subst h. destruct (down_complete bs coll R _ _ _ _ U eq_refl _ F) as (-> & A & B & C & D).
  exists plan. splits; auto. intros t'. rewrite C.
  assert (X : forall x, In x t -> (~ In x plan <-> ~ vlt target (fst x))).
  { intros x Hx. pose proof (sublist_in _ _ _ _ P x) as Q. rewrite <- in_rev in Q. specialize (I _ Hx). tauto. }
  split; apply sublist_ext; intros x Hx; specialize (X x Hx); tauto.
Qed.
Print Assumptions C60_down_partial.

(** [one_down] reverts exactly the last recorded migration, if there is one. *)
Theorem C60_one_partial : forall bs coll debug lists get ex create cols rows t a w r a' h,
  (forall n, coll n n = true) -> storable coll (listed lists) -> NoDup t -> select_answer t cols rows ->
  migrator_new debug lists get ex create (Ok (cols, rows, None)) = Ok a ->
  one_down w lists (a, []) = (Ok r, (a', h)) ->
  (r = false /\ t = [] /\ h = [] /\ a' = a) \/
  (r = true /\ exists m earlier later, listed lists = earlier ++ m :: later /\ In m t /\ (forall x, In x later -> ~ In x t) /\
     reverted h = [m] /\ started h = [] /\ forall t', table_after bs coll t h t' <-> sublist_of (fun x => x <> m) t t').
Proof.
  intros bs coll debug lists get ex create cols rows t a w r a' h R S N Sel New E.
  destruct (new_opens _ _ _ _ _ _ _ _ _ N Sel New) as (Rep & _ & I). rewrite one_down_flat in E.
  destruct (run_one_down _ _ _ _ _ _ _ _ Rep E) as [(A & B & C & D)|(p & m & q & tr & d & t' & r' & A & B & C & D & F & G & K & L)].
  - left. injection A as ->. splits; auto. destruct t as [|x t]; auto. exfalso. apply (D x).
    + apply in_rev. rewrite rev_involutive. apply I. left. reflexivity.
    + left. reflexivity.
  - right. destruct r' as [[]|e|]; try discriminate. injection G as ->. split; auto.
    assert (Q : listed lists = rev q ++ m :: rev p).
    { rewrite <- (rev_involutive (listed lists)), A, rev_app_distr. cbn [rev]. rewrite <- app_assoc. reflexivity. }
    cbn [app] in D. subst h.
    assert (F' : fits_down coll t [m]).
    { assert (Hm : In m (listed lists)) by (apply I; assumption). split.
      - constructor; [apply (storable_ok coll _ S), Hm|constructor].
      - intros x y Hx [<-|[]]. apply (storable_clash coll _ S); auto. }
    destruct (down_complete bs coll R _ _ _ _ F eq_refl _ F') as (-> & X & Y & Z & W).
    exists m, (rev q), (rev p). splits; auto.
    + intros x Hx. apply B. apply in_rev. assumption.
    + intros t2. rewrite Z. split; apply sublist_ext; intros x _; cbn [In]; intuition congruence.
Qed.
Print Assumptions C60_one_partial.

(** C61: after [to_version v] succeeds the table records exactly the listed migrations of
    versions up to [v].  Same guard as C59. *)
Theorem C61_to_version_partial : forall bs coll debug lists get ex create cols rows t a w v a' h,
  (forall n, coll n n = true) -> storable coll (listed lists) -> NoDup t -> select_answer t cols rows ->
  migrator_new debug lists get ex create (Ok (cols, rows, None)) = Ok a ->
  to_version w v lists (a, []) = (Ok tt, (a', h)) ->
  exists t', table_after bs coll t h t' /\ (forall t'', table_after bs coll t h t'' -> t'' = t') /\
    NoDup t' /\ forall m, In m t' <-> In m (listed lists) /\ ~ vlt v (fst m).
Proof.
  intros bs coll debug lists get ex create cols rows t a w v a' h R S N Sel New E.
  destruct (new_opens _ _ _ _ _ _ _ _ _ N Sel New) as (Rep & _ & I).
  unfold to_version, iobind in E.
  destruct (up_to_version w (Some v) lists (a, [])) as [r1 (a1, h1)] eqn:E1.
  destruct r1 as [[]|e|]; [|discriminate|discriminate].
  destruct (up_facts _ _ _ _ _ _ _ _ _ _ R S N I Rep E1) as (plan & tr & d & H & P & U & Rep' & F).
  cbn [app] in H. subst h1. destruct (up_complete bs coll _ _ _ _ U eq_refl _ F) as (-> & A & B & C & D).
  assert (I' : incl (t ++ plan) (listed lists)).
  { intros x Hx. apply in_app_iff in Hx. destruct Hx as [Hx|Hx]; [apply I; assumption|].
    apply (sublist_in _ _ _ _ P) in Hx. tauto. }
  destruct (down_facts _ _ _ _ _ _ _ _ _ _ R S I' Rep' E) as (plan2 & tr2 & d2 & t1 & H2 & P2 & U2 & _ & _ & F2).
  subst h. destruct (down_complete bs coll R _ _ _ _ U2 eq_refl _ F2) as (-> & A2 & B2 & C2 & D2).
  assert (X : forall t0 p q t2, table_after bs coll t0 (p ++ q) t2 <->
    exists t1, table_after bs coll t0 p t1 /\ table_after bs coll t1 q t2).
  { clear. intros t0 p q t2. split.
    - revert t0. induction p as [|ev p IH]; intros t0 T; cbn [app] in T; [exists t0; split; [constructor|assumption]|].
      inversion T; subst; match goal with K : table_after _ _ _ (p ++ q) _ |- _ => apply IH in K; destruct K as (t1 & K1 & K2) end;
        exists t1; (split; [|assumption]).
      + eapply ta_done; eassumption.
      + eapply ta_lost; eassumption.
      + apply ta_failed; assumption.
      + apply ta_other; assumption.
    - intros (t1 & T1 & T2). induction T1; cbn [app]; auto.
      + eapply ta_done; eauto.
      + eapply ta_lost; eauto.
      + apply ta_failed; auto.
      + apply ta_other; auto. }
  destruct (sublist_exists (fun m => ~ In m plan2) (t ++ plan)) as (t' & St).
  { intros x _. destruct (in_classic x plan2); auto. }
  exists t'. splits.
  - apply X. exists (t ++ plan). split; [apply C; reflexivity|apply C2; assumption].
  - intros t'' T. apply X in T. destruct T as (t2 & T1 & T2). apply C in T1. subst t2. apply C2 in T2.
    eapply sublist_unique; eassumption.
  - eapply sublist_nodup; [exact St|]. apply F.
  - intros m. rewrite (sublist_in _ _ _ _ St), (sublist_in _ _ _ _ P2), <- in_rev, in_app_iff, (sublist_in _ _ _ _ P).
    cbn [within]. specialize (I m). destruct (in_classic m t) as [K|K].
    + split.
      * intros (_ & Q). split; auto. intros L. apply Q. splits; auto. apply in_app_iff. auto.
      * intros (Q & L). split; auto. intros (_ & L' & _). auto.
    + split.
      * intros ([Q|Q] & _); [contradiction|]. tauto.
      * intros (Q & L). split; auto. intros (_ & L' & _). auto.
Qed.
Print Assumptions C61_to_version_partial.

(** ** Stopped runs *)

(** C62: wherever an upward run stops (error, panic in a migration, dropped future: any prefix
    of its history), what it started is a prefix of the plan, and the table holds the old
    records followed by all that was started except possibly the last; only migrations whose
    code succeeded are recorded.  Same guard as C59. *)
Theorem C62_stopped_partial : forall bs coll debug lists get ex create cols rows t a w target r a' h p q,
  (forall n, coll n n = true) -> storable coll (listed lists) -> NoDup t -> select_answer t cols rows ->
  migrator_new debug lists get ex create (Ok (cols, rows, None)) = Ok a ->
  up_to_version w target lists (a, []) = (r, (a', h)) -> h = p ++ q ->
  exists plan recorded todo, up_plan lists target t plan /\ plan = started p ++ todo /\ reverted p = [] /\
    (started p = recorded \/ exists m, started p = recorded ++ [m]) /\
    (forall v n, In (v, n) recorded -> In (Up v n, Done) p) /\
    (forall t', table_after bs coll t p t' <-> t' = t ++ recorded).
Proof.
  intros bs coll debug lists get ex create cols rows t a w target r a' h p q R S N Sel New E Hp.
  destruct (new_opens _ _ _ _ _ _ _ _ _ N Sel New) as (Rep & _ & I).
  destruct (up_facts _ _ _ _ _ _ _ _ _ _ R S N I Rep E) as (plan & tr & d & H & P & U & Rep' & F).
  cbn [app] in H. rewrite H in Hp.
  destruct (up_prefix bs coll _ _ _ _ U _ _ _ Hp F) as (A & recorded & todo & B & C & D & T).
  exists plan, recorded, todo. splits; auto.
Qed.
Print Assumptions C62_stopped_partial.

(** The same for downward runs: at most the last reverted migration is still recorded. *)
Theorem C62_stopped_down_partial : forall bs coll debug lists get ex create cols rows t a w target r a' h p q,
  (forall n, coll n n = true) -> storable coll (listed lists) -> NoDup t -> select_answer t cols rows ->
  migrator_new debug lists get ex create (Ok (cols, rows, None)) = Ok a ->
  down_to_version w target lists (a, []) = (r, (a', h)) -> h = p ++ q ->
  exists plan removed todo, down_plan lists target t plan /\ plan = reverted p ++ todo /\ started p = [] /\
    (reverted p = removed \/ exists m, reverted p = removed ++ [m]) /\
    (forall v n, In (v, n) removed -> In (Down v n, Done) p) /\
    (forall t', table_after bs coll t p t' <-> sublist_of (fun m => ~ In m removed) t t').
Proof.
  intros bs coll debug lists get ex create cols rows t a w target r a' h p q R S N Sel New E Hp.
  destruct (new_opens _ _ _ _ _ _ _ _ _ N Sel New) as (Rep & _ & I).
  destruct (down_facts _ _ _ _ _ _ _ _ _ _ R S I Rep E) as (plan & tr & d & t1 & H & P & U & _ & _ & F).
  cbn [app] in H. rewrite H in Hp.
  destruct (down_prefix bs coll R _ _ _ _ U _ _ _ Hp F) as (A & removed & todo & B & C & D & T).
  exists plan, removed, todo. splits; auto.
Qed.
Print Assumptions C62_stopped_down_partial.

(** ** Names with backslashes *)

(** The columns the migrator selects. *)
Definition record_columns : list column :=
  [mkColumn (s2l "version_0") [] [] [] CShort 0; mkColumn (s2l "version_1") [] [] [] CShort 0;
   mkColumn (s2l "version_2") [] [] [] CShort 0; mkColumn (s2l "name") [] [] [] CVarString 0].
Definition slashed : str := [97; 92; 110; 98].
Definition unslashed : str := [97; 10; 98].

(** Where the name a\nb (with a backslash) is recorded as it is, reverting removes no record: the
    server looks for another name. *)
Theorem C60_name_refuted : exists lists t rows a w a' h t',
  NoDup t /\ incl t (listed lists) /\ select_answer t record_columns rows /\
  migrator_new true lists (Ok tt) (Ok ([], [[]], None)) (Ok tt) (Ok (record_columns, rows, None)) = Ok a /\
  down_to_version w (mkVersion 0 0 0) lists (a, []) = (Ok tt, (a', h)) /\ reverted h = t /\
  table_after true list_eqb t h t' /\ t' = [(v1, slashed)].
Proof.
  exists [mkMigrations v1 [slashed]], [(v1, slashed)], [[VUShort 1; VUShort 0; VUShort 0; VBytes slashed]].
  eexists _, (fun _ _ => Done), _, _, [(v1, slashed)].
  splits; [repeat constructor; intros []|intros x H; exact H| |vm_compute; reflexivity|vm_compute; reflexivity|reflexivity| |reflexivity].
  - split; [reflexivity|]. constructor; [|constructor]. exists slashed. split; [reflexivity|].
    repeat (apply (utf8_cons _ _ [_] _); [constructor; lia|]); constructor.
  - repeat (apply ta_other; [discriminate|]). eapply ta_done; [|apply ta_nil].
    eapply (ef_delete true list_eqb _ _ _ (v1, unslashed)).
    + exists [49], [48], [48], [34; 97; 92; 110; 98; 34]. cbn [fst snd v1 v_0 v_1 v_2].
      splits; try reflexivity; try (split; [discriminate|split; [|reflexivity]; repeat constructor; unfold digit; lia]).
    + constructor; [|constructor]. intros (_ & K). discriminate.
Qed.
Print Assumptions C60_name_refuted.

Lemma slashed_recorded : forall t, Forall (fun s => ~ clash list_eqb s (v1, unslashed)) t ->
  effect true list_eqb (insert_statement v1 slashed) t (t ++ [(v1, unslashed)]).
Proof.
  intros t H. apply (ef_insert true list_eqb _ t (v1, unslashed)); try (unfold u16; cbn; lia); auto.
  exists [49], [48], [48], [34; 97; 92; 110; 98; 34]. cbn [fst snd v1 v_0 v_1 v_2].
  splits; try reflexivity; try (split; [discriminate|split; [|reflexivity]; repeat constructor; unfold digit; lia]).
Qed.

(** Migrating to the version records another name than the one listed. *)
Theorem C61_name_refuted : exists lists w a' h t',
  migrator_new true lists (Ok tt) (Ok ([], [[]], None)) (Ok tt) (Ok (record_columns, [], None)) = Ok [] /\
  to_version w v1 lists ([], []) = (Ok tt, (a', h)) /\ table_after true list_eqb [] h t' /\
  listed lists = [(v1, slashed)] /\ t' = [(v1, unslashed)].
Proof.
  exists [mkMigrations v1 [slashed]], (fun _ _ => Done). eexists _, _, [(v1, unslashed)].
  splits; [vm_compute; reflexivity|vm_compute; reflexivity| |reflexivity..].
  repeat (apply ta_other; [discriminate|]). eapply ta_done; [|repeat (apply ta_other; [discriminate|]); apply ta_nil].
  exact (slashed_recorded [] (Forall_nil _)).
Qed.
Print Assumptions C61_name_refuted.

(** A run that stops at the second migration has not recorded the first under its name. *)
Theorem C62_name_refuted : exists lists w e a' h t',
  migrator_new true lists (Ok tt) (Ok ([], [[]], None)) (Ok tt) (Ok (record_columns, [], None)) = Ok [] /\
  up w lists ([], []) = (Err e, (a', h)) /\ started h = [(v1, slashed); (v1, s2l "c")] /\
  table_after true list_eqb [] h t' /\ ~ In (v1, slashed) t'.
Proof.
  exists [mkMigrations v1 [slashed; s2l "c"]].
  exists (fun _ a => match a with Up _ [99] => Failed (EProtocol (PIo IoOther)) false | _ => Done end), (EProtocol (PIo IoOther)).
  eexists _, _, [(v1, unslashed)].
  splits; [vm_compute; reflexivity|vm_compute; reflexivity|reflexivity| |intros [K|[]]; discriminate].
  repeat (apply ta_other; [discriminate|]). eapply ta_done; [|repeat (apply ta_other; [discriminate|]); apply ta_nil].
  exact (slashed_recorded [] (Forall_nil _)).
Qed.
Print Assumptions C62_name_refuted.

(** ** Repeating a stopped run *)

(** C68: with the same migrator a failed run cannot be repeated: the migration counts as
    applied in memory although its record was never written, so the next run reports success
    and leaves it unrecorded for good. *)
Theorem C68_retry_refuted : exists lists w1 w2 e a1 h1 a2 h2 t1 t2 m,
  up w1 lists ([], []) = (Err e, (a1, h1)) /\ table_after true list_eqb [] h1 t1 /\
  up w2 lists (a1, []) = (Ok tt, (a2, h2)) /\ table_after true list_eqb t1 h2 t2 /\
  In m (listed lists) /\ ~ In m t2 /\ storable list_eqb (listed lists) /\ (forall h a, w2 h a = Done).
Proof.
  exists [mkMigrations v1 [s2l "users"]].
  exists (fun _ a => match a with Get => Failed (EProtocol (PIo IoOther)) false | _ => Done end), (fun _ _ => Done).
  eexists _, _, _, _, _, [], [], (v1, s2l "users").
  splits; [vm_compute; reflexivity| |vm_compute; reflexivity| | | | |].
  - repeat (apply ta_other; [discriminate|]). apply ta_nil.
  - apply ta_nil.
  - left. reflexivity.
  - intros [].
  - split; [|repeat constructor]. constructor; [|constructor]. split.
    + apply plain_without; [cbn; lia | |]; vm_compute; intuition discriminate.
    + unfold version_small, u16. cbn. splits; lia.
  - reflexivity.
Qed.
Print Assumptions C68_retry_refuted.

(** With a migrator opened anew it can: whatever point the first run stopped at, a successful
    second run leaves everything up to the target recorded once.  (Missing: the same migrator.) *)
Theorem C68_reopen_partial : forall bs coll debug lists get ex create cols rows t a w target r a' h p q
    get2 ex2 create2 cols2 rows2 t1 a2 w2 a2' h2,
  (forall n, coll n n = true) -> storable coll (listed lists) -> NoDup t -> select_answer t cols rows ->
  migrator_new debug lists get ex create (Ok (cols, rows, None)) = Ok a ->
  up_to_version w target lists (a, []) = (r, (a', h)) -> h = p ++ q -> table_after bs coll t p t1 ->
  select_answer t1 cols2 rows2 ->
  migrator_new debug lists get2 ex2 create2 (Ok (cols2, rows2, None)) = Ok a2 ->
  up_to_version w2 target lists (a2, []) = (Ok tt, (a2', h2)) ->
  exists t2, (forall t', table_after bs coll t1 h2 t' <-> t' = t2) /\ NoDup t2 /\
    forall m, In m t2 <-> In m t \/ (In m (listed lists) /\ within target m).
Proof.
  intros bs coll debug lists get ex create cols rows t a w target r a' h p q get2 ex2 create2 cols2 rows2 t1 a2 w2 a2' h2
    R S N Sel New E Hp T1 Sel2 New2 E2.
  destruct (new_opens _ _ _ _ _ _ _ _ _ N Sel New) as (Rep & _ & I).
  destruct (up_facts _ _ _ _ _ _ _ _ _ _ R S N I Rep E) as (plan & tr & d & H & P & U & Rep' & F).
  cbn [app] in H. rewrite H in Hp.
  destruct (up_prefix bs coll _ _ _ _ U _ _ _ Hp F) as (_ & rec & todo & B & C & D & T).
  apply T in T1. subst t1.
  assert (Ip : incl rec plan).
  { intros x Hx. rewrite B. apply in_app_iff. left. destruct C as [->|(m & ->)]; [assumption|apply in_app_iff; auto]. }
  assert (N1 : NoDup (t ++ rec)).
  { destruct F as (_ & Nf & _). rewrite B in Nf. destruct C as [C|(m & C)]; rewrite C in Nf.
    - rewrite app_assoc in Nf. clear - Nf. induction (t ++ rec) as [|x l IH]; [constructor|].
      inversion Nf; subst. constructor; auto. intros K. apply H1. apply in_app_iff. auto.
    - rewrite <- app_assoc, app_assoc in Nf. clear - Nf. induction (t ++ rec) as [|x l IH]; [constructor|].
      inversion Nf; subst. constructor; auto. intros K. apply H1. apply in_app_iff. auto. }
  destruct (new_opens _ _ _ _ _ _ _ _ _ N1 Sel2 New2) as (Rep2 & _ & I2).
  destruct (up_facts _ _ _ _ _ _ _ _ _ _ R S N1 I2 Rep2 E2) as (plan2 & tr2 & d2 & H2 & P2 & U2 & _ & F2).
  cbn [app] in H2. subst h2. destruct (up_complete bs coll _ _ _ _ U2 eq_refl _ F2) as (-> & A2 & B2 & C2 & D2).
  exists ((t ++ rec) ++ plan2). splits; auto.
  - apply F2.
  - intros m. rewrite !in_app_iff, (sublist_in _ _ _ _ P2), in_app_iff.
    pose proof (sublist_in _ _ _ _ P m) as Q. specialize (Ip m).
    destruct (in_classic m t), (in_classic m rec); tauto.
Qed.
Print Assumptions C68_reopen_partial.

(** ** Opening *)

(** C69: if the pool and the server answer without error, the migrator opens exactly if every
    recorded migration is listed, and then counts exactly the recorded ones as applied;
    otherwise it panics. *)
Theorem C69_open : forall debug lists ecols erows create cols rows t,
  increasing (map ml_version lists) -> NoDup t -> select_answer t cols rows -> (erows = [] -> create = Ok tt) ->
  (incl t (listed lists) -> exists a,
     migrator_new debug lists (Ok tt) (Ok (ecols, erows, None)) create (Ok (cols, rows, None)) = Ok a /\
     forall v n, get_applied a v n <> None <-> In (v, n) t) /\
  (~ incl t (listed lists) ->
     migrator_new debug lists (Ok tt) (Ok (ecols, erows, None)) create (Ok (cols, rows, None)) = Panic).
Proof.
  intros debug lists ecols erows create cols rows t Inc N (C & F) Hc. unfold migrator_new.
  rewrite (proj2 (ordered_iff lists) Inc), andb_false_r. cbn [rbind]. rewrite (mapping_four _ C).
  replace (match erows with [] => create | _ => Ok tt end) with (@Ok error unit tt)
    by (destruct erows; [symmetry; apply Hc|]; reflexivity).
  cbn [rbind].
  assert (K : Forall (fun r => known lists (fst r) (snd r) = true) t <-> incl t (listed lists)).
  { rewrite Forall_forall. split.
    - intros A (v, n) H. apply known_in. apply (A (v, n) H).
    - intros A (v, n) H. apply in_known; auto. }
  destruct (read_applied_run lists t rows [] [] F represents_nil N) as [(A & a & -> & B)|(A & ->)].
  - split.
    + intros _. exists a. split; auto. intros v n. rewrite get_applied_none. cbn [app] in B. rewrite <- (proj2 (B v)).
      destruct (in_dec (list_eq_dec Z.eq_dec) n (names a v)); tauto.
    + intros H. exfalso. apply H, K, A.
  - split; auto. intros H. exfalso. apply A, K, H.
Qed.
Print Assumptions C69_open.

(** An error at any point, also one after some of the recorded migrations, is returned: no migrator is
    opened that knows only a part of them. *)
Theorem C69_failures : forall debug lists get ex create sel e, increasing (map ml_version lists) ->
  (get = Err e \/
   get = Ok tt /\ (ex = Err e \/ exists ecols erows, ex = Ok (ecols, erows, Some e)) \/
   get = Ok tt /\ (exists ecols, ex = Ok (ecols, [], None)) /\ create = Err e \/
   get = Ok tt /\ (exists ecols erows, ex = Ok (ecols, erows, None) /\ (erows = [] -> create = Ok tt)) /\
     (sel = Err e \/ exists cols rows t, sel = Ok (cols, rows, Some e) /\ select_answer t cols rows /\ incl t (listed lists))) ->
  migrator_new debug lists get ex create sel = Err e.
Proof.
  intros debug lists get ex create sel e Inc H. unfold migrator_new. rewrite (proj2 (ordered_iff lists) Inc), andb_false_r.
  destruct H as [->|[(-> & [->|(ec & er & ->)])|[(-> & (ec & ->) & ->)|(-> & (ec & er & -> & Hc) & H)]]]; try reflexivity.
  cbn [rbind]. replace (match er with [] => create | _ => Ok tt end) with (@Ok error unit tt)
    by (destruct er; [symmetry; apply Hc|]; reflexivity).
  cbn [rbind]. destruct H as [->|(cols & rows & t & -> & (C & F) & Hin)]; [reflexivity|]. cbn [rbind]. rewrite (mapping_four _ C).
  generalize (@nil (version * list str)) as a. revert Hin. induction F as [|(v, n) row t rows R _ IH]; intros Hin a; [reflexivity|].
  cbn [read_applied]. rewrite (row_four _ _ R). cbn [rmap_err rbind]. rewrite (in_known lists v n Inc (Hin _ (or_introl eq_refl))).
  apply IH. intros x Hx. apply Hin. now right.
Qed.
Print Assumptions C69_failures.

(** An unordered list is refused in debug builds only. *)
Theorem C69_unordered : forall lists get ex create sel, ~ increasing (map ml_version lists) ->
  migrator_new true lists get ex create sel = Panic.
Proof.
  intros lists get ex create sel H. unfold migrator_new. destruct (ordered lists) eqn:E; [|reflexivity].
  exfalso. apply H, ordered_iff, E.
Qed.
Print Assumptions C69_unordered.

(** The records are read by the names of the columns: wherever they are, other columns have no effect,
    a column that is missing is never taken from elsewhere, and one that is reported as missing is. *)
Theorem C69_columns : forall cols row,
  (forall i0 i1 i2 i3 (r : migration_record) text,
     last_named (s2l "version_0") cols i0 -> last_named (s2l "version_1") cols i1 ->
     last_named (s2l "version_2") cols i2 -> last_named (s2l "name") cols i3 ->
     nth_error row i0 = Some (VUShort (v_0 (fst r))) -> nth_error row i1 = Some (VUShort (v_1 (fst r))) ->
     nth_error row i2 = Some (VUShort (v_2 (fst r))) -> nth_error row i3 = Some (VBytes text) -> utf8_text (snd r) text ->
     mm_row (mm_from_columns (mkMigrationMapping None None None None) 0 cols) row = Ok r) /\
  (forall name, In name [s2l "version_0"; s2l "version_1"; s2l "version_2"; s2l "name"] -> ~ In name (map col_org_name cols) ->
     forall r, mm_row (mm_from_columns (mkMigrationMapping None None None None) 0 cols) row <> Ok r) /\
  (forall name, mm_row (mm_from_columns (mkMigrationMapping None None None None) 0 cols) row = Err (EMissingField name) ->
     In name [s2l "version_0"; s2l "version_1"; s2l "version_2"; s2l "name"] /\ ~ In name (map col_org_name cols)).
Proof.
  intros cols row. split; [|split].
  - intros i0 i1 i2 i3 r text. apply row_named.
  - apply row_unnamed.
  - intros name. apply row_missing.
Qed.
Print Assumptions C69_columns.

(** Columns in another order, and one more. *)
Example C69_columns_case :
  mm_row (mm_from_columns (mkMigrationMapping None None None None) 0
    [mkColumn (s2l "name") [] [] [] CVarString 0; mkColumn (s2l "version_2") [] [] [] CShort 32;
     mkColumn (s2l "version_1") [] [] [] CShort 32; mkColumn (s2l "version_0") [] [] [] CShort 32;
     mkColumn (s2l "applied_at") [] [] [] CVarString 0])
    [VBytes (s2l "users"); VUShort 3; VUShort 2; VUShort 1; VNull] = Ok (mkVersion 1 2 3, s2l "users").
Proof. vm_compute. reflexivity. Qed.

(** ** A concrete history *)
Definition some_table : list migration_record := [(v1, s2l "users")].
Definition migration_columns : list column :=
  [mkColumn (s2l "version_0") [] [] [] CShort 32; mkColumn (s2l "version_1") [] [] [] CShort 32;
   mkColumn (s2l "version_2") [] [] [] CShort 32; mkColumn (s2l "name") [] [] [] CVarString 0].
Definition some_rows : list (list value) := [[VUShort 1; VUShort 0; VUShort 0; VBytes (s2l "users")]].

Lemma some_storable : storable list_eqb (listed some_lists).
Proof.
  split.
  - given_names.
  - cbn [listed flat_map some_lists map ml_version ml_names app].
    repeat (constructor; [repeat constructor; intros (A & B); cbn [fst snd] in *; discriminate|]). constructor.
Qed.

Lemma some_answer : select_answer some_table migration_columns some_rows.
Proof.
  split; [reflexivity|]. constructor; [|constructor]. eexists. split; [reflexivity|].
  cbn [snd]. apply Conversion_proofs.utf8_text_iff. split; [|reflexivity].
  cbv [s2l]. repeat constructor; cbn; lia.
Qed.

Definition some_applied : applied_map := [(v1, [s2l "users"])].
Example C59_case :
  migrator_new true some_lists (Ok tt) (Ok ([], [[VLong 1]], None)) (Ok tt) (Ok (migration_columns, some_rows, None)) = Ok some_applied /\
  (let '(r, (a, h)) := up_to_version (fun _ _ => Done) (Some v1_1) some_lists (some_applied, []) in
   r = Ok tt /\ started h = [(v1, s2l "groups"); (v1_1, s2l "users")] /\
   up_to_version (fun _ _ => Done) (Some v1_1) some_lists (a, []) = (Ok tt, (a, []))).
Proof. vm_compute. auto. Qed.

Example C60_case :
  (let '(r, (_, h)) := down_to_version (fun _ _ => Done) v1 some_lists
       ([(v1, [s2l "users"; s2l "groups"]); (v1_1, [s2l "users"]); (v2, [s2l "logs"])], []) in
   r = Ok tt /\ reverted h = [(v2, s2l "logs"); (v1_1, s2l "users")]) /\
  (let '(r, (_, h)) := one_down (fun _ _ => Done) some_lists
       ([(v1, [s2l "users"; s2l "groups"]); (v1_1, [s2l "users"]); (v2, [s2l "logs"])], []) in
   r = Ok true /\ reverted h = [(v2, s2l "logs")]).
Proof. vm_compute. auto. Qed.

Example C61_case :
  let '(r, (a, h)) := to_version (fun _ _ => Done) v1_1 some_lists ([(v1, [s2l "groups"]); (v2, [s2l "index"])], []) in
  r = Ok tt /\ a = [(v1_1, [s2l "users"]); (v1, [s2l "groups"; s2l "users"]); (v2, [])] /\
  started h = [(v1, s2l "users"); (v1_1, s2l "users")] /\ reverted h = [(v2, s2l "index")].
Proof. vm_compute. auto. Qed.

(** The second migration fails. *)
Example C62_case :
  let '(r, (_, h)) := up (fun _ a => match a with Up _ n => if list_eqb n (s2l "groups") then Failed (EProtocol (PIo IoOther)) false else Done | _ => Done end)
      some_lists ([], []) in
  r = Err (EProtocol (PIo IoOther)) /\ started h = [(v1, s2l "users"); (v1, s2l "groups")] /\
  In (Exec (insert_statement v1 (s2l "users")), Done) h.
Proof. vm_compute. split; [reflexivity|]. split; [reflexivity|]. do 2 right. left. reflexivity. Qed.

Example C68_case :
  let '(r, (a, h)) := up (fun _ a => match a with Exec _ => Failed (EProtocol (PIo IoOther)) false | _ => Done end)
      some_lists (some_applied, []) in
  r = Err (EProtocol (PIo IoOther)) /\ started h = [(v1, s2l "groups")] /\
  (let '(r, (_, h)) := up (fun _ _ => Done) some_lists (some_applied, []) in
   r = Ok tt /\ started h = [(v1, s2l "groups"); (v1_1, s2l "users"); (v2, s2l "logs"); (v2, s2l "index")]).
Proof. vm_compute. auto. Qed.

Example C69_case :
  migrator_new false some_lists (Ok tt) (Ok ([], [], None)) (Ok tt)
    (Ok (migration_columns, [[VUShort 1; VUShort 0; VUShort 0; VBytes (s2l "gone")]], None)) = Panic /\
  migrator_new false some_lists (Ok tt) (Ok ([], [], None)) (Ok tt) (Ok (migration_columns, some_rows, None)) = Ok some_applied.
Proof. vm_compute. auto. Qed.
