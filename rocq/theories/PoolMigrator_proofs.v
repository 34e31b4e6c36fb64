(** Proofs about PoolMigrator.v. *)
From Coq Require Import String ZArith List Bool Lia.
From Verif Require Import Base BaseFacts Types Utf8 Framing Framing_proofs Spec_Wire Packets Spec_Packets Packets_proofs Auth Auth_proofs Spec_Stmt Spec_Text ValueText_proofs
  Rows Rows_proofs StmtPackets Conn Spec_Conn Conn_proofs Conversion Spec_Conv Conversion_proofs Migrator Spec_Migrate Migrator_proofs SimpleMigration Spec_Simple Simple_proofs
  Properties_Migrate Spec_Program Program_proofs MigratorWire Spec_MigratorWire MigratorWire_proofs ValueText PrimaryAddress PoolMigrator Spec_PoolMigrator.
Import ListNotations.
Open Scope Z_scope.

(** ** The calls with any oracle *)
Definition own_action (s : step) : action := match s with Apply m => Up (fst m) (snd m) | Remove m => Down (fst m) (snd m) end.

Inductive step_trace : list step -> list event -> res error unit -> Prop :=
| st_nil : step_trace [] [] (Ok tt)
| st_own : forall s l e b, step_trace (s :: l) [(own_action s, Failed e b)] (Err e)
| st_get : forall s l e b, step_trace (s :: l) [(own_action s, Done); (Get, Failed e b)] (Err e)
| st_exec : forall s l e b, step_trace (s :: l) [(own_action s, Done); (Get, Done); (Exec (record_text s), Failed e b)] (Err e)
| st_next : forall s l h r, step_trace l h r ->
    step_trace (s :: l) ((own_action s, Done) :: (Get, Done) :: (Exec (record_text s), Done) :: h) r.

Lemma up_trace : forall plan tr d r, up_run plan tr d r -> step_trace (map Apply plan) tr r.
Proof.
  intros plan tr d r H. induction H; cbn [map]; [constructor|exact (st_own (Apply (v, n)) _ _ _)|exact (st_get (Apply (v, n)) _ _ _)|
    exact (st_exec (Apply (v, n)) _ _ _)|exact (st_next (Apply (v, n)) _ _ _ IHup_run)].
Qed.
Lemma down_trace : forall plan tr d r, down_run plan tr d r -> step_trace (map Remove plan) tr r.
Proof.
  intros plan tr d r H. induction H; cbn [map]; [constructor|exact (st_own (Remove (v, n)) _ _ _)|exact (st_get (Remove (v, n)) _ _ _)|
    exact (st_exec (Remove (v, n)) _ _ _)|exact (st_next (Remove (v, n)) _ _ _ IHdown_run)].
Qed.
Lemma trace_app : forall s1 h1, step_trace s1 h1 (Ok tt) -> forall s2 h2 r, step_trace s2 h2 r -> step_trace (s1 ++ s2) (h1 ++ h2) r.
Proof.
  intros s1 h1 H. remember (Ok tt) as k eqn:Ek. induction H; intros s2 h2 r' K; cbn [app]; try discriminate; [exact K|]. constructor. auto.
Qed.
Lemma trace_stop : forall s1 h1 e, step_trace s1 h1 (Err e) -> forall s2, step_trace (s1 ++ s2) h1 (Err e).
Proof.
  intros s1 h1 e H. remember (Err e) as k eqn:Ek. induction H; intros s2; cbn [app]; try discriminate; try (injection Ek as <-; constructor).
  constructor. auto.
Qed.
Lemma trace_no_panic : forall s h, ~ step_trace s h Panic.
Proof. intros s h H. remember Panic as k eqn:Ek. induction H; try discriminate. auto. Qed.

Section calls.
  Variables (coll : list Z -> list Z -> bool) (lists : list migration_list) (w : oracle).
  Hypotheses (R : forall n, coll n n = true) (S : storable coll (listed lists)).

  Definition goes (t : list migration_record) (steps : list step) (t' : list migration_record) (f : IO mig_state unit) : Prop :=
    forall a h r a' h', on_table lists a t -> f (a, h) = (r, (a', h')) ->
    exists tr, h' = h ++ tr /\ consistent w h tr /\ step_trace steps tr r /\ (r = Ok tt -> on_table lists a' t').

  Lemma goes_up : forall target t plan, NoDup t -> incl t (listed lists) -> up_plan lists target t plan ->
    goes t (map Apply plan) (t ++ plan) (up_to_version w target lists).
  Proof.
    intros target t plan N I P a h r a' h' (_ & _ & Rep) E.
    destruct (up_facts _ _ _ _ _ _ _ _ _ _ R S N I Rep E) as (plan' & tr & d & -> & P' & U & Rep' & F).
    assert (plan' = plan) as -> by (eapply sublist_unique; eauto).
    rewrite up_flat in E. destruct (keeps_all _ _ _ (keeps_up w) _ _ _ _ _ E) as (tr' & Et & Co).
    apply app_inv_head in Et. subst tr'. exists tr. splits; auto.
    - eapply up_trace; eauto.
    - intros ->. destruct (up_complete true coll _ _ _ _ U eq_refl _ F) as (-> & _). unfold on_table. splits.
      + exact (proj1 (proj2 F)).
      + intros x Hx. apply in_app_iff in Hx. destruct Hx as [Hx|Hx]; [apply I; assumption|].
        apply (sublist_in _ _ _ _ P) in Hx. tauto.
      + exact Rep'.
  Qed.

  Lemma goes_down : forall target t plan t', NoDup t -> incl t (listed lists) -> down_plan lists target t plan ->
    sublist_of (fun m => ~ In m plan) t t' -> goes t (map Remove plan) t' (down_to_version w target lists).
  Proof.
    intros target t plan t' N I P Sl a h r a' h' (_ & _ & Rep) E.
    assert (F : fits_down coll t plan).
    { assert (J : incl plan (listed lists)). { intros x Hx. apply (sublist_in _ _ _ _ P) in Hx. apply in_rev. tauto. }
      split.
      - rewrite Forall_forall. intros m Hm. apply (storable_ok coll _ S), J, Hm.
      - intros x y Hx Hy. apply (storable_clash coll _ S); auto. }
    destruct (down_facts _ _ _ _ _ _ _ _ _ _ R S I Rep E) as (plan' & tr & d & t1 & -> & P' & U & S1 & Rep' & _).
    assert (plan' = plan) as -> by (eapply sublist_unique; eauto).
    rewrite down_flat in E. destruct (keeps_all _ _ _ (keeps_down w) _ _ _ _ _ E) as (tr' & Et & Co).
    apply app_inv_head in Et. subst tr'. exists tr. splits; auto.
    - eapply down_trace; eauto.
    - intros ->. destruct (down_complete true coll R _ _ _ _ U eq_refl _ F) as (-> & _).
      assert (t1 = t') as -> by (eapply sublist_unique; eauto). unfold on_table. splits.
      + eapply sublist_nodup; eauto.
      + intros x Hx. apply I. apply (sublist_in _ _ _ _ Sl) in Hx. tauto.
      + exact Rep'.
  Qed.

  Lemma goes_bind : forall t s1 t1 s2 t2 f g, goes t s1 t1 f -> goes t1 s2 t2 g -> goes t (s1 ++ s2) t2 (iobind f (fun _ => g)).
  Proof.
    intros t s1 t1 s2 t2 f g D1 D2 a h r a' h' O E. unfold iobind in E. destruct (f (a, h)) as [r1 (a1, h1)] eqn:E1.
    destruct (D1 _ _ _ _ _ O E1) as (tr1 & -> & C1 & Se1 & O1). destruct r1 as [[]|e|].
    - destruct (D2 _ _ _ _ _ (O1 eq_refl) E) as (tr2 & -> & C2 & Se2 & O2). exists (tr1 ++ tr2). rewrite app_assoc. splits; auto.
      + now apply consistent_app.
      + now apply trace_app.
    - injection E as <- <- <-. exists tr1. splits; auto; [|discriminate]. now apply trace_stop.
    - exfalso. eapply trace_no_panic; eauto.
  Qed.

  Lemma goes_call : forall k t steps t', call_steps lists k t steps t' -> NoDup t -> incl t (listed lists) ->
    goes t steps t' (run_call w lists k) /\ NoDup t' /\ incl t' (listed lists).
  Proof.
    assert (Up : forall target t plan, up_plan lists target t plan -> NoDup t -> incl t (listed lists) ->
      NoDup (t ++ plan) /\ incl (t ++ plan) (listed lists)).
    { intros target t plan P N I. split.
      - assert (F : fits coll t plan) by (eapply plan_fits; eauto; cbv beta; tauto). exact (proj1 (proj2 F)).
      - intros x Hx. apply in_app_iff in Hx. destruct Hx as [Hx|Hx]; [apply I; assumption|].
        apply (sublist_in _ _ _ _ P) in Hx. tauto. }
    assert (Dn : forall (Q : migration_record -> Prop) t t', sublist_of Q t t' -> NoDup t -> incl t (listed lists) -> NoDup t' /\ incl t' (listed lists)).
    { intros Q t t' Sl N I. split; [eapply sublist_nodup; eauto|]. intros x Hx. apply I. apply (sublist_in _ _ _ _ Sl) in Hx. tauto. }
    intros k t steps t' H. induction H as [t plan P|v t plan P|v t plan t' P Sl|v t s1 t1 s2 t2 H1 IH1 H2 IH2| |t earlier m later t' L Hm Hl Sl];
      intros N I; cbn [run_call].
    - split; [now apply goes_up|eauto].
    - split; [now apply goes_up|eauto].
    - split; [now apply goes_down|eauto].
    - destruct (IH1 N I) as (D1 & N1 & I1). destruct (IH2 N1 I1) as (D2 & N2 & I2). split; [|auto].
      unfold to_version. eapply goes_bind; eauto.
    - split; [|auto]. intros a h r a' h' (_ & _ & Rep) E.
      unfold iobind in E. destruct (one_down w lists (a, h)) as [r1 (a1, h1)] eqn:E1. rewrite one_down_flat in E1.
      destruct (run_one_down _ _ _ _ _ _ _ _ Rep E1) as [(-> & -> & -> & _)|(p & m & q & tr & d & t' & r' & _ & _ & [] & _)].
      injection E as <- <- <-. exists []. rewrite app_nil_r. splits; auto; try constructor; auto.
    - split; [|eauto].
      assert (F : fits_down coll t [m]).
      { assert (Hi : In m (listed lists)) by (apply I; assumption). split.
        - constructor; [apply (storable_ok coll _ S), Hi|constructor].
        - intros x y Hx [<-|[]]. apply (storable_clash coll _ S); auto. }
      assert (Sl' : sublist_of (fun x => ~ In x [m]) t t').
      { eapply sublist_ext; [|exact Sl]. intros x _. cbn [In]. intuition congruence. }
      intros a h r a' h' (_ & _ & Rep) E.
      unfold iobind in E. destruct (one_down w lists (a, h)) as [r1 (a1, h1)] eqn:E1.
      destruct (keeps_one_down _ _ _ _ _ _ _ E1) as (tr0 & Et & Co). rewrite one_down_flat in E1.
      destruct (run_one_down _ _ _ _ _ _ _ _ Rep E1) as [(_ & _ & _ & K)|(p & m' & q & tr & d & t1 & r' & A & B & C & D & U & -> & Sd & Rep')].
      { exfalso. apply (K m); [|exact Hm]. apply -> in_rev. rewrite L. apply in_app_iff. right. now left. }
      assert (Q : listed lists = rev q ++ m' :: rev p).
      { rewrite <- (rev_involutive (listed lists)), A, rev_app_distr. cbn [rev]. rewrite <- app_assoc. reflexivity. }
      assert (m' = m) as ->.
      { rewrite L in Q. clear - Q B C Hm Hl.
        assert (X : forall x, In x (rev p) -> ~ In x t) by (intros x Hx; apply B; apply in_rev; exact Hx). clear B. revert Q X.
        generalize (rev q), (rev p). intros l1 l2 Q X. revert l1 Q. induction earlier as [|y e IH]; intros [|z l1] Q; cbn [app] in Q.
        - congruence.
        - injection Q as <- Q. exfalso. apply (Hl m'); [|exact C]. rewrite Q. apply in_app_iff. right. now left.
        - injection Q as <- Q. exfalso. apply (X m); [|exact Hm]. rewrite <- Q. apply in_app_iff. right. now left.
        - injection Q as _ Q. exact (IH _ Q). }
      rewrite Et in D. apply app_inv_head in D. subst tr0 h1.
      assert (h' = h ++ tr /\ r = r' /\ a' = a1) as (-> & -> & ->). { destruct r' as [[]|e|]; cbn [rmap] in E; injection E as <- <- <-; auto. }
      exists tr. splits; auto.
      + change [Remove m] with (map Remove [m]). eapply down_trace; eauto.
      + intros ->. destruct (down_complete true coll R _ _ _ _ U eq_refl _ F) as (-> & _).
        assert (t1 = t') as -> by (eapply sublist_unique; eauto). split; [|split; [|exact Rep']]; eapply Dn; eauto.
  Qed.

  Lemma goes_calls : forall ks t steps t', calls_steps lists ks t steps t' -> NoDup t -> incl t (listed lists) ->
    goes t steps t' (run_calls w lists ks).
  Proof.
    intros ks t steps t' H. induction H as [t|k ks t s1 t1 s2 t2 H1 H2 IH]; intros N I; cbn [run_calls].
    - intros a h r a' h' O E. injection E as <- <- <-. exists []. rewrite app_nil_r. splits; auto; constructor.
    - destruct (goes_call _ _ _ _ H1 N I) as (D1 & N1 & I1). eapply goes_bind; eauto.
  Qed.
End calls.

Lemma recorded_of : forall bs coll own steps qs t t', performed bs coll own steps qs t t' -> forall texts, qs = step_texts texts steps ->
  recorded bs coll steps (map record_text steps) t t'.
Proof.
  intros bs coll own steps qs t t' H. induction H; intros texts E; cbn [map]; [constructor| |];
    unfold step_texts in E; cbn [flat_map app] in E; fold (step_texts texts s) in E; injection E as _ -> E; econstructor; eauto.
Qed.

(** ** The world *)
Section world.
  Variables (N : nat) (dial : nat -> res error conn) (ms : migrations).

  Lemma get_taken : forall p r p', pool_get N dial p = (r, p') -> taken N dial p r p'.
  Proof.
    intros [[|c l] k] r p' E; unfold pool_get in E; cbn [pl_idle pl_made] in E.
    - destruct (Nat.ltb_spec k N) as [L|L]; injection E as <- <-; constructor; auto.
    - injection E as <- <-. constructor.
  Qed.
  Lemma taken_get : forall p r p', taken N dial p r p' -> pool_get N dial p = (r, p').
  Proof.
    intros p r p' H. inversion H; subst; unfold pool_get; cbn [pl_idle pl_made]; [reflexivity| |].
    - destruct (Nat.ltb_spec k N); [reflexivity|lia].
    - destruct (Nat.ltb_spec k N); [lia|reflexivity].
  Qed.

  Definition own_of (s : step) (p : pool) (r : res error unit) (p' : pool) : Prop :=
    match s with Apply m => mg_up ms m p = (r, p') | Remove m => mg_down ms m p = (r, p') end.

  Lemma act_own : forall s p held r x, act N dial ms (own_action s) (p, held) = (r, x) -> exists p', x = (p', held) /\ own_of s p r p'.
  Proof.
    intros s p held r x E. unfold act, own_action, own_of in *. destruct s as [[v n]|[v n]]; cbn [fst snd] in E;
      [destruct (mg_up ms (v, n) p) as [r0 p0]|destruct (mg_down ms (v, n) p) as [r0 p0]]; injection E as <- <-; exists p0; auto.
  Qed.
  Lemma after_app : forall h l x, world_after N dial ms (h ++ l) x = world_after N dial ms l (world_after N dial ms h x).
  Proof. intros h l. induction h as [|(a, o) h IH]; intros x; cbn [app world_after]; auto. Qed.

  Lemma act_next : forall ef x h a o tr, consistent (world_oracle N dial ms ef x) h ((a, o) :: tr) ->
    exists r y, act N dial ms a (world_after N dial ms h x) = (r, y) /\ (o = Done <-> r = Ok tt) /\
      consistent (world_oracle N dial ms ef x) (h ++ [(a, o)]) tr /\ world_after N dial ms (h ++ [(a, o)]) x = y.
  Proof.
    intros ef x h a o tr H. inversion H as [|? ? ? Co E]; subst. destruct (act N dial ms a (world_after N dial ms h x)) as [r y] eqn:E.
    exists r, y. splits; [reflexivity| |exact Co|].
    - unfold world_oracle. rewrite E. cbn [fst]. split; intros X; destruct r as [[]|e|]; try discriminate; reflexivity.
    - rewrite after_app. cbn [world_after]. now rewrite E.
  Qed.

  Lemma trace_ran : forall ef x steps tr r, step_trace steps tr r -> Forall (fun s => str_ok (record_text s)) steps ->
    forall h p, consistent (world_oracle N dial ms ef x) h tr -> world_after N dial ms h x = (p, None) ->
    ran N dial own_of (combine steps (map record_text steps)) p (ended N dial ms tr (p, None)) (fst (world_after N dial ms tr (p, None))).
  Proof.
    intros ef x steps tr r H.
    induction H as [|s l e b|s l e b|s l e b|s l tr r H IH]; intros Hs h p Co W; cbn [map combine].
    - cbn. constructor.
    - destruct (act_next _ _ _ _ _ _ Co) as (r1 & x1 & E1 & D1 & Co1 & W1). rewrite W in E1.
      destruct (act_own _ _ _ _ _ E1) as (p1 & -> & Ho). cbn [ended world_after]. rewrite E1. cbn [fst snd].
      destruct r1 as [[]|e1|]; [destruct D1 as (_ & D1); discriminate (D1 eq_refl)| |]; (eapply rn_own; [exact Ho|discriminate]).
    - destruct (act_next _ _ _ _ _ _ Co) as (r1 & x1 & E1 & D1 & Co1 & W1). rewrite W in E1.
      destruct (act_own _ _ _ _ _ E1) as (p1 & -> & Ho). pose proof (proj1 D1 eq_refl) as ->. cbn [ended world_after]. rewrite E1. cbn [fst snd].
      destruct (act_next _ _ _ _ _ _ Co1) as (r2 & x2 & E2 & D2 & _ & _). rewrite W1 in E2. rewrite E2. cbn [fst snd]. cbn [act] in E2.
      destruct (pool_get N dial p1) as [[c|e2|] p2] eqn:E3; injection E2 as <- <-; apply get_taken in E3.
      + destruct D2 as (_ & D2). discriminate (D2 eq_refl).
      + eapply rn_error; eauto.
      + eapply rn_panic; eauto.
    - inversion Hs as [|? ? Hq _]; subst. destruct (act_next _ _ _ _ _ _ Co) as (r1 & x1 & E1 & D1 & Co1 & W1). rewrite W in E1.
      destruct (act_own _ _ _ _ _ E1) as (p1 & -> & Ho). pose proof (proj1 D1 eq_refl) as ->. cbn [ended world_after]. rewrite E1. cbn [fst snd].
      destruct (act_next _ _ _ _ _ _ Co1) as (r2 & x2 & E2 & D2 & Co2 & W2). rewrite W1 in E2. pose proof (proj1 D2 eq_refl) as ->.
      rewrite E2. cbn [fst snd]. cbn [act] in E2.
      destruct (pool_get N dial p1) as [[c|e2|] p2] eqn:E3; [|discriminate|discriminate]. injection E2 as <-. apply get_taken in E3.
      destruct (act_next _ _ _ _ _ _ Co2) as (r3 & x3 & E4 & D3 & _ & _). rewrite W2 in E4. rewrite E4. cbn [fst snd]. cbn [act] in E4.
      destruct (execute_text (record_text s) c) as [r4 c'] eqn:E5. injection E4 as <- <-.
      assert (T : utf8_text (record_text s) (utf8_encode (record_text s))) by (apply utf8_text_iff; split; [exact Hq|reflexivity]).
      destruct r4 as [y|e3|]; cbn [rmap fst] in *; [destruct D3 as (_ & D3); discriminate (D3 eq_refl)| |]; [eapply rn_failed|eapply rn_broken]; eauto.
    - inversion Hs as [|? ? Hq Hs']; subst. destruct (act_next _ _ _ _ _ _ Co) as (r1 & x1 & E1 & D1 & Co1 & W1). rewrite W in E1.
      destruct (act_own _ _ _ _ _ E1) as (p1 & -> & Ho). pose proof (proj1 D1 eq_refl) as ->. cbn [ended world_after]. rewrite E1. cbn [fst snd].
      destruct (act_next _ _ _ _ _ _ Co1) as (r2 & x2 & E2 & D2 & Co2 & W2). rewrite W1 in E2. pose proof (proj1 D2 eq_refl) as ->.
      rewrite E2. cbn [fst snd]. cbn [act] in E2.
      destruct (pool_get N dial p1) as [[c|e2|] p2] eqn:E3; [|discriminate|discriminate]. injection E2 as <-. apply get_taken in E3.
      destruct (act_next _ _ _ _ _ _ Co2) as (r3 & x3 & E4 & D3 & Co3 & W3). rewrite W2 in E4. pose proof (proj1 D3 eq_refl) as ->.
      rewrite E4. cbn [fst snd]. cbn [act] in E4.
      destruct (execute_text (record_text s) c) as [r4 c'] eqn:E5. injection E4 as E4 <-. destruct r4 as [y|e3|]; try discriminate.
      assert (T : utf8_text (record_text s) (utf8_encode (record_text s))) by (apply utf8_text_iff; split; [exact Hq|reflexivity]).
      eapply rn_next; eauto.
  Qed.
End world.

Lemma taken_fun : forall N dial p r1 p1, taken N dial p r1 p1 -> forall r2 p2, taken N dial p r2 p2 -> r1 = r2 /\ p1 = p2.
Proof. intros N dial p r1 p1 A r2 p2 B. apply taken_get in A, B. split; congruence. Qed.
Lemma text_fun : forall q b1 b2, utf8_text q b1 -> utf8_text q b2 -> b1 = b2.
Proof. intros q b1 b2 A B. apply utf8_text_iff in A as (_ & <-). apply utf8_text_iff in B as (_ & <-). reflexivity. Qed.

Lemma ran_fun : forall N dial (own : step -> pool -> res error unit -> pool -> Prop),
  (forall s p r1 p1 r2 p2, own s p r1 p1 -> own s p r2 p2 -> r1 = r2 /\ p1 = p2) ->
  forall l p r1 p1, ran N dial own l p r1 p1 -> forall r2 p2, ran N dial own l p r2 p2 -> r1 = r2 /\ p1 = p2.
Proof.
  intros N dial own F l p r1 p1 H.
  induction H as [p|s q l p r p' Ho Hr|s q l p pa e pb Ho Ht|s q l p pa pb Ho Ht|s q l p pa c pb b e c' Ho Ht Hu He|
    s q l p pa c pb b c' Ho Ht Hu He|s q l p pa c pb b x c' r p' Ho Ht Hu He H IH]; intros r2 p2 K;
    inversion K as [|? ? ? ? ? ? Ko Kr|? ? ? ? ka ke kb Ko Kt|? ? ? ? ka kb Ko Kt|? ? ? ? ka kc kb bb ke kc' Ko Kt Ku Ke|
      ? ? ? ? ka kc kb bb kc' Ko Kt Ku Ke|? ? ? ? ka kc kb bb kx kc' ? ? Ko Kt Ku Ke Kn]; subst; auto;
    destruct (F _ _ _ _ _ _ Ho Ko) as (X & Y); try congruence; try (split; congruence); subst;
    try (destruct (taken_fun _ _ _ _ _ Ht _ _ Kt) as (X1 & Y1); try discriminate; try (split; congruence); try (injection X1 as ->); subst);
    try (pose proof (text_fun _ _ _ Hu Ku); subst; rewrite He in Ke; try discriminate; injection Ke; intros; subst; auto).
Qed.
Lemma own_fun : forall ms s p r1 p1 r2 p2, own_of ms s p r1 p1 -> own_of ms s p r2 p2 -> r1 = r2 /\ p1 = p2.
Proof. intros ms s p r1 p1 r2 p2. unfold own_of. destruct s; intros A B; split; congruence. Qed.

Lemma ran_app : forall N dial own l1 p p1, ran N dial own l1 p (Ok tt) p1 -> forall l2 r p2, ran N dial own l2 p1 r p2 ->
  ran N dial own (l1 ++ l2) p r p2.
Proof.
  intros N dial own l1 p p1 H. remember (Ok tt) as k eqn:Ek. induction H; intros l2 r2 p2' K; cbn [app]; try discriminate; [exact K| |].
  - contradiction.
  - eapply rn_next; eauto.
Qed.

Lemma dec_text : forall n, 0 <= n -> str_ok (dec n).
Proof.
  intros n H. unfold dec. generalize (S (Z.to_nat (Z.log2 n))). intros k. revert n H.
  induction k as [|k IH]; intros n H; cbn [dec_digits]; [constructor|].
  destruct (Z.ltb_spec n 10); [repeat constructor; unfold scalar_ok; lia|].
  apply Forall_app. split; [apply IH; apply Z.div_pos; lia|]. pose proof (Z.mod_pos_bound n 10 ltac:(lia)). constructor; [unfold scalar_ok; lia|constructor].
Qed.
Lemma ascii_text : forall s, forallb (fun c => (0 <=? c) && (c <? 128)) s = true -> str_ok s.
Proof.
  intros s H. rewrite forallb_forall in H. apply Forall_forall. intros c Hc. specialize (H c Hc). apply andb_prop in H as (A & B).
  unfold scalar_ok. lia.
Qed.
Lemma record_ok : forall s m, s = Apply m \/ s = Remove m -> version_small (fst m) -> str_ok (snd m) -> str_ok (record_text s).
Proof.
  intros s ((a, b, c), n) H (V0 & V1 & V2) Hn. cbn [fst snd v_0 v_1 v_2] in *. unfold u16 in *.
  destruct H as [-> | ->]; cbn [record_text fst snd]; unfold insert_statement, delete_statement; cbn [v_0 v_1 v_2];
    repeat (apply Forall_app; split); try (apply dec_text; lia); try (apply ascii_text; vm_compute; reflexivity); exact Hn.
Qed.

(** ** The statements of the example *)
Section example.
  Variables (N : nat) (dial : nat -> res error conn) (debug : bool) (f32 f64 : str -> option Z).
  Let ms := example_migrations N dial debug f32 f64.

  Definition example_own (s : step) : str :=
    match s with
    | Apply (_, n) => if list_eqb n (s2l "CreateUser") then create_user else if list_eqb n (s2l "CreateAddress") then create_address else add_query
    | Remove (_, n) => if list_eqb n (s2l "CreateUser") then drop_user else if list_eqb n (s2l "CreateAddress") then drop_address else remove_query
    end.

  Lemma simple_done : forall q c k x c', execute_text q c = (Ok x, c') -> simple_action N dial q (mkPool [c] k) = (Ok tt, mkPool [c'] k).
  Proof.
    intros q c k x c' E. unfold simple_action, with_conn. rewrite iob. unfold iobind at 1. unfold pool_get. cbn [pl_idle pl_made].
    rewrite E. reflexivity.
  Qed.
  Lemma down_done : forall c k x c', execute_text remove_query c = (Ok x, c') ->
    with_conn N dial primary_address_down (mkPool [c] k) = (Ok tt, mkPool [c'] k).
  Proof.
    intros c k x c' E. unfold with_conn. unfold iobind. unfold pool_get. cbn [pl_idle pl_made]. unfold primary_address_down.
    rewrite iob. unfold execute_text in E. rewrite E. reflexivity.
  Qed.
  Lemma own_done : forall s c k x c', s <> Apply primary_added -> (exists m, In m example_records /\ (s = Apply m \/ s = Remove m)) ->
    execute_text (example_own s) c = (Ok x, c') -> own_of ms s (mkPool [c] k) (Ok tt) (mkPool [c'] k).
  Proof.
    intros s c k x c' Hs (m & [<-|[<-|[<-|[]]]] & [-> | ->]) E; try (contradiction Hs; reflexivity).
    - apply (simple_done create_user _ _ x _ E).
    - apply (simple_done drop_user _ _ x _ E).
    - apply (simple_done create_address _ _ x _ E).
    - apply (simple_done drop_address _ _ x _ E).
    - apply (down_done _ _ x _ E).
  Qed.

  Lemma record_taken : forall c k, taken N dial (mkPool [c] k) (Ok c) (mkPool [] k).
  Proof. intros. constructor. Qed.

  Lemma executed_one : forall caps q qs w i c rest, Z.testbit caps DEPRECATE_EOF_BIT = true -> c_caps c = caps ->
    executed caps (q :: qs) w i -> between c (i ++ rest) ->
    exists w1 i1 w2 i2 x c', w = w1 ++ w2 /\ i = i1 ++ i2 /\ executed caps qs w2 i2 /\ execute_text q c = (Ok x, c') /\ utf8_text q (utf8_encode q) /\
      between c' (i2 ++ rest) /\ c_data c' = c_data c /\ s_out (c_stream c') = s_out (c_stream c) ++ w1.
  Proof.
    intros caps q qs w i c rest D C H B. inversion H as [|? b ? rows id status warnings msg st w1 i1 w2 i2 U (qn & pk & q' & X1 & X2 & X3) K]; subst.
    rewrite <- app_assoc in B. destruct (execute_done c b rows id status warnings msg st w1 qn pk i1 q' _ D X1 X2 X3 B) as (x & c' & E & B' & Dt & O).
    apply utf8_text_iff in U as (S & <-). exists w1, i1, w2, i2, x, c'. splits; auto. apply utf8_text_iff. auto.
  Qed.

  (** Steps of simple migrations with one connection. *)
  Lemma simple_steps : forall caps k ss, Z.testbit caps DEPRECATE_EOF_BIT = true ->
    Forall (fun s => s <> Apply primary_added /\ exists m, In m example_records /\ (s = Apply m \/ s = Remove m)) ss ->
    forall w i c rest, c_caps c = caps -> executed caps (flat_map (fun s => [example_own s; record_text s]) ss) w i -> between c (i ++ rest) ->
    exists c', ran N dial (own_of ms) (combine ss (map record_text ss)) (mkPool [c] k) (Ok tt) (mkPool [c'] k) /\
      between c' rest /\ c_data c' = c_data c /\ s_out (c_stream c') = s_out (c_stream c) ++ w.
  Proof.
    intros caps k ss D H. induction H as [|s ss (Hs & Hm) H IH]; intros w i c rest C E B; cbn [flat_map app] in E.
    - inversion E; subst. exists c. rewrite app_nil_r. splits; auto. constructor.
    - destruct (executed_one _ _ _ _ _ _ _ D C E B) as (w1 & i1 & w2 & i2 & x1 & c1 & -> & -> & E1 & X1 & _ & B1 & D1 & O1).
      assert (C1 : c_caps c1 = caps) by (unfold c_caps in *; now rewrite D1).
      destruct (executed_one _ _ _ _ _ _ _ D C1 E1 B1) as (w3 & i3 & w4 & i4 & x2 & c2 & -> & -> & E2 & X2 & U2 & B2 & D2 & O2).
      assert (C2 : c_caps c2 = caps) by (unfold c_caps in *; now rewrite D2).
      destruct (IH _ _ _ _ C2 E2 B2) as (c3 & R & B3 & D3 & O3). exists c3. splits; [|exact B3|congruence|].
      + cbn [map combine]. eapply rn_next; [eapply own_done; eauto|apply record_taken|exact U2|exact X2|exact R].
      + rewrite O3, O2, O1, <- !app_assoc. reflexivity.
  Qed.
End example.

(** ** Connections are returned *)

Lemma in_use_put : forall dial c p, in_use dial (pool_put c p) = in_use dial p - 1.
Proof. intros dial c p. unfold in_use, pool_put. cbn [pl_made pl_idle]. rewrite app_length. cbn [length]. lia. Qed.

Lemma in_use_get : forall N dial p, in_use dial (snd (pool_get N dial p)) =
  match fst (pool_get N dial p) with Ok _ => in_use dial p + 1 | _ => in_use dial p end.
Proof.
  intros N dial [[|c idle] k]; unfold pool_get; cbn [pl_idle pl_made].
  - destruct (Nat.ltb_spec k N); [|reflexivity]. cbn [fst snd]. unfold in_use. cbn [pl_made pl_idle length].
    rewrite seq_S, filter_app, app_length. cbn [Nat.add filter].
    destruct (dial k); cbn [length]; lia.
  - cbn [fst snd]. unfold in_use. cbn [pl_made pl_idle length]. lia.
Qed.

Lemma in_use_with : forall A N dial (f : IO conn A) p, in_use dial (snd (with_conn N dial f p)) = in_use dial p.
Proof.
  intros A N dial f p. unfold with_conn. rewrite iob. pose proof (in_use_get N dial p) as H.
  destruct (pool_get N dial p) as [[c|e|] p1]; cbn [fst snd] in *; auto.
  destruct (f c) as [r c']. cbn [snd]. rewrite in_use_put. lia.
Qed.

Lemma in_use_primary : forall N dial debug f32 f64 p, in_use dial (snd (primary_address_on N dial debug f32 f64 p)) = in_use dial p.
Proof.
  intros N dial debug f32 f64 p. unfold primary_address_on. pose proof (in_use_get N dial p) as H.
  destruct (pool_get N dial p) as [[c1|e|] p1]; cbn [fst snd] in *; auto.
  destruct (execute_query (utf8_encode add_query) c1) as [[x|e|] c1']; cbn [snd]; rewrite ?in_use_put; try lia.
  pose proof (in_use_get N dial p1) as H1.
  destruct (pool_get N dial p1) as [[c2|e|] p2]; cbn [fst snd] in *; rewrite ?in_use_put; try lia.
  pose proof (in_use_get N dial p2) as H2.
  destruct (pool_get N dial p2) as [[c3|e|] p3]; cbn [fst snd] in *; rewrite ?in_use_put; try lia.
  destruct (primary_address_rest debug f32 f64 (c1', c2, c3)) as [r [[d1 d2] d3]]. cbn [snd]. rewrite !in_use_put. lia.
Qed.

Lemma in_use_example : forall N dial debug f32 f64 m p,
  in_use dial (snd (mg_up (example_migrations N dial debug f32 f64) m p)) = in_use dial p /\
  in_use dial (snd (mg_down (example_migrations N dial debug f32 f64) m p)) = in_use dial p.
Proof.
  assert (S : forall N dial q p, in_use dial (snd (simple_action N dial q p)) = in_use dial p).
  { intros N dial q p. unfold simple_action. rewrite iob. pose proof (in_use_with _ N dial (execute_text q) p) as H.
    destruct (with_conn N dial (execute_text q) p) as [[x|e|] p1]; exact H. }
  intros N dial debug f32 f64 [v n] p. unfold example_migrations. cbn [mg_up mg_down].
  destruct (list_eqb n (s2l "CreateUser")); [split; apply S|].
  destruct (list_eqb n (s2l "CreateAddress")); [split; apply S|]. split; [apply in_use_primary | apply in_use_with].
Qed.

Lemma in_use_ran : forall N dial (own : step -> pool -> res error unit -> pool -> Prop), (forall s p r p', own s p r p' -> in_use dial p' = in_use dial p) ->
  forall l p r p', ran N dial own l p r p' -> in_use dial p' = in_use dial p.
Proof.
  intros N dial own Ho.
  assert (T : forall p x p1, taken N dial p x p1 -> in_use dial p1 = match x with Ok _ => in_use dial p + 1 | _ => in_use dial p end).
  { intros p x p1 T. apply taken_get in T. pose proof (in_use_get N dial p) as H. rewrite T in H. exact H. }
  induction 1;
    repeat match goal with H : own _ _ _ _ |- _ => apply Ho in H | H : taken _ _ _ _ _ |- _ => apply T in H end;
    change returned with pool_put in *; rewrite ?in_use_put in *; lia.
Qed.
