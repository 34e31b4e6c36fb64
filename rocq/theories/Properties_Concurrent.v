(** Property C99: several migrators at work on one table. *)
From Coq Require Import String ZArith List Bool Lia.
From Verif Require Import Base BaseFacts Types Framing ValueText Conversion Spec_Wire Spec_Stmt Spec_Text Spec_Conv
  Escape_proofs Packets_proofs Migrator Spec_Migrate Migrator_proofs Properties_Migrate Spec_Concurrent.
Import ListNotations.
Open Scope Z_scope.

(** A migrator is opened while the table holds [t]; then its upward run to [target] does [h]
    and ends with [r]. *)
Definition upward_run (debug : bool) (lists : list migration_list) (target : option version)
    (t : list migration_record) (r : res error unit) (h : list event) : Prop :=
  exists get ex create cols rows a w a', NoDup t /\ select_answer t cols rows /\
    migrator_new debug lists get ex create (Ok (cols, rows, None)) = Ok a /\
    up_to_version w target lists (a, []) = (r, (a', h)).

(** Upward runs one after the other, each opened on the table the ones before left. *)
Inductive in_turn (bs : bool) (coll : list Z -> list Z -> bool) (debug : bool) (lists : list migration_list) :
    list migration_record -> list (list event) -> list migration_record -> Prop :=
| it_end : forall t, in_turn bs coll debug lists t [] t
| it_run : forall target t h t1 hs t2, upward_run debug lists target t (Ok tt) h -> table_after bs coll t h t1 ->
    in_turn bs coll debug lists t1 hs t2 -> in_turn bs coll debug lists t (h :: hs) t2.

Lemma run_facts : forall coll debug lists target t r h, (forall n, coll n n = true) -> storable coll (listed lists) ->
  upward_run debug lists target t r h ->
  exists plan d, NoDup t /\ incl t (listed lists) /\ up_plan lists target t plan /\ up_run plan h d r /\ fits coll t plan.
Proof.
  intros coll debug lists target t r h R S (get & ex & create & cols & rows & a & w & a' & N & Sel & New & E).
  destruct (new_opens _ _ _ _ _ _ _ _ _ N Sel New) as (Rep & _ & I).
  destruct (up_facts _ _ _ _ _ _ _ _ _ _ R S N I Rep E) as (plan & tr & d & H & P & U & Rep' & F).
  cbn [app] in H. subst h. exists plan, d. splits; auto.
Qed.

Lemma insert_statement_inj : forall v n v' n', entry_ok (v, n) -> entry_ok (v', n') ->
  insert_statement v n = insert_statement v' n' -> (v, n) = (v', n').
Proof.
  intros v n v' n' (P & V) (P' & V') E. cbn [fst snd] in *. eapply (says_insert_unique true).
  - apply says_insert_self; eassumption.
  - rewrite E. apply says_insert_self; assumption.
Qed.

(** Every statement of an upward run inserts the migration it has just executed. *)
Lemma run_statements : forall plan h d r, up_run plan h d r -> forall p q s o, h = p ++ (Exec s, o) :: q ->
  exists v n, s = insert_statement v n /\ In (v, n) plan /\ In (Up v n, Done) p.
Proof.
  intros plan h d r U. induction U; intros p0 q s o E.
  - destruct p0; discriminate.
  - destruct p0 as [|? [|? ?]]; discriminate.
  - destruct p0 as [|? [|? [|? ?]]]; discriminate.
  - destruct p0 as [|x1 [|x2 [|x3 [|? ?]]]]; try discriminate. injection E as <- <- <- _ _.
    exists v, n. splits; auto; left; reflexivity.
  - destruct p0 as [|x1 [|x2 [|x3 p0]]]; try discriminate.
    + injection E as <- <- <- _ _. exists v, n. splits; auto; left; reflexivity.
    + injection E as <- <- <- E. destruct (IHU _ _ _ _ E) as (v' & n' & A & B & C).
      exists v', n'. splits; auto; right; auto. right. right. assumption.
Qed.

Lemma run_all_inserted : forall plan h d r, up_run plan h d r -> r = Ok tt -> forall v n, In (v, n) plan ->
  In (Exec (insert_statement v n), Done) h.
Proof.
  intros plan h d r U. induction U; intros E w m K; try discriminate; [destruct K|].
  destruct K as [K|K].
  - injection K as -> ->. right. right. left. reflexivity.
  - right. right. right. auto.
Qed.

Lemma nth_mid : forall A (l r : list A) x y i, nth_error (l ++ x :: r) i = Some y ->
  (i = length l /\ y = x) \/ (i <> length l /\ forall x', nth_error (l ++ x' :: r) i = Some y).
Proof.
  intros A l r x y i E. destruct (Nat.eq_dec i (length l)) as [->|D].
  - left. rewrite nth_error_app2 in E by lia. replace (length l - length l)%nat with O in E by lia. cbn in E.
    injection E as ->. auto.
  - right. split; auto. intros x'. destruct (Nat.lt_ge_cases i (length l)) as [K|K].
    + rewrite nth_error_app1 in E |- * by assumption. assumption.
    + rewrite nth_error_app2 in E |- * by assumption. destruct (i - length l)%nat eqn:M; [lia|]. exact E.
Qed.

(** An event of the whole belongs to one run, after what that run did before. *)
Lemma interleaved_split : forall hs all, interleaved hs all -> forall p ev q, all = p ++ ev :: q ->
  exists i h p' q', nth_error hs i = Some h /\ h = p' ++ ev :: q' /\ incl p' p.
Proof.
  induction 1 as [hs F|before e h after all I IH]; intros p ev q E; [destruct p; discriminate|].
  destruct p as [|x p].
  - injection E as -> E. exists (length before), (ev :: h), [], h. splits; auto.
    + rewrite nth_error_app2 by lia. replace (length before - length before)%nat with O by lia. reflexivity.
    + intros y [].
  - injection E as -> E. destruct (IH _ _ _ E) as (i & g & p' & q' & A & B & C).
    apply nth_mid in A. destruct A as [(-> & ->)|(D & A)].
    + exists (length before), (x :: h), (x :: p'), q'. splits.
      * rewrite nth_error_app2 by lia. replace (length before - length before)%nat with O by lia. reflexivity.
      * rewrite B. reflexivity.
      * intros y [->|K]; [left; reflexivity|right; auto].
    + exists i, g, p', q'. splits; auto. intros y K. right. auto.
Qed.

Lemma interleaved_in : forall hs all, interleaved hs all -> forall i h ev, nth_error hs i = Some h -> In ev h -> In ev all.
Proof.
  induction 1 as [hs F|before e h after all I IH]; intros i g ev E K.
  - rewrite Forall_forall in F. apply nth_error_In in E. rewrite (F _ E) in K. destruct K.
  - apply nth_mid in E. destruct E as [(-> & ->)|(D & A)].
    + destruct K as [->|K]; [left; reflexivity|]. right. apply (IH (length before) h); auto.
      rewrite nth_error_app2 by lia. replace (length before - length before)%nat with O by lia. reflexivity.
    + right. eapply IH; eauto.
Qed.

(** What two of the runs do happens twice. *)
Lemma interleaved_twice : forall hs all, interleaved hs all -> forall i j h g ev, i <> j ->
  nth_error hs i = Some h -> nth_error hs j = Some g -> In ev h -> In ev g ->
  exists a b c, all = a ++ ev :: b ++ ev :: c.
Proof.
  induction 1 as [hs F|before e h after all I IH]; intros i j g1 g2 ev D E1 E2 K1 K2.
  - rewrite Forall_forall in F. apply nth_error_In in E1. rewrite (F _ E1) in K1. destruct K1.
  - assert (X : forall x', nth_error (before ++ x' :: after) (length before) = Some x').
    { intros x'. rewrite nth_error_app2 by lia. replace (length before - length before)%nat with O by lia. reflexivity. }
    assert (Y : forall k g, nth_error (before ++ h :: after) k = Some g -> In ev g ->
      e = ev -> exists a b c, e :: all = a ++ ev :: b ++ ev :: c).
    { intros k g A B ->. pose proof (interleaved_in _ _ I _ _ _ A B) as Q. apply in_split in Q.
      destruct Q as (b & c & ->). exists [], b, c. reflexivity. }
    assert (Z : forall a b c, all = a ++ ev :: b ++ ev :: c -> exists a b c, e :: all = a ++ ev :: b ++ ev :: c).
    { intros a b c ->. exists (e :: a), b, c. reflexivity. }
    apply nth_mid in E1. apply nth_mid in E2.
    destruct E1 as [(-> & ->)|(D1 & A1)]; destruct E2 as [(-> & ->)|(D2 & A2)]; try congruence.
    + destruct K1 as [->|K1]; [eapply Y; eauto|].
      destruct (IH _ _ _ _ _ D (X h) (A2 h) K1 K2) as (a & b & c & Q). eauto.
    + destruct K2 as [->|K2]; [eapply Y; eauto|].
      destruct (IH _ _ _ _ _ D (A1 h) (X h) K1 K2) as (a & b & c & Q). eauto.
    + destruct (IH _ _ _ _ _ D (A1 h) (A2 h) K1 K2) as (a & b & c & Q). eauto.
Qed.

Section Server.
  Variable bs : bool.
  Variable coll : list Z -> list Z -> bool.
  Hypothesis coll_refl : forall n, coll n n = true.

  (** All statements of the history insert records that can be stored. *)
  Definition inserts_only (h : list event) : Prop :=
    forall s o, In (Exec s, o) h -> exists v n, s = insert_statement v n /\ entry_ok (v, n).

  Lemma inserts_app : forall h g, inserts_only (h ++ g) -> inserts_only h /\ inserts_only g.
  Proof. intros h g I. split; intros s o K; apply (I s o); apply in_app_iff; auto. Qed.

  Lemma table_grows : forall t h t', table_after bs coll t h t' -> inserts_only h -> NoDup t ->
    exists d, t' = t ++ d /\ NoDup t' /\ forall v n, In (v, n) d -> entry_ok (v, n) /\ exists o, In (Exec (insert_statement v n), o) h.
  Proof.
    assert (G : forall t q t' h t'' o, effect bs coll q t t' -> NoDup t ->
      inserts_only ((Exec q, o) :: h) ->
      (inserts_only h -> NoDup t' -> exists d, t'' = t' ++ d /\ NoDup t'' /\
         forall v n, In (v, n) d -> entry_ok (v, n) /\ exists o, In (Exec (insert_statement v n), o) h) ->
      exists d, t'' = t ++ d /\ NoDup t'' /\ forall v n, In (v, n) d -> entry_ok (v, n) /\ exists o', In (Exec (insert_statement v n), o') ((Exec q, o) :: h)).
    { intros t q t' h t'' o E N I IH. destruct (I q o (or_introl eq_refl)) as (v & n & -> & Ok1).
      apply (effect_insert_iff bs coll) in E; auto. destruct E as (-> & F).
      destruct IH as (d & A & B & C).
      - intros s o' K. apply (I s o'). right. assumption.
      - apply nodup_app; auto; [constructor; [intros []|constructor]|]. intros x Hx [<-|[]].
        rewrite Forall_forall in F. apply (F _ Hx). split; auto.
      - exists ((v, n) :: d). rewrite <- app_assoc in A. splits; auto. intros v' n' [K|K].
        + injection K as <- <-. split; auto. exists o. left. reflexivity.
        + destruct (C _ _ K) as (Ok2 & o' & Q). split; auto. exists o'. right. assumption. }
    assert (L : forall (e : event) h, inserts_only (e :: h) -> inserts_only h).
    { intros e h I s o K. apply (I s o). right. assumption. }
    induction 1; intros I N; eauto.
    - exists []. rewrite app_nil_r. splits; auto. intros v n [].
    - destruct (IHtable_after (L _ _ I) N) as (d & A & B & C). exists d. splits; auto.
      intros v n K. destruct (C _ _ K) as (Ok2 & o & Q). split; auto. exists o. right. assumption.
    - destruct (IHtable_after (L _ _ I) N) as (d & A & B & C). exists d. splits; auto.
      intros v n K. destruct (C _ _ K) as (Ok2 & o' & Q). split; auto. exists o'. right. assumption.
  Qed.

  Lemma table_split : forall t p q t', table_after bs coll t (p ++ q) t' ->
    exists t1, table_after bs coll t p t1 /\ table_after bs coll t1 q t'.
  Proof.
    intros t p q t'. revert t. induction p as [|ev p IH]; intros t T; cbn [app] in T; [exists t; split; [constructor|assumption]|].
    inversion T; subst; match goal with K : table_after _ _ _ (p ++ q) _ |- _ => apply IH in K; destruct K as (t1 & K1 & K2) end;
      exists t1; (split; [|assumption]).
    - eapply ta_done; eassumption.
    - eapply ta_lost; eassumption.
    - apply ta_failed; assumption.
    - apply ta_other; assumption.
  Qed.

  Lemma table_join : forall t p q t1 t', table_after bs coll t p t1 -> table_after bs coll t1 q t' ->
    table_after bs coll t (p ++ q) t'.
  Proof.
    intros t p q t1 t' T1 T2. induction T1; cbn [app]; auto.
    - eapply ta_done; eauto.
    - eapply ta_lost; eauto.
    - apply ta_failed; auto.
    - apply ta_other; auto.
  Qed.

  (** No record is inserted twice. *)
  Lemma insert_once : forall t a v n b c t', entry_ok (v, n) -> NoDup t ->
    inserts_only (a ++ (Exec (insert_statement v n), Done) :: b ++ (Exec (insert_statement v n), Done) :: c) ->
    ~ table_after bs coll t (a ++ (Exec (insert_statement v n), Done) :: b ++ (Exec (insert_statement v n), Done) :: c) t'.
  Proof.
    intros t a v n b c t' O N I T. apply table_split in T. destruct T as (t1 & T1 & T).
    apply table_exec in T. destruct T as (t2 & E & T). apply (effect_insert_iff bs coll) in E; auto. destruct E as (-> & F).
    apply table_split in T. destruct T as (t3 & T3 & T). apply table_exec in T. destruct T as (t4 & E & T).
    apply (effect_insert_iff bs coll) in E; auto. destruct E as (-> & F').
    apply inserts_app in I. destruct I as (Ia & I).
    change ((Exec (insert_statement v n), Done) :: b ++ (Exec (insert_statement v n), Done) :: c)
      with ([(Exec (insert_statement v n), Done)] ++ b ++ (Exec (insert_statement v n), Done) :: c) in I.
    apply inserts_app in I. destruct I as (_ & I). apply inserts_app in I. destruct I as (Ib & _).
    destruct (table_grows _ _ _ T1 Ia N) as (d & -> & N1 & _).
    assert (N2 : NoDup ((t ++ d) ++ [(v, n)])).
    { apply nodup_app; auto; [constructor; [intros []|constructor]|]. intros x Hx [<-|[]].
      rewrite Forall_forall in F. apply (F _ Hx). split; auto. }
    destruct (table_grows _ _ _ T3 Ib N2) as (d' & -> & _ & _).
    rewrite Forall_forall in F'. apply (F' (v, n)); [|split; auto]. rewrite !in_app_iff. left. right. left. reflexivity.
  Qed.
End Server.

Lemma runs_insert_only : forall coll debug lists hs all, (forall n, coll n n = true) -> storable coll (listed lists) ->
  (forall i h, nth_error hs i = Some h -> exists target t0 r q, upward_run debug lists target t0 r (h ++ q)) ->
  interleaved hs all -> inserts_only all.
Proof.
  intros coll debug lists hs all R S F I s o K. apply in_split in K. destruct K as (p & q & E).
  destruct (interleaved_split _ _ I _ _ _ E) as (i & h & p' & q' & A & B & C).
  destruct (F _ _ A) as (target & t0 & r & q0 & U). destruct (run_facts _ _ _ _ _ _ _ R S U) as (plan & d & _ & _ & P & V & Fit).
  subst h. rewrite <- app_assoc in V. cbn [app] in V. destruct (run_statements _ _ _ _ V _ _ _ _ eq_refl) as (v & n & -> & Q & _).
  exists v, n. split; auto. destruct Fit as (Fp & _). rewrite Forall_forall in Fp. apply Fp. assumption.
Qed.

(** C99: any number of upward runs at the same time, each opened on any table, each stopped
    anywhere: the table keeps its records, no record appears twice, and only migrations that
    some run executed successfully are added.  Same guard as C59. *)
Theorem C99_recorded_partial : forall bs coll debug lists hs all t t',
  (forall n, coll n n = true) -> storable coll (listed lists) -> NoDup t ->
  (forall i h, nth_error hs i = Some h -> exists target t0 r q, upward_run debug lists target t0 r (h ++ q)) ->
  interleaved hs all -> table_after bs coll t all t' ->
  exists d, t' = t ++ d /\ NoDup t' /\ incl d (listed lists) /\
    forall v n, In (v, n) d -> exists i h, nth_error hs i = Some h /\ In (Up v n, Done) h.
Proof.
  intros bs coll debug lists hs all t t' R S N F I T.
  pose proof (runs_insert_only _ _ _ _ _ R S F I) as O.
  destruct (table_grows bs coll R _ _ _ T O N) as (d & -> & N' & D). exists d.
  assert (X : forall v n, In (v, n) d -> In (v, n) (listed lists) /\ exists i h, nth_error hs i = Some h /\ In (Up v n, Done) h).
  { intros v n K. destruct (D _ _ K) as (Ev & o & Q). apply in_split in Q. destruct Q as (p & q & E).
    destruct (interleaved_split _ _ I _ _ _ E) as (i & h & p' & q' & A & B & C).
    destruct (F _ _ A) as (target & t0 & r & q0 & U). destruct (run_facts _ _ _ _ _ _ _ R S U) as (plan & d0 & _ & _ & P & V & Fit).
    subst h. rewrite <- app_assoc in V. cbn [app] in V.
    destruct (run_statements _ _ _ _ V _ _ _ _ eq_refl) as (v2 & n2 & E2 & Q2 & U2).
    assert (Z : (v, n) = (v2, n2)).
    { apply insert_statement_inj; auto. destruct Fit as (Fp & _). rewrite Forall_forall in Fp. apply Fp. assumption. }
     injection Z as <- <-.
    split; [apply (sublist_in _ _ _ _ P) in Q2; tauto|].
    exists i, (p' ++ (Exec (insert_statement v n), o) :: q'). split; auto. apply in_app_iff. auto. }
  splits; auto.
  - intros (v, n) K. apply (X v n K).
  - intros v n K. apply (X v n K).
Qed.
Print Assumptions C99_recorded_partial.

(** No two runs that both had a migration to do succeed: the later record is refused.  So of
    the runs opened before any of them recorded anything at most one reports success. *)
Theorem C99_one_succeeds_partial : forall bs coll debug lists hs all t t' i j h1 h2 target1 target2 t1 t2 m,
  (forall n, coll n n = true) -> storable coll (listed lists) -> NoDup t ->
  (forall i h, nth_error hs i = Some h -> exists target t0 r q, upward_run debug lists target t0 r (h ++ q)) ->
  interleaved hs all -> table_after bs coll t all t' ->
  i <> j -> nth_error hs i = Some h1 -> nth_error hs j = Some h2 ->
  upward_run debug lists target1 t1 (Ok tt) h1 -> upward_run debug lists target2 t2 (Ok tt) h2 ->
  In m (listed lists) -> within target1 m -> within target2 m -> In m t1 \/ In m t2.
Proof.
  intros bs coll debug lists hs all t t' i j h1 h2 target1 target2 t1 t2 (v, n) R S N F I T D E1 E2 U1 U2 L W1 W2.
  pose proof (runs_insert_only _ _ _ _ _ R S F I) as O.
  destruct (run_facts _ _ _ _ _ _ _ R S U1) as (p1 & d1 & _ & _ & P1 & V1 & F1).
  destruct (run_facts _ _ _ _ _ _ _ R S U2) as (p2 & d2 & _ & _ & P2 & V2 & F2).
  destruct (in_classic (v, n) t1) as [K1|K1]; auto. destruct (in_classic (v, n) t2) as [K2|K2]; auto. exfalso.
  assert (Q1 : In (v, n) p1) by (apply (sublist_in _ _ _ _ P1); auto).
  assert (Q2 : In (v, n) p2) by (apply (sublist_in _ _ _ _ P2); auto).
  destruct (interleaved_twice _ _ I _ _ _ _ _ D E1 E2 (run_all_inserted _ _ _ _ V1 eq_refl _ _ Q1)
    (run_all_inserted _ _ _ _ V2 eq_refl _ _ Q2)) as (a & b & c & ->).
  eapply (insert_once bs coll R); [|exact N|exact O|exact T]. apply (storable_ok coll _ S _ L).
Qed.
Print Assumptions C99_one_succeeds_partial.

(** One after the other they execute every migration at most once. *)
Theorem C99_in_turn_partial : forall bs coll debug lists hs t t',
  (forall n, coll n n = true) -> storable coll (listed lists) -> NoDup t ->
  in_turn bs coll debug lists t hs t' -> t' = t ++ flat_map started hs /\ NoDup t'.
Proof.
  intros bs coll debug lists hs t t' R S N IT. induction IT as [t|target t h t1 hs t2 U T IT IH].
  - cbn [flat_map]. rewrite app_nil_r. auto.
  - destruct (run_facts _ _ _ _ _ _ _ R S U) as (plan & d & _ & _ & P & V & F).
    destruct (up_complete bs coll _ _ _ _ V eq_refl _ F) as (-> & A & B & C & D).
    apply C in T. subst t1. destruct IH as (-> & X).
    + apply F.
    + cbn [flat_map]. rewrite A. split; auto. rewrite app_assoc. reflexivity.
Qed.
Print Assumptions C99_in_turn_partial.

(** The server refuses a record that is there. *)
Definition duplicate_entry : error := EServer (ErrError 1062 (Some (s2l "23000")) (s2l "Duplicate entry")).

(** The run of one migrator on the empty table when the insert ends with [o]. *)
Definition ran (o : outcome) : list event :=
  [(Up v1 (s2l "users"), Done); (Get, Done); (Exec (insert_statement v1 (s2l "users")), o)].

Lemma ran_case : forall o,
  upward_run true [mkMigrations v1 [s2l "users"]] None [] (match o with Done => Ok tt | Failed e _ => Err e end) (ran o).
Proof.
  intros o. exists (Ok tt), (Ok ([], [[]], None)), (Ok tt).
  exists [mkColumn (s2l "version_0") [] [] [] CShort 0; mkColumn (s2l "version_1") [] [] [] CShort 0;
          mkColumn (s2l "version_2") [] [] [] CShort 0; mkColumn (s2l "name") [] [] [] CVarString 0], [], [].
  exists (fun _ a => match a with Exec _ => o | _ => Done end). eexists. splits.
  - constructor.
  - split; [reflexivity|constructor].
  - vm_compute. reflexivity.
  - destruct o; vm_compute; reflexivity.
Qed.

(** At the same time they do not: nothing keeps a second migrator from executing a migration
    before the first has recorded it.  Both execute it; the second fails only when it records
    it, with the server refusing the record. *)
Theorem C99_once_refuted : exists lists e h1 h2 all t',
  storable list_eqb (listed lists) /\
  upward_run true lists None [] (Ok tt) h1 /\ upward_run true lists None [] (Err e) h2 /\
  interleaved [h1; h2] all /\ table_after true list_eqb [] all t' /\ t' = [(v1, s2l "users")] /\
  started all = [(v1, s2l "users"); (v1, s2l "users")] /\
  forall t t'' q, In (v1, s2l "users") t -> says_insert true q (v1, s2l "users") -> ~ effect true list_eqb q t t''.
Proof.
  exists [mkMigrations v1 [s2l "users"]], duplicate_entry, (ran Done), (ran (Failed duplicate_entry false)).
  eexists _, [(v1, s2l "users")].
  splits.
  - split; [|repeat constructor]. constructor; [|constructor]. split.
    + apply plain_without; [cbn; lia | |]; vm_compute; intuition discriminate.
    + unfold version_small, u16. cbn. splits; lia.
  - exact (ran_case Done).
  - exact (ran_case (Failed duplicate_entry false)).
  - apply (il_step [] _ _ [_]). apply (il_step [_] _ _ []). apply (il_step [] _ _ [_]). apply (il_step [] _ _ [_]).
    apply (il_step [_] _ _ []). apply (il_step [_] _ _ []). apply il_end. repeat constructor.
  - repeat (apply ta_other; [discriminate|]). eapply ta_done.
    + apply (effect_insert_iff true list_eqb).
      * split; [cbn [snd]; apply plain_without; [cbn; lia | |]; vm_compute; intuition discriminate|].
        unfold version_small, u16. cbn. splits; lia.
      * split; [reflexivity|constructor].
    + repeat (apply ta_other; [discriminate|]). apply ta_failed. apply ta_nil.
  - reflexivity.
  - reflexivity.
  - intros t t'' q K Q E. inversion E; subst.
    + match goal with H : says_insert _ _ ?r |- _ =>
        lazymatch r with (v1, _) => fail | _ => pose proof (says_insert_unique _ _ _ _ Q H) as Z end end. subst r.
      match goal with H : Forall _ t |- _ => rewrite Forall_forall in H; apply (H _ K); split; [reflexivity|] end.
      apply list_eqb_refl.
    + eapply says_not_both; eassumption.
Qed.
Print Assumptions C99_once_refuted.

(** Two successful runs in turn, opened on a table with one record: the first to version 1.0.0
    executes one migration, the second the other three.  Seen as runs at the same time, with a
    third that has done nothing yet, they meet the hypotheses of the theorems above. *)
Definition two_rows : list (list value) :=
  [[VUShort 1; VUShort 0; VUShort 0; VBytes (s2l "users")]; [VUShort 1; VUShort 0; VUShort 0; VBytes (s2l "groups")]].
Definition second_table : list migration_record := [(v1, s2l "users"); (v1, s2l "groups")].
Lemma second_answer : select_answer second_table migration_columns two_rows.
Proof.
  split; [reflexivity|]. repeat constructor; (eexists; split; [reflexivity|]);
    cbn [snd]; apply Conversion_proofs.utf8_text_iff; (split; [|reflexivity]); cbv [s2l]; repeat constructor; cbn; lia.
Qed.

Lemma interleaved_concat : forall h1 h2, interleaved [h1; []; h2] (h1 ++ h2).
Proof.
  induction h1 as [|e h1 IH]; intros h2; cbn [app].
  - induction h2 as [|e h2 IH].
    + apply il_end. repeat constructor.
    + apply (il_step [[]; []] e h2 []). exact IH.
  - apply (il_step [] e h1 [[]; h2]). apply IH.
Qed.

Example C99_case : exists h1 h2 t2,
  upward_run true some_lists (Some v1) some_table (Ok tt) h1 /\ table_after true list_eqb some_table h1 second_table /\
  upward_run true some_lists None second_table (Ok tt) h2 /\ table_after true list_eqb second_table h2 t2 /\
  started h1 = [(v1, s2l "groups")] /\ started h2 = [(v1_1, s2l "users"); (v2, s2l "logs"); (v2, s2l "index")] /\
  in_turn true list_eqb true some_lists some_table [h1; h2] t2 /\
  interleaved [h1; []; h2] (h1 ++ h2) /\ table_after true list_eqb some_table (h1 ++ h2) t2.
Proof.
  assert (U1 : exists h1, upward_run true some_lists (Some v1) some_table (Ok tt) h1 /\ started h1 = [(v1, s2l "groups")]).
  { eexists. split.
    - exists (Ok tt), (Ok ([], [[VLong 1]], None)), (Ok tt), migration_columns, some_rows, some_applied, (fun _ _ => Done).
      eexists. splits; [repeat constructor; intros []|exact some_answer|vm_compute; reflexivity|vm_compute; reflexivity].
    - reflexivity. }
  assert (U2 : exists h2, upward_run true some_lists None second_table (Ok tt) h2 /\
      started h2 = [(v1_1, s2l "users"); (v2, s2l "logs"); (v2, s2l "index")]).
  { eexists. split.
    - exists (Ok tt), (Ok ([], [[VLong 1]], None)), (Ok tt), migration_columns, two_rows.
      eexists _, (fun _ _ => Done), _.
      splits; [|exact second_answer|vm_compute; reflexivity|vm_compute; reflexivity].
      repeat constructor; cbn; intuition discriminate.
    - reflexivity. }
  destruct U1 as (h1 & U1 & S1). destruct U2 as (h2 & U2 & S2).
  pose proof (fun n => list_eqb_refl n) as R.
  assert (T : forall target t h, upward_run true some_lists target t (Ok tt) h ->
    table_after true list_eqb t h (t ++ started h)).
  { intros target t h U. destruct (run_facts list_eqb _ _ _ _ _ _ R some_storable U) as (plan & d & _ & _ & P & V & F).
    destruct (up_complete true list_eqb _ _ _ _ V eq_refl _ F) as (-> & A & B & C & D). rewrite A. apply C. reflexivity. }
  pose proof (T _ _ _ U1) as T1. pose proof (T _ _ _ U2) as T2. rewrite S1 in T1.
  change (some_table ++ [(v1, s2l "groups")]) with second_table in T1.
  exists h1, h2, (second_table ++ started h2). splits; auto.
  - econstructor; [exact U1|exact T1|]. econstructor; [exact U2|exact T2|constructor].
  - apply interleaved_concat.
  - eapply table_join; eassumption.
Qed.
