(** Property C108: migrators going up and down, in turn and at the same time. *)
From Coq Require Import String ZArith List Bool Lia.
From Verif Require Import Base BaseFacts Types Framing ValueText Conversion Spec_Wire Spec_Stmt Spec_Text Spec_Conv
  Escape_proofs Packets_proofs Migrator Spec_Migrate Migrator_proofs Properties_Migrate Spec_Concurrent Properties_Concurrent.
Import ListNotations.
Open Scope Z_scope.

(** A migrator is opened while the table holds [t]; then its downward run to [target] does [h]
    and ends with [r]. *)
Definition downward_run (debug : bool) (lists : list migration_list) (target : version)
    (t : list migration_record) (r : res error unit) (h : list event) : Prop :=
  exists get ex create cols rows a w a', NoDup t /\ select_answer t cols rows /\
    migrator_new debug lists get ex create (Ok (cols, rows, None)) = Ok a /\
    down_to_version w target lists (a, []) = (r, (a', h)).

(** A run in either direction. *)
Definition either_run (debug : bool) (lists : list migration_list) (t : list migration_record) (r : res error unit)
    (h : list event) : Prop :=
  (exists target, upward_run debug lists target t r h) \/ (exists target, downward_run debug lists target t r h).

(** Runs one after the other, each opened on the table the ones before left. *)
Inductive by_turns (bs : bool) (coll : list Z -> list Z -> bool) (debug : bool) (lists : list migration_list) :
    list migration_record -> list event -> list migration_record -> Prop :=
| bt_end : forall t, by_turns bs coll debug lists t [] t
| bt_run : forall t h t1 all t2, either_run debug lists t (Ok tt) h -> table_after bs coll t h t1 ->
    by_turns bs coll debug lists t1 all t2 -> by_turns bs coll debug lists t (h ++ all) t2.

Lemma drun_facts : forall coll debug lists target t r h, (forall n, coll n n = true) -> storable coll (listed lists) ->
  downward_run debug lists target t r h ->
  exists plan d, NoDup t /\ incl t (listed lists) /\ down_plan lists target t plan /\ down_run plan h d r /\ fits_down coll t plan.
Proof.
  intros coll debug lists target t r h R S (get & ex & create & cols & rows & a & w & a' & N & Sel & New & E).
  destruct (new_opens _ _ _ _ _ _ _ _ _ N Sel New) as (Rep & _ & I).
  destruct (down_facts _ _ _ _ _ _ _ _ _ _ R S I Rep E) as (plan & tr & d & t1 & H & P & U & _ & _ & F).
  cbn [app] in H. subst h. exists plan, d. splits; auto.
Qed.

Lemma delete_statement_inj : forall v n v' n', entry_ok (v, n) -> entry_ok (v', n') ->
  delete_statement v n = delete_statement v' n' -> (v, n) = (v', n').
Proof.
  intros v n v' n' (P & V) (P' & V') E. cbn [fst snd] in *. eapply (says_delete_unique true).
  - apply says_delete_self; eassumption.
  - rewrite E. apply says_delete_self; assumption.
Qed.

Lemma exec_inj : forall s s' (o o' : outcome), (Exec s, o) = (Exec s', o') -> s = s'.
Proof. intros s s' o o' E. injection E as E _. exact E. Qed.

Lemma insert_delete_differ : forall v n v' n', entry_ok (v, n) -> entry_ok (v', n') ->
  insert_statement v n <> delete_statement v' n'.
Proof.
  intros v n v' n' (P & V) (P' & V') E. cbn [fst snd] in *. eapply (says_not_both true).
  - apply says_insert_self; [exact V|exact P].
  - rewrite E. apply says_delete_self; [exact V'|exact P'].
Qed.

(** Every statement of a downward run deletes the migration it has just reverted. *)
Lemma drun_statements : forall plan h d r, down_run plan h d r -> forall p q s o, h = p ++ (Exec s, o) :: q ->
  exists v n, s = delete_statement v n /\ In (v, n) plan /\ In (Down v n, Done) p.
Proof.
  intros plan h d r U. induction U; intros p0 q s o E.
  - destruct p0; discriminate.
  - destruct p0 as [|? [|? ?]]; discriminate.
  - destruct p0 as [|? [|? [|? ?]]]; discriminate.
  - destruct p0 as [|x1 [|x2 [|x3 [|? ?]]]]; try discriminate. injection E as <- <- <- _ _.
    exists v, n. splits; auto; left; reflexivity.
  - destruct p0 as [|x1 [|x2 [|x3 p0]]]; try discriminate.
    + injection E as <- <- <- _ _. exists v, n. splits; auto; left; reflexivity.
    + injection E as <- <- <- E. destruct (IHU _ _ _ _ E) as (v' & n' & A & B & C).
      exists v', n'. splits; auto; right; auto. right. right. assumption.
Qed.

Lemma drun_all_deleted : forall plan h d r, down_run plan h d r -> r = Ok tt -> forall v n, In (v, n) plan ->
  In (Exec (delete_statement v n), Done) h.
Proof.
  intros plan h d r U. induction U; intros E w m K; try discriminate; [destruct K|].
  destruct K as [K|K].
  - injection K as -> ->. right. right. left. reflexivity.
  - right. right. right. auto.
Qed.

(** The code a successful run executes. *)
Lemma up_events : forall plan h d r, up_run plan h d r -> forall v n,
  ~ In (Down v n, Done) h /\ (r = Ok tt -> In (v, n) plan -> In (Up v n, Done) h) /\ (In (Up v n, Done) h -> In (v, n) plan).
Proof.
  intros plan h d r U v0 n0. induction U; cbn [In].
  - tauto.
  - splits; try discriminate; intros [K|[]]; discriminate.
  - splits; try discriminate; [intros [K|[K|[]]]; discriminate|]. intros [K|[K|[]]]; [left; congruence|discriminate].
  - splits; try discriminate; [intros [K|[K|[K|[]]]]; discriminate|]. intros [K|[K|[K|[]]]]; [left; congruence|discriminate..].
  - destruct IHU as (A & B & C). splits.
    + intros [K|[K|[K|K]]]; try discriminate; auto.
    + intros E [K|K]; [left; congruence|]. right. right. right. auto.
    + intros [K|[K|[K|K]]]; try discriminate; [left; congruence|]. right. auto.
Qed.

Lemma down_events : forall plan h d r, down_run plan h d r -> forall v n,
  ~ In (Up v n, Done) h /\ (r = Ok tt -> In (v, n) plan -> In (Down v n, Done) h) /\ (In (Down v n, Done) h -> In (v, n) plan).
Proof.
  intros plan h d r U v0 n0. induction U; cbn [In].
  - tauto.
  - splits; try discriminate; intros [K|[]]; discriminate.
  - splits; try discriminate; [intros [K|[K|[]]]; discriminate|]. intros [K|[K|[]]]; [left; congruence|discriminate].
  - splits; try discriminate; [intros [K|[K|[K|[]]]]; discriminate|]. intros [K|[K|[K|[]]]]; [left; congruence|discriminate..].
  - destruct IHU as (A & B & C). splits.
    + intros [K|[K|[K|K]]]; try discriminate; auto.
    + intros E [K|K]; [left; congruence|]. right. right. right. auto.
    + intros [K|[K|[K|K]]]; try discriminate; [left; congruence|]. right. auto.
Qed.

Section Server.
  Variable bs : bool.
  Variable coll : list Z -> list Z -> bool.
  Hypothesis coll_refl : forall n, coll n n = true.
  Variable lists : list migration_list.
  Hypothesis fit : storable coll (listed lists).

  (** All statements insert or delete a listed migration. *)
  Definition changes_only (h : list event) : Prop :=
    forall s o, In (Exec s, o) h -> exists v n, In (v, n) (listed lists) /\ (s = insert_statement v n \/ s = delete_statement v n).
  Definition deletes_only (h : list event) : Prop :=
    forall s o, In (Exec s, o) h -> exists v n, In (v, n) (listed lists) /\ s = delete_statement v n.

  Lemma delete_exact : forall v n t t', In (v, n) (listed lists) -> incl t (listed lists) ->
    effect bs coll (delete_statement v n) t t' -> sublist_of (fun m => m <> (v, n)) t t'.
  Proof.
    intros v n t t' K I E. eapply (fits_delete bs coll coll_refl t v n []); [|exact E]. split.
    - constructor; [|constructor]. apply (storable_ok coll _ fit _ K).
    - intros r s Hr [<-|[]]. apply (storable_clash coll _ fit); auto.
  Qed.

  Lemma effect_changes : forall s t t', effect bs coll s t t' -> NoDup t -> incl t (listed lists) ->
    (exists v n, In (v, n) (listed lists) /\ (s = insert_statement v n \/ s = delete_statement v n)) ->
    NoDup t' /\ incl t' (listed lists) /\
    (forall v n, In (v, n) t' -> ~ In (v, n) t -> s = insert_statement v n) /\
    (forall v n, In (v, n) t -> ~ In (v, n) t' -> s = delete_statement v n).
  Proof.
    intros s t t' E N I (v & n & L & [->| ->]).
    - apply (effect_insert_iff bs coll) in E; [|apply (storable_ok coll _ fit _ L)]. destruct E as (-> & F). splits.
      + apply nodup_app; auto; [constructor; [intros []|constructor]|]. intros x Hx [<-|[]].
        rewrite Forall_forall in F. apply (F _ Hx). split; auto.
      + intros x K. apply in_app_iff in K. destruct K as [K|[<-|[]]]; auto.
      + intros w m K D. apply in_app_iff in K. destruct K as [K|[K|[]]]; [contradiction|]. injection K as <- <-. reflexivity.
      + intros w m K D. exfalso. apply D, in_app_iff. auto.
    - pose proof (delete_exact _ _ _ _ L I E) as X. splits.
      + apply (sublist_nodup _ _ _ _ X N).
      + intros x K. apply (sublist_in _ _ _ _ X) in K. apply I. tauto.
      + intros w m K D. apply (sublist_in _ _ _ _ X) in K. tauto.
      + intros w m K D. destruct (record_dec (w, m) (v, n)) as [Y|Y]; [injection Y as -> ->; reflexivity|].
        exfalso. apply D, (sublist_in _ _ _ _ X). auto.
  Qed.

  Lemma table_changes : forall t h t', table_after bs coll t h t' -> changes_only h -> NoDup t -> incl t (listed lists) ->
    NoDup t' /\ incl t' (listed lists) /\
    (forall v n, In (v, n) t' -> ~ In (v, n) t -> exists o, In (Exec (insert_statement v n), o) h) /\
    (forall v n, In (v, n) t -> ~ In (v, n) t' -> exists o, In (Exec (delete_statement v n), o) h).
  Proof.
    assert (L : forall (e : event) h, changes_only (e :: h) -> changes_only h).
    { intros e h I s o K. apply (I s o). right. assumption. }
    assert (G : forall t q t1 h t' o, effect bs coll q t t1 -> NoDup t -> incl t (listed lists) -> changes_only ((Exec q, o) :: h) ->
      (NoDup t1 -> incl t1 (listed lists) -> NoDup t' /\ incl t' (listed lists) /\
        (forall v n, In (v, n) t' -> ~ In (v, n) t1 -> exists o, In (Exec (insert_statement v n), o) h) /\
        (forall v n, In (v, n) t1 -> ~ In (v, n) t' -> exists o, In (Exec (delete_statement v n), o) h)) ->
      NoDup t' /\ incl t' (listed lists) /\
      (forall v n, In (v, n) t' -> ~ In (v, n) t -> exists o', In (Exec (insert_statement v n), o') ((Exec q, o) :: h)) /\
      (forall v n, In (v, n) t -> ~ In (v, n) t' -> exists o', In (Exec (delete_statement v n), o') ((Exec q, o) :: h))).
    { intros t q t1 h t' o E N I C IH. destruct (effect_changes _ _ _ E N I (C q o (or_introl eq_refl))) as (A & B & X & Y).
      destruct (IH A B) as (A' & B' & X' & Y'). splits; auto; intros v n K D; destruct (in_classic (v, n) t1) as [Z|Z].
      - rewrite (X _ _ Z D). exists o. left. reflexivity.
      - destruct (X' _ _ K Z) as (o' & Q). exists o'. right. assumption.
      - destruct (Y' _ _ Z D) as (o' & Q). exists o'. right. assumption.
      - rewrite (Y _ _ K Z). exists o. left. reflexivity. }
    assert (G2 : forall (e : event) h t t',
      NoDup t' /\ incl t' (listed lists) /\
        (forall v n, In (v, n) t' -> ~ In (v, n) t -> exists o, In (Exec (insert_statement v n), o) h) /\
        (forall v n, In (v, n) t -> ~ In (v, n) t' -> exists o, In (Exec (delete_statement v n), o) h) ->
      NoDup t' /\ incl t' (listed lists) /\
        (forall v n, In (v, n) t' -> ~ In (v, n) t -> exists o, In (Exec (insert_statement v n), o) (e :: h)) /\
        (forall v n, In (v, n) t -> ~ In (v, n) t' -> exists o, In (Exec (delete_statement v n), o) (e :: h))).
    { intros e h t t' (A & B & X & Y). splits; auto; intros v n K D.
      - destruct (X _ _ K D) as (o & Q). exists o. right. assumption.
      - destruct (Y _ _ K D) as (o & Q). exists o. right. assumption. }
    induction 1; intros C N I; eauto 6.
    splits; auto; tauto.
  Qed.

  Lemma table_shrinks : forall t h t', table_after bs coll t h t' -> deletes_only h -> incl t (listed lists) ->
    exists d, sublist_of (fun m => ~ In m d) t t' /\
      (forall v n, In (v, n) d -> In (v, n) (listed lists) /\ exists o, In (Exec (delete_statement v n), o) h) /\
      (forall v n, In (v, n) (listed lists) -> In (Exec (delete_statement v n), Done) h -> In (v, n) d).
  Proof.
    assert (L : forall (e : event) h, deletes_only (e :: h) -> deletes_only h).
    { intros e h I s o K. apply (I s o). right. assumption. }
    assert (G : forall t q t1 h t' o, effect bs coll q t t1 -> incl t (listed lists) -> deletes_only ((Exec q, o) :: h) ->
      (incl t1 (listed lists) -> exists d, sublist_of (fun m => ~ In m d) t1 t' /\
        (forall v n, In (v, n) d -> In (v, n) (listed lists) /\ exists o, In (Exec (delete_statement v n), o) h) /\
        (forall v n, In (v, n) (listed lists) -> In (Exec (delete_statement v n), Done) h -> In (v, n) d)) ->
      exists d, sublist_of (fun m => ~ In m d) t t' /\
        (forall v n, In (v, n) d -> In (v, n) (listed lists) /\ exists o', In (Exec (delete_statement v n), o') ((Exec q, o) :: h)) /\
        (forall v n, In (v, n) (listed lists) -> In (Exec (delete_statement v n), Done) ((Exec q, o) :: h) -> In (v, n) d)).
    { intros t q t1 h t' o E I C IH. destruct (C q o (or_introl eq_refl)) as (v & n & K & ->).
      pose proof (delete_exact _ _ _ _ K I E) as X.
      destruct IH as (d & A & B & D). { intros x Q. apply (sublist_in _ _ _ _ X) in Q. apply I. tauto. }
      exists ((v, n) :: d). splits.
      - apply sublist_two. exists t1. auto.
      - intros v' n' [Q|Q]; [injection Q as <- <-; split; auto; exists o; left; reflexivity|].
        destruct (B _ _ Q) as (Y & o' & Z). split; auto. exists o'. right. assumption.
      - intros v' n' Q [Z|Z]; [|right; auto]. left. apply exec_inj in Z.
        apply delete_statement_inj; [apply (storable_ok coll _ fit), K|apply (storable_ok coll _ fit), Q|exact Z]. }
    induction 1; intros C I; eauto.
    - exists []. splits; [apply sublist_nothing; reflexivity|intros v n []|intros v n _ []].
    - destruct (IHtable_after (L _ _ C) I) as (d & A & B & D). exists d. splits; auto.
      + intros v n K. destruct (B _ _ K) as (Q & o & Z). split; auto. exists o. right. assumption.
      + intros v n K [Q|Q]; [discriminate|auto].
    - destruct (IHtable_after (L _ _ C) I) as (d & A & B & D). exists d. splits; auto.
      + intros v n K. destruct (B _ _ K) as (Q & o' & Z). split; auto. exists o'. right. assumption.
      + intros v n K [Q|Q]; [|auto]. exfalso. injection Q as Q _. apply (H _ Q).
  Qed.

  (** Runs stopped anywhere: what their statements are. *)
  Lemma mixed_statements : forall debug hs all,
    (forall i h, nth_error hs i = Some h -> exists t0 r q, either_run debug lists t0 r (h ++ q)) ->
    interleaved hs all -> forall s o, In (Exec s, o) all ->
    exists v n i h, In (v, n) (listed lists) /\ nth_error hs i = Some h /\
      ((s = insert_statement v n /\ In (Up v n, Done) h) \/ (s = delete_statement v n /\ In (Down v n, Done) h)).
  Proof.
    intros debug hs all F I s o K. apply in_split in K. destruct K as (p & q & E).
    destruct (interleaved_split _ _ I _ _ _ E) as (i & h & p' & q' & A & B & C).
    destruct (F _ _ A) as (t0 & r & q0 & [(target & U)|(target & U)]).
    - destruct (run_facts _ _ _ _ _ _ _ coll_refl fit U) as (plan & d & _ & _ & P & V & _).
      subst h. rewrite <- app_assoc in V. cbn [app] in V.
      destruct (run_statements _ _ _ _ V _ _ _ _ eq_refl) as (v & n & -> & Q & Z).
      exists v, n, i, (p' ++ (Exec (insert_statement v n), o) :: q'). splits; auto.
      + apply (sublist_in _ _ _ _ P) in Q. tauto.
      + left. split; auto. apply in_app_iff. auto.
    - destruct (drun_facts _ _ _ _ _ _ _ coll_refl fit U) as (plan & d & _ & _ & P & V & _).
      subst h. rewrite <- app_assoc in V. cbn [app] in V.
      destruct (drun_statements _ _ _ _ V _ _ _ _ eq_refl) as (v & n & -> & Q & Z).
      exists v, n, i, (p' ++ (Exec (delete_statement v n), o) :: q'). splits; auto.
      + apply (sublist_in _ _ _ _ P) in Q. apply in_rev. tauto.
      + right. split; auto. apply in_app_iff. auto.
  Qed.
End Server.

(** C108: any number of runs in either direction at the same time, each opened on any table,
    each stopped anywhere: no record appears twice, a record that was not there is of a
    migration that some run executed, and a record that is gone is of one that some run
    reverted.  Same guard as C59. *)
Theorem C108_recorded_partial : forall bs coll debug lists hs all t t',
  (forall n, coll n n = true) -> storable coll (listed lists) -> NoDup t -> incl t (listed lists) ->
  (forall i h, nth_error hs i = Some h -> exists t0 r q, either_run debug lists t0 r (h ++ q)) ->
  interleaved hs all -> table_after bs coll t all t' ->
  NoDup t' /\ incl t' (listed lists) /\
  (forall v n, In (v, n) t' -> ~ In (v, n) t -> exists i h, nth_error hs i = Some h /\ In (Up v n, Done) h) /\
  (forall v n, In (v, n) t -> ~ In (v, n) t' -> exists i h, nth_error hs i = Some h /\ In (Down v n, Done) h).
Proof.
  intros bs coll debug lists hs all t t' R S N L F I T.
  pose proof (mixed_statements coll R lists S debug hs all F I) as M.
  assert (C : changes_only lists all).
  { intros s o K. destruct (M s o K) as (v & n & _ & _ & A & _ & [(-> & _)|(-> & _)]); exists v, n; auto. }
  destruct (table_changes bs coll R lists S _ _ _ T C N L) as (A & B & X & Y). splits; auto.
  - intros v n K D. destruct (X _ _ K D) as (o & Q). destruct (M _ _ Q) as (v' & n' & i & h & L' & E & [(Z & H)|(Z & H)]).
    + apply insert_statement_inj in Z; [|apply (storable_ok coll _ S); auto..]. injection Z as <- <-. eauto.
    + exfalso. eapply insert_delete_differ; [| |exact Z]; apply (storable_ok coll _ S); auto.
  - intros v n K D. destruct (Y _ _ K D) as (o & Q). destruct (M _ _ Q) as (v' & n' & i & h & L' & E & [(Z & H)|(Z & H)]).
    + exfalso. symmetry in Z. eapply insert_delete_differ; [| |exact Z]; apply (storable_ok coll _ S); auto.
    + apply delete_statement_inj in Z; [|apply (storable_ok coll _ S); auto..]. injection Z as <- <-. eauto.
Qed.
Print Assumptions C108_recorded_partial.

Lemma drun_deletes : forall coll debug lists hs all, (forall n, coll n n = true) -> storable coll (listed lists) ->
  (forall i h, nth_error hs i = Some h -> exists target t0 r q, downward_run debug lists target t0 r (h ++ q)) ->
  interleaved hs all -> forall s o, In (Exec s, o) all ->
  exists v n i h, In (v, n) (listed lists) /\ nth_error hs i = Some h /\ s = delete_statement v n /\ In (Down v n, Done) h.
Proof.
  intros coll debug lists hs all R S F I s o K. apply in_split in K. destruct K as (p & q & E).
  destruct (interleaved_split _ _ I _ _ _ E) as (i & h & p' & q' & A & B & C).
  destruct (F _ _ A) as (target & t0 & r & q0 & U).
  destruct (drun_facts _ _ _ _ _ _ _ R S U) as (plan & d & _ & _ & P & V & _).
  subst h. rewrite <- app_assoc in V. cbn [app] in V.
  destruct (drun_statements _ _ _ _ V _ _ _ _ eq_refl) as (v & n & -> & Q & Z).
  exists v, n, i, (p' ++ (Exec (delete_statement v n), o) :: q'). splits; auto.
  - apply (sublist_in _ _ _ _ P) in Q. apply in_rev. tauto.
  - apply in_app_iff. auto.
Qed.

(** Downward runs at the same time, each stopped anywhere: the table only loses records, and
    what a run that succeeded saw above its target is gone. *)
Theorem C108_down_partial : forall bs coll debug lists hs all t t',
  (forall n, coll n n = true) -> storable coll (listed lists) -> incl t (listed lists) ->
  (forall i h, nth_error hs i = Some h -> exists target t0 r q, downward_run debug lists target t0 r (h ++ q)) ->
  interleaved hs all -> table_after bs coll t all t' ->
  (exists d, sublist_of (fun m => ~ In m d) t t' /\
     forall v n, In (v, n) d -> exists i h, nth_error hs i = Some h /\ In (Down v n, Done) h) /\
  (forall i h target t0 m, nth_error hs i = Some h -> downward_run debug lists target t0 (Ok tt) h ->
     In m t0 -> vlt target (fst m) -> ~ In m t').
Proof.
  intros bs coll debug lists hs all t t' R S L F I T. pose proof (drun_deletes _ _ _ _ _ R S F I) as M.
  assert (C : deletes_only lists all).
  { intros s o K. destruct (M s o K) as (v & n & _ & _ & A & _ & -> & _). exists v, n. auto. }
  destruct (table_shrinks bs coll R lists S _ _ _ T C L) as (d & A & B & D). split.
  - exists d. split; auto. intros v n K. destruct (B _ _ K) as (Lv & o & Q).
    destruct (M _ _ Q) as (v' & n' & i & h & L' & E & Z & H).
    apply delete_statement_inj in Z; [|apply (storable_ok coll _ S); auto..]. injection Z as <- <-. eauto.
  - intros i h target t0 (v, n) E U K W X. destruct (drun_facts _ _ _ _ _ _ _ R S U) as (plan & d0 & _ & J & P & V & _).
    assert (Lv : In (v, n) (listed lists)) by auto.
    assert (Q : In (v, n) plan). { apply (sublist_in _ _ _ _ P). rewrite <- in_rev. auto. }
    pose proof (interleaved_in _ _ I _ _ _ E (drun_all_deleted _ _ _ _ V eq_refl _ _ Q)) as Z.
    apply (sublist_in _ _ _ _ A) in X. destruct X as (_ & X). apply X. apply D; auto.
Qed.
Print Assumptions C108_down_partial.

(** When all of them succeed, the records left are those of the migrations in place. *)
Theorem C108_down_agree_partial : forall bs coll debug lists hs all t t',
  (forall n, coll n n = true) -> storable coll (listed lists) -> incl t (listed lists) ->
  (forall i h, nth_error hs i = Some h -> exists target t0, downward_run debug lists target t0 (Ok tt) h) ->
  interleaved hs all -> table_after bs coll t all t' -> sublist_of (in_place t all) t t'.
Proof.
  intros bs coll debug lists hs all t t' R S L F I T.
  assert (F' : forall i h, nth_error hs i = Some h -> exists target t0 r q, downward_run debug lists target t0 r (h ++ q)).
  { intros i h E. destruct (F _ _ E) as (target & t0 & U). exists target, t0, (Ok tt), []. rewrite app_nil_r. assumption. }
  pose proof (drun_deletes _ _ _ _ _ R S F' I) as M.
  assert (C : deletes_only lists all).
  { intros s o K. destruct (M s o K) as (v & n & _ & _ & A & _ & -> & _). exists v, n. auto. }
  destruct (table_shrinks bs coll R lists S _ _ _ T C L) as (d & A & B & D).
  eapply sublist_ext; [|exact A]. intros (v, n) K. cbv beta. cbn [fst snd]. unfold in_place. cbn [fst snd].
  assert (NoUp : ~ In (Up v n, Done) all).
  { intros Q. apply in_split in Q. destruct Q as (p & q & E).
    destruct (interleaved_split _ _ I _ _ _ E) as (i & h & p' & q' & A' & B' & _).
    destruct (F _ _ A') as (target & t0 & U). destruct (drun_facts _ _ _ _ _ _ _ R S U) as (plan & d0 & _ & _ & P & V & _).
    destruct (down_events _ _ _ _ V v n) as (X & _). apply X. rewrite B'. apply in_app_iff. right. left. reflexivity. }
  split.
  - intros Q. left. split; auto. intros X. apply Q. apply in_split in X. destruct X as (p & q & E).
    destruct (interleaved_split _ _ I _ _ _ E) as (i & h & p' & q' & A' & B' & _).
    destruct (F _ _ A') as (target & t0 & U). destruct (drun_facts _ _ _ _ _ _ _ R S U) as (plan & d0 & _ & _ & P & V & _).
    destruct (down_events _ _ _ _ V v n) as (_ & _ & X).
    assert (Y : In (v, n) plan). { apply X. rewrite B'. apply in_app_iff. right. left. reflexivity. }
    apply D; auto. eapply interleaved_in; [exact I|exact A'|]. eapply drun_all_deleted; eauto.
  - intros [(_ & Q)|(p & q & E & _)] X.
    + destruct (B _ _ X) as (Lv & o & Y). destruct (M _ _ Y) as (v' & n' & i & h & L' & E & Z & H).
      apply delete_statement_inj in Z; [|apply (storable_ok coll _ S); auto..]. injection Z as <- <-.
      apply Q. eapply interleaved_in; eauto.
    + apply NoUp. rewrite E. apply in_app_iff. right. left. reflexivity.
Qed.
Print Assumptions C108_down_agree_partial.

(** If all succeed and were opened on the table as it was, what is left is what is above none
    of the targets: the lowest target decides, whatever the order. *)
Theorem C108_lowest_partial : forall bs coll debug lists targets hs all t t',
  (forall n, coll n n = true) -> storable coll (listed lists) -> incl t (listed lists) ->
  Forall2 (fun target h => downward_run debug lists target t (Ok tt) h) targets hs ->
  interleaved hs all -> table_after bs coll t all t' ->
  sublist_of (fun m => Forall (fun target => ~ vlt target (fst m)) targets) t t'.
Proof.
  intros bs coll debug lists targets hs all t t' R S L F I T.
  assert (N1 : forall i h, nth_error hs i = Some h -> exists target, In target targets /\ downward_run debug lists target t (Ok tt) h).
  { clear -F. induction F as [|target h targets hs U F IH]; intros [|i] g E; cbn in E; try discriminate.
    - injection E as <-. exists target. split; auto. left. reflexivity.
    - destruct (IH _ _ E) as (x & A & B). exists x. split; auto. right. assumption. }
  assert (N2 : forall target, In target targets -> exists i h, nth_error hs i = Some h /\ downward_run debug lists target t (Ok tt) h).
  { clear -F. induction F as [|target h targets hs U F IH]; intros x K; [destruct K|]. destruct K as [<-|K].
    - exists O, h. auto.
    - destruct (IH _ K) as (i & g & A & B). exists (Datatypes.S i), g. auto. }
  assert (F' : forall i h, nth_error hs i = Some h -> exists target t0, downward_run debug lists target t0 (Ok tt) h).
  { intros i h E. destruct (N1 _ _ E) as (target & _ & U). eauto. }
  pose proof (C108_down_agree_partial _ _ _ _ _ _ _ _ R S L F' I T) as A.
  eapply sublist_ext; [|exact A]. intros (v, n) K. unfold in_place. cbn [fst snd]. rewrite Forall_forall. split.
  - intros [(_ & Q)|(p & q & E & _)] target Ht W.
    + destruct (N2 _ Ht) as (i & h & E & U). apply Q. eapply interleaved_in; [exact I|exact E|].
      destruct (drun_facts _ _ _ _ _ _ _ R S U) as (plan & d & _ & _ & P & V & _).
      destruct (down_events _ _ _ _ V v n) as (_ & X & _). apply X; auto. apply (sublist_in _ _ _ _ P). rewrite <- in_rev. auto.
    + destruct (interleaved_split _ _ I _ _ _ E) as (i & h & p' & q' & A' & B' & _).
      destruct (F' _ _ A') as (x & t0 & U). destruct (drun_facts _ _ _ _ _ _ _ R S U) as (plan & d0 & _ & _ & P & V & _).
      destruct (down_events _ _ _ _ V v n) as (X & _). apply X. rewrite B'. apply in_app_iff. right. left. reflexivity.
  - intros Q. left. split; auto. intros X. apply in_split in X. destruct X as (p & q & E).
    destruct (interleaved_split _ _ I _ _ _ E) as (i & h & p' & q' & A' & B' & _).
    destruct (N1 _ _ A') as (target & Ht & U). destruct (drun_facts _ _ _ _ _ _ _ R S U) as (plan & d0 & _ & _ & P & V & _).
    destruct (down_events _ _ _ _ V v n) as (_ & _ & X).
    assert (Y : In (v, n) plan). { apply X. rewrite B'. apply in_app_iff. right. left. reflexivity. }
    apply (sublist_in _ _ _ _ P) in Y. apply (Q target Ht). tauto.
Qed.
Print Assumptions C108_lowest_partial.

Lemma split_two : forall (a b c d : list event) x, a ++ b = c ++ x :: d ->
  (exists l, a = c ++ x :: l /\ d = l ++ b) \/ (exists l, c = a ++ l /\ b = l ++ x :: d).
Proof.
  intros a. induction a as [|y a IH]; intros b c d x E; cbn [app] in E.
  - right. exists c. auto.
  - destruct c as [|z c]; cbn [app] in E.
    + injection E as -> <-. left. exists a. auto.
    + injection E as -> E. destruct (IH _ _ _ _ E) as [(l & -> & ->)|(l & -> & ->)]; [left|right]; exists l; auto.
Qed.

Lemma in_place_app : forall t h g m,
  in_place t (h ++ g) m <->
  (in_place t h m /\ ~ In (Down (fst m) (snd m), Done) g) \/
  exists p q, g = p ++ (Up (fst m) (snd m), Done) :: q /\ ~ In (Down (fst m) (snd m), Done) q.
Proof.
  intros t h g m. unfold in_place. rewrite in_app_iff. split.
  - intros [(A & B)|(p & q & E & B)]; [left; tauto|].
    destruct (split_two _ _ _ _ _ E) as [(l & -> & ->)|(l & -> & ->)].
    + rewrite in_app_iff in B. left. split; [|tauto]. right. exists p, l. tauto.
    + right. exists l, q. auto.
  - intros [([(A & B)|(p & q & -> & B)] & C)|(p & q & -> & B)].
    + left. tauto.
    + right. exists p, (q ++ g). rewrite <- app_assoc, in_app_iff. cbn [app]. tauto.
    + right. exists (h ++ p), q. rewrite <- app_assoc. auto.
Qed.

Lemma run_in_place : forall bs coll debug lists t h t1, (forall n, coll n n = true) -> storable coll (listed lists) ->
  either_run debug lists t (Ok tt) h -> table_after bs coll t h t1 ->
  NoDup t1 /\ incl t1 (listed lists) /\ forall m, In m t1 <-> in_place t h m.
Proof.
  intros bs coll debug lists t h t1 R S [(target & U)|(target & U)] T.
  - destruct (run_facts _ _ _ _ _ _ _ R S U) as (plan & d & N & L & P & V & F).
    destruct (up_complete bs coll _ _ _ _ V eq_refl _ F) as (-> & A & B & C & D). apply C in T. subst t1. splits.
    + apply F.
    + intros x K. apply in_app_iff in K. destruct K as [K|K]; auto. apply (sublist_in _ _ _ _ P) in K. tauto.
    + intros (v, n). unfold in_place. cbn [fst snd]. destruct (up_events _ _ _ _ V v n) as (X & Y & Z). rewrite in_app_iff. split.
      * intros [K|K]; [left; tauto|]. right. apply Y in K; auto. apply in_split in K. destruct K as (p & q & E).
        exists p, q. split; auto. intros K. apply X. rewrite E. apply in_app_iff. right. right. assumption.
      * intros [(K & _)|(p & q & E & _)]; auto. right. apply Z. rewrite E. apply in_app_iff. right. left. reflexivity.
  - destruct (drun_facts _ _ _ _ _ _ _ R S U) as (plan & d & N & L & P & V & F).
    destruct (down_complete bs coll R _ _ _ _ V eq_refl _ F) as (-> & A & B & C & D). apply C in T. splits.
    + apply (sublist_nodup _ _ _ _ T N).
    + intros x K. apply (sublist_in _ _ _ _ T) in K. apply L. tauto.
    + intros (v, n). rewrite (sublist_in _ _ _ _ T). unfold in_place. cbn [fst snd].
      destruct (down_events _ _ _ _ V v n) as (X & Y & Z). split.
      * intros (K & Q). left. split; auto.
      * intros [(K & Q)|(p & q & E & _)]; [split; auto|]. exfalso. apply X. rewrite E. apply in_app_iff. right. left. reflexivity.
Qed.

(** Successful runs in turn, in whatever directions: the records are exactly those of the
    migrations in place. *)
Theorem C108_by_turns_partial : forall bs coll debug lists t all t',
  (forall n, coll n n = true) -> storable coll (listed lists) -> NoDup t ->
  by_turns bs coll debug lists t all t' -> NoDup t' /\ forall m, In m t' <-> in_place t all m.
Proof.
  intros bs coll debug lists t all t' R S N B. induction B as [t|t h t1 all t2 U T B IH].
  - split; auto. intros m. unfold in_place. cbn [In]. split; [tauto|]. intros [K|(p & q & E & _)]; [tauto|]. destruct p; discriminate.
  - destruct (run_in_place _ _ _ _ _ _ _ R S U T) as (N1 & _ & X). destruct (IH N1) as (N2 & Y). split; auto.
    intros m. rewrite Y, in_place_app, <- X. reflexivity.
Qed.
Print Assumptions C108_by_turns_partial.

Definition one_list : list migration_list := [mkMigrations v1 [s2l "users"]].
Definition v0 : version := mkVersion 0 0 0.
Definition up_events_of : list event := [(Up v1 (s2l "users"), Done); (Get, Done); (Exec (insert_statement v1 (s2l "users")), Done)].
Definition down_events_of : list event := [(Down v1 (s2l "users"), Done); (Get, Done); (Exec (delete_statement v1 (s2l "users")), Done)].

Lemma one_storable : storable list_eqb (listed one_list).
Proof.
  split; [|repeat constructor]. constructor; [|constructor]. split.
  - apply plain_without; [cbn; lia | |]; vm_compute; intuition discriminate.
  - unfold version_small, u16. cbn. splits; lia.
Qed.

Lemma one_down_case : downward_run true one_list v0 [(v1, s2l "users")] (Ok tt) down_events_of.
Proof.
  exists (Ok tt), (Ok ([], [[VLong 1]], None)), (Ok tt), migration_columns, [[VUShort 1; VUShort 0; VUShort 0; VBytes (s2l "users")]].
  eexists _, (fun _ _ => Done), _. splits.
  - repeat constructor. intros [].
  - split; [reflexivity|]. repeat constructor. eexists. split; [reflexivity|].
    cbn [snd]; apply Conversion_proofs.utf8_text_iff; (split; [|reflexivity]); cbv [s2l]; repeat constructor; cbn; lia.
  - vm_compute. reflexivity.
  - vm_compute. reflexivity.
Qed.

Lemma one_up_case : upward_run true one_list None [] (Ok tt) up_events_of.
Proof. exact (ran_case Done). Qed.

Lemma one_inserted : forall t t' h, t = [] -> table_after true list_eqb [(v1, s2l "users")] h t' ->
  table_after true list_eqb t ((Exec (insert_statement v1 (s2l "users")), Done) :: h) t'.
Proof.
  intros t t' h -> T. eapply ta_done; [|exact T]. apply (effect_insert_iff true list_eqb).
  - apply (storable_ok list_eqb _ one_storable). left. reflexivity.
  - split; [reflexivity|constructor].
Qed.

Lemma one_deleted : forall t t' h, t = [] \/ t = [(v1, s2l "users")] -> table_after true list_eqb [] h t' ->
  table_after true list_eqb t ((Exec (delete_statement v1 (s2l "users")), Done) :: h) t'.
Proof.
  intros t t' h E T. eapply ta_done; [|exact T]. apply (effect_delete_iff true list_eqb).
  - apply (storable_ok list_eqb _ one_storable). left. reflexivity.
  - destruct E as [->| ->]; [constructor|]. apply so_skip; [|constructor]. intros K. apply K. split; [reflexivity|apply list_eqb_refl].
Qed.

(** Reverting twice: two downward runs opened on the same table both revert the same migration,
    and both report success, since removing a record that is not there succeeds. *)
Theorem C108_twice_refuted : exists lists target t h1 h2 all,
  storable list_eqb (listed lists) /\
  downward_run true lists target t (Ok tt) h1 /\ downward_run true lists target t (Ok tt) h2 /\
  interleaved [h1; h2] all /\ table_after true list_eqb t all [] /\
  t = [(v1, s2l "users")] /\ reverted all = [(v1, s2l "users"); (v1, s2l "users")].
Proof.
  exists one_list, v0, [(v1, s2l "users")], down_events_of, down_events_of. eexists. splits.
  - exact one_storable.
  - exact one_down_case.
  - exact one_down_case.
  - apply (il_step [] _ _ [_]). apply (il_step [_] _ _ []). apply (il_step [] _ _ [_]). apply (il_step [] _ _ [_]).
    apply (il_step [_] _ _ []). apply (il_step [_] _ _ []). apply il_end. repeat constructor.
  - repeat (apply ta_other; [discriminate|]). apply one_deleted; auto.
    repeat (apply ta_other; [discriminate|]). apply one_deleted; auto. apply ta_nil.
  - reflexivity.
  - reflexivity.
Qed.
Print Assumptions C108_twice_refuted.

(** At the same time the table may come to disagree with the schema though every run succeeds:
    two migrators opened on the empty table go up while a third, opened once the first has
    recorded the migration, goes down; the second records the migration after it was reverted. *)
Theorem C108_agree_refuted : exists lists target h1 h2 h2' h3 before after m,
  storable list_eqb (listed lists) /\
  upward_run true lists None [] (Ok tt) h1 /\ upward_run true lists None [] (Ok tt) (h2 ++ h2') /\
  interleaved [h1; h2] before /\ table_after true list_eqb [] before [m] /\
  downward_run true lists target [m] (Ok tt) h3 /\ interleaved [h3; h2'] after /\
  table_after true list_eqb [] (before ++ after) [m] /\ ~ in_place [] (before ++ after) m.
Proof.
  exists one_list, v0, up_events_of, [(Up v1 (s2l "users"), Done)].
  exists [(Get, Done); (Exec (insert_statement v1 (s2l "users")), Done)], down_events_of.
  exists ((Up v1 (s2l "users"), Done) :: up_events_of).
  exists (down_events_of ++ [(Get, Done); (Exec (insert_statement v1 (s2l "users")), Done)]), (v1, s2l "users"). splits.
  - exact one_storable.
  - exact one_up_case.
  - exact one_up_case.
  - apply (il_step [_] _ _ []). do 3 apply (il_step [] _ _ [_]). apply il_end. repeat constructor.
  - repeat (apply ta_other; [discriminate|]). apply one_inserted; auto. apply ta_nil.
  - exact one_down_case.
  - do 3 apply (il_step [] _ _ [_]). do 2 apply (il_step [_] _ _ []). apply il_end. repeat constructor.
  - repeat (apply ta_other; [discriminate|]). apply one_inserted; auto.
    repeat (apply ta_other; [discriminate|]). apply one_deleted; auto.
    repeat (apply ta_other; [discriminate|]). apply one_inserted; auto. apply ta_nil.
  - intros [([] & _)|(p & q & E & D)]. apply D. destruct (split_two _ _ _ _ _ E) as [(l & _ & ->)|(l & _ & K)].
    + apply in_app_iff. right. left. reflexivity.
    + exfalso. assert (Q : In (Up v1 (s2l "users"), Done) (down_events_of ++ [(Get, Done); (Exec (insert_statement v1 (s2l "users")), Done)])).
      { rewrite K. apply in_app_iff. right. left. reflexivity. }
      clear -Q. cbn [In app down_events_of] in Q. decompose [or] Q; try discriminate; contradiction.
Qed.
Print Assumptions C108_agree_refuted.

(** Meeting the hypotheses: an upward run, then a downward one opened on what it left, in turn;
    two downward runs opened on that table at the same time are in C108_twice_refuted. *)
Example C108_case : exists all, by_turns true list_eqb true one_list [] all [] /\
  started all = [(v1, s2l "users")] /\ reverted all = [(v1, s2l "users")] /\
  interleaved [up_events_of; down_events_of] all /\ incl [] (listed one_list).
Proof.
  exists (up_events_of ++ (down_events_of ++ [])). splits.
  - apply bt_run with (t1 := [(v1, s2l "users")]).
    + left. exists None. exact one_up_case.
    + repeat (apply ta_other; [discriminate|]). apply one_inserted; auto. apply ta_nil.
    + apply bt_run with (t1 := []).
      * right. exists v0. exact one_down_case.
      * repeat (apply ta_other; [discriminate|]). apply one_deleted; auto. apply ta_nil.
      * apply bt_end.
  - reflexivity.
  - reflexivity.
  - do 3 apply (il_step [] _ _ [_]). do 3 apply (il_step [_] _ _ []). apply il_end. repeat constructor.
  - intros x [].
Qed.

(** Runs to different targets at the same time: the lower target decides. *)
Definition third_table : list migration_record := [(v1, s2l "users"); (v1_1, s2l "users"); (v2, s2l "logs")].
Definition three_rows : list (list value) :=
  [[VUShort 1; VUShort 0; VUShort 0; VBytes (s2l "users")]; [VUShort 1; VUShort 1; VUShort 0; VBytes (s2l "users")];
   [VUShort 2; VUShort 0; VUShort 0; VBytes (s2l "logs")]].
Lemma third_answer : select_answer third_table migration_columns three_rows.
Proof.
  split; [reflexivity|]. repeat constructor; (eexists; split; [reflexivity|]);
    cbn [snd]; apply Conversion_proofs.utf8_text_iff; (split; [|reflexivity]); cbv [s2l]; repeat constructor; cbn; lia.
Qed.

Lemma third_run : forall target h,
  (exists a', down_to_version (fun _ _ => Done) target some_lists
     ([(v2, [s2l "logs"]); (v1_1, [s2l "users"]); (v1, [s2l "users"])], []) = (Ok tt, (a', h))) ->
  downward_run true some_lists target third_table (Ok tt) h.
Proof.
  intros target h (a' & E).
  exists (Ok tt), (Ok ([], [[VLong 1]], None)), (Ok tt), migration_columns, three_rows. eexists _, (fun _ _ => Done), a'.
  splits; [|exact third_answer|vm_compute; reflexivity|exact E].
  repeat constructor; cbn; intuition discriminate.
Qed.

Example C108_lowest_case : exists h1 h2 all,
  Forall2 (fun target h => downward_run true some_lists target third_table (Ok tt) h) [v1_1; v1] [h1; h2] /\
  interleaved [h1; h2] all /\ table_after true list_eqb third_table all [(v1, s2l "users")] /\
  reverted h1 = [(v2, s2l "logs")] /\ reverted h2 = [(v2, s2l "logs"); (v1_1, s2l "users")] /\
  incl third_table (listed some_lists).
Proof.
  exists [(Down v2 (s2l "logs"), Done); (Get, Done); (Exec (delete_statement v2 (s2l "logs")), Done)].
  exists [(Down v2 (s2l "logs"), Done); (Get, Done); (Exec (delete_statement v2 (s2l "logs")), Done);
          (Down v1_1 (s2l "users"), Done); (Get, Done); (Exec (delete_statement v1_1 (s2l "users")), Done)].
  eexists. splits.
  - constructor; [|constructor; [|constructor]]; apply third_run; eexists; vm_compute; reflexivity.
  - apply (il_step [] _ _ [_]). apply (il_step [_] _ _ []). apply (il_step [] _ _ [_]). do 5 apply (il_step [_] _ _ []).
    apply (il_step [] _ _ [_]). apply il_end. repeat constructor.
  - assert (D : forall v n h t t1 t', In (v, n) (listed some_lists) -> sublist_of (fun s => ~ clash list_eqb s (v, n)) t t1 ->
      table_after true list_eqb t1 h t' -> table_after true list_eqb t ((Exec (delete_statement v n), Done) :: h) t').
    { intros v n h t t1 t' K X Y. eapply ta_done; [|exact Y]. apply (effect_delete_iff true list_eqb); auto.
      apply (storable_ok list_eqb _ some_storable _ K). }
    repeat (apply ta_other; [discriminate|]).
    apply (D _ _ _ _ [(v1, s2l "users"); (v1_1, s2l "users")]); [cbn; auto 10| |].
    { apply so_take; [intros (A & _); discriminate A|]. apply so_take; [intros (A & _); discriminate A|].
      apply so_skip; [intros K; apply K; split; reflexivity|]. constructor. }
    repeat (apply ta_other; [discriminate|]).
    apply (D _ _ _ _ [(v1, s2l "users")]); [cbn; auto 10| |].
    { apply so_take; [intros (A & _); discriminate A|]. apply so_skip; [intros K; apply K; split; reflexivity|]. constructor. }
    apply (D _ _ _ _ [(v1, s2l "users")]); [cbn; auto 10| |].
    { apply so_take; [intros (A & _); discriminate A|]. constructor. }
    apply ta_nil.
  - reflexivity.
  - reflexivity.
  - intros x K. cbn in K |- *. intuition.
Qed.
