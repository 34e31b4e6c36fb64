(** Counting the columns without [#] that a struct asks for and waits for. *)
From Coq Require Import String ZArith List Bool Lia.
From Verif Require Import Base BaseFacts Types Models Spec_Text Spec_Model Spec_Route Model_proofs Route_proofs DeriveNames Spec_Names Spec_RawNames
  Properties_Names.
Import ListNotations.
Open Scope Z_scope.

Fixpoint all_items (w : written) : list item :=
  match w with
  | Written _ _ _ simples structs refs => items simples structs ++ flat_map (fun r => match r with (_, sub) => all_items sub end) refs
  end.

Lemma query_fields : forall w, map snd (fields_of (query_model w)) = map query_name (all_items w).
Proof.
  induction w as [t p a simples structs refs IH] using written_induction. cbn [query_model fields_of all_items].
  rewrite !map_app, map_map. cbn [snd]. rewrite map_id, query_names. f_equal.
  induction IH as [|[f sub] refs H _ IH]; [reflexivity|]. cbn [map flat_map snd] in *. rewrite !map_app, map_map. f_equal; [exact H|exact IH].
Qed.

Lemma mapping_fields : forall w, map snd (fields_of (mapping_model w)) = map mapping_name (all_items w).
Proof.
  induction w as [t p a simples structs refs IH] using written_induction. cbn [mapping_model fields_of all_items].
  rewrite !map_app, map_map. cbn [snd]. rewrite map_id, mapping_names. f_equal.
  induction IH as [|[f sub] refs H _ IH]; [reflexivity|]. cbn [map flat_map snd] in *. rewrite !map_app, map_map. f_equal; [exact H|exact IH].
Qed.

Definition no_hash (s : str) : bool := negb (existsb (Z.eqb 35) s).
Lemma no_hash_spec : forall s, no_hash s = true <-> ~ In 35 s.
Proof.
  intros s. unfold no_hash. rewrite negb_true_iff, <- not_true_iff_false, existsb_exists. split.
  - intros H I. apply H. exists 35. split; [exact I|reflexivity].
  - intros H (x & I & E). apply Z.eqb_eq in E. subst x. contradiction.
Qed.

Lemma plain_same : forall x, no_hash (query_name x) = true -> no_hash (mapping_name x) = true.
Proof.
  intros [f|f q] H; [exact H|]. apply no_hash_spec in H. cbn [query_name] in H.
  destruct (i_raw f) eqn:Rf; [exfalso; apply H; apply in_or_app; left; apply raw_hash; exact Rf|].
  destruct (i_raw q) eqn:Rq; [exfalso; apply H; apply in_or_app; right; right; apply raw_hash; exact Rq|].
  rewrite !not_raw_text in H by assumption. apply no_hash_spec. exact H.
Qed.

Lemma raw_item : forall w, throughout ordinary_structs w -> raw_part w ->
  exists x, In x (all_items w) /\ no_hash (query_name x) = false /\ no_hash (mapping_name x) = true.
Proof.
  intros w O R. revert O. induction R as [t p a simples structs refs f parts q H1 H2 H3|t p a simples structs refs f sub H1 _ IH]; intros O;
    inversion O as [? ? ? ? ? ? O1 O2]; subst; cbn [all_items].
  - exists (IPart f q). splits.
    + apply in_or_app. left. unfold items. apply in_or_app. right. apply in_flat_map. exists (f, parts). split; [exact H1|now apply in_map].
    + apply not_true_iff_false. rewrite no_hash_spec. intros N. apply N. cbn [query_name]. apply in_or_app.
      destruct H3 as [H3|H3]; [left|right; right]; now apply raw_hash.
    + cbn [ordinary_structs] in O1. rewrite Forall_forall in O1. destruct (O1 _ H1) as (_ & L1 & L2). cbn [fst snd] in *. rewrite Forall_forall in L2.
      apply no_hash_spec. cbn [mapping_name]. intros H. apply in_app_or in H. destruct H as [H|H]; [exact (L1 H)|].
      cbn in H. destruct H as [H|H]; [discriminate H|]. exact (L2 q H2 H).
  - rewrite Forall_forall in O2. destruct (IH (O2 _ H1)) as (x & X1 & X2). exists x. split; [|exact X2].
    apply in_or_app. right. apply in_flat_map. exists (f, sub). split; assumption.
Qed.

Lemma fewer : forall A (f g : A -> str) p l, (forall x, p (f x) = true -> p (g x) = true) ->
  (length (filter p (map f l)) <= length (filter p (map g l)))%nat /\
  ((exists x, In x l /\ p (f x) = false /\ p (g x) = true) -> (length (filter p (map f l)) < length (filter p (map g l)))%nat).
Proof.
  intros A f g p l H. induction l as [|y l [I1 I2]]; [split; [reflexivity|intros (x & [] & _)]|]. cbn [map filter]. pose proof (H y) as Hy.
  destruct (p (f y)) eqn:E1.
  - rewrite (Hy eq_refl). cbn [length]. split; [lia|]. intros (x & [<-|X] & X1 & X2); [congruence|].
    assert (length (filter p (map f l)) < length (filter p (map g l)))%nat by (apply I2; eauto). lia.
  - destruct (p (g y)) eqn:E2; cbn [length]; split; try lia. intros (x & [<-|X] & X1 & X2); [congruence|]. apply I2. eauto.
Qed.

Lemma injects : forall A B (R : A -> B -> Prop) F C, NoDup F -> (forall x y c, R x c -> R y c -> x = y) ->
  (forall x, In x F -> exists c, In c C /\ R x c) -> (length F <= length C)%nat.
Proof.
  intros A B R. induction F as [|x F IH]; intros C N U H; [cbn; lia|]. inversion_clear N as [|? ? N1 N2].
  destruct (H x (or_introl eq_refl)) as (c & Hc & Rc). apply in_split in Hc. destruct Hc as (C1 & C2 & ->).
  assert (L : (length F <= length (C1 ++ C2))%nat).
  { apply IH; auto. intros y Hy. destruct (H y (or_intror Hy)) as (d & Hd & Rd). exists d. split; [|exact Rd].
    apply in_app_or in Hd. apply in_or_app. destruct Hd as [Hd|[<-|Hd]]; auto. exfalso. apply N1. now rewrite (U x y c Rc Rd). }
  rewrite app_length in *. cbn [length]. lia.
Qed.

Lemma filter_length_map : forall A (f : A -> str) p l, length (filter p (map f l)) = length (filter (fun x => p (f x)) l).
Proof. intros A f p l. induction l as [|x l IH]; [reflexivity|]. cbn [map filter]. destruct (p (f x)); cbn [length]; congruence. Qed.

Lemma raw_unreadable : forall w cols t, throughout ordinary_structs w -> raw_part w -> everywhere names_distinct (mapping_model w) ->
  describes (selected t (query_model w)) cols ->
  ~ forall x, In x (fields_of (mapping_model w)) -> exists c, In c cols /\ column_of (mapping_model w) x c.
Proof.
  intros w cols t O R D Ds H. set (m := mapping_model w) in *.
  assert (L : (length (filter (fun x => no_hash (snd x)) (fields_of m)) <= length (filter (fun c => no_hash (col_org_name c)) cols))%nat).
  { apply (injects _ _ (column_of m)).
    - apply NoDup_filter. now apply fields_nodup.
    - intros [p n] [q k] c (A & G) (B & K). cbn [fst snd] in *. subst n k. f_equal. exact (goes_unique _ _ _ _ _ D G K).
    - intros x Hx. apply filter_In in Hx. destruct Hx as (Hx & Px). destruct (H x Hx) as (c & Hc & Cc). exists c. split; [|exact Cc].
      apply filter_In. split; [exact Hc|]. destruct Cc as (E & _). now rewrite E. }
  rewrite <- (filter_length_map _ snd), <- (filter_length_map _ col_org_name) in L.
  assert (E : map col_org_name cols = map snd (selected t (query_model w))).
  { clear - Ds. unfold describes in Ds. induction Ds as [|s c sel cols (_ & E) _ IH]; [reflexivity|]. cbn [map]. congruence. }
  rewrite E, names_selected, query_fields in L. unfold m in L. rewrite mapping_fields in L.
  destruct (fewer item query_name mapping_name no_hash (all_items w) plain_same) as (_ & K). specialize (K (raw_item w O R)). lia.
Qed.

Lemma raw_or_not : forall w, throughout ordinary_structs w -> throughout no_raw_structs w \/ raw_part w.
Proof.
  induction w as [t p a simples structs refs IH] using written_induction. intros O. inversion O as [? ? ? ? ? ? O1 O2]; subst. cbn [ordinary_structs] in O1.
  assert (S : Forall parts_not_raw structs \/ exists f parts q, In (f, parts) structs /\ In q parts /\ (i_raw f = true \/ i_raw q = true)).
  { clear - O1. induction O1 as [|[f parts] structs (N & _) _ IH]; [left; constructor|]. cbn [fst snd] in N.
    destruct IH as [IH|(g & ps & q & H1 & H2)]; [|right; exists g, ps, q; split; [now right|exact H2]].
    destruct (i_raw f) eqn:Rf.
    - right. destruct parts as [|q parts]; [contradiction|]. exists f, (q :: parts), q. splits; [now left|now left|now left].
    - assert (Q : Forall not_raw parts \/ exists q, In q parts /\ i_raw q = true).
      { clear. induction parts as [|q parts IH]; [left; constructor|]. destruct (i_raw q) eqn:E; [right; exists q; split; [now left|exact E]|].
        destruct IH as [IH|(q' & H1 & H2)]; [left; constructor; assumption|right; exists q'; split; [now right|exact H2]]. }
      destruct Q as [Q|(q & H1 & H2)]; [left; constructor; [split; assumption|exact IH]|].
      right. exists f, parts, q. splits; [now left|exact H1|now right]. }
  destruct S as [S|(f & parts & q & H1 & H2 & H3)]; [|right; eapply rp_here; eauto].
  assert (Rs : Forall (fun r => throughout no_raw_structs (snd r)) refs \/ exists f sub, In (f, sub) refs /\ raw_part sub).
  { clear - IH O2. induction IH as [|[f sub] refs H _ IH]; [left; constructor|]. inversion_clear O2 as [|? ? P1 P2]. cbn [snd] in *.
    destruct (H P1) as [H1|H1]; [|right; exists f, sub; split; [now left|exact H1]].
    destruct (IH P2) as [I|(g & s & I1 & I2)]; [left; constructor; assumption|right; exists g, s; split; [now right|exact I2]]. }
  destruct Rs as [Rs|(f & sub & H1 & H2)]; [left; constructor; assumption|right; eapply rp_referred; eauto].
Qed.
