(** Proofs about mapping the columns of any query, in any order, to a model. *)
From Coq Require Import String ZArith List Bool Lia Arith.
From Verif Require Import Base BaseFacts Types Framing Models Spec_Text Spec_Model Spec_Mapping Model_proofs.
Import ListNotations.
Open Scope Z_scope.

(** ** Mappings as functions *)

(** The mapping that assigns each column of the model, given by its path, an index. *)
Fixpoint mapped (m : model) (g : str * str -> option nat) : mapping :=
  match m with
  | Model _ _ _ simples structs refs =>
    Mapping (map (fun n => (n, g ([], n))) (columns_of simples structs))
      (map (fun r => match r with (f, sub) => mapped sub (fun i => g (join_path f (fst i), snd i)) end) refs)
  end.

Lemma mapped_ext : forall m g h, (forall i, In i (rel_items m) -> g i = h i) -> mapped m g = mapped m h.
Proof.
  induction m as [t p a simples structs refs IH] using model_ind'. intros g h H. cbn [mapped]. f_equal.
  - apply map_ext_in. intros n Hn. rewrite H; [reflexivity|]. cbn [rel_items]. apply in_or_app. left.
    apply in_map_iff. eauto.
  - apply map_ext_in. intros [f sub] Hin. rewrite Forall_forall in IH. apply (IH _ Hin). intros i Hi. apply H.
    cbn [rel_items]. apply in_or_app. right. apply in_flat_map. exists (f, sub). split; [exact Hin|].
    apply in_map_iff. eauto.
Qed.

Lemma default_mapped : forall m, default_mapping m = mapped m (fun _ => None).
Proof.
  induction m as [t p a simples structs refs IH] using model_ind'. cbn [default_mapping mapped]. rewrite own_names_columns. f_equal.
  apply map_ext_in. intros [f sub] Hin. rewrite Forall_forall in IH. apply (IH _ Hin).
Qed.

Definition eqb_item (x y : str * str) : bool := list_eqb (fst x) (fst y) && list_eqb (snd x) (snd y).
Lemma eqb_item_spec : forall x y, eqb_item x y = true <-> x = y.
Proof.
  intros [a b] [c d]. unfold eqb_item. cbn [fst snd]. rewrite andb_true_iff, !list_eqb_eq. split.
  - intros [-> ->]. reflexivity.
  - intros H. injection H as -> ->. auto.
Qed.

Definition upd (g : str * str -> option nat) (x : str * str) (i : nat) : str * str -> option nat :=
  fun y => if eqb_item x y then Some i else g y.

Lemma upd_same : forall g x i, upd g x i x = Some i.
Proof. intros. unfold upd. replace (eqb_item x x) with true; [reflexivity|]. symmetry. now apply eqb_item_spec. Qed.
Lemma upd_other : forall g x i y, x <> y -> upd g x i y = g y.
Proof.
  intros g x i y H. unfold upd. destruct (eqb_item x y) eqn:E; [|reflexivity]. apply eqb_item_spec in E. contradiction.
Qed.

Lemma set_own_mapped : forall (g : str -> option nat) n i names, NoDup names ->
  set_own (map (fun x => (x, g x)) names) n i =
  map (fun x => (x, if list_eqb n x then Some i else g x)) names.
Proof.
  intros g n i. induction names as [|x names IH]; intros Hn; [reflexivity|]. inversion Hn as [|? ? H1 H2]; subst.
  cbn [map set_own]. destruct (list_eqb n x) eqn:E.
  - f_equal. apply list_eqb_eq in E. subst x. apply map_ext_in. intros y Hy.
    replace (list_eqb n y) with false; [reflexivity|]. symmetry. apply list_eqb_neq. intros ->. contradiction.
  - now rewrite IH.
Qed.

Lemma join_path_inj : forall f r s, f <> [] -> join_path f r = join_path f s -> r = s.
Proof.
  intros f r s Hf H. destruct r as [|x r], s as [|y s]; cbn [join_path] in H; auto.
  - apply (f_equal (@length Z)) in H. rewrite app_length in H. cbn [length app] in H. lia.
  - apply (f_equal (@length Z)) in H. rewrite app_length in H. cbn [length app] in H. lia.
  - apply app_inv_head in H. cbn [app] in H. congruence.
Qed.

Lemma join_path_apart : forall f g r s, ~ In 46 f -> ~ In 46 g -> join_path f r = join_path g s -> f = g.
Proof.
  intros f g r s Hf Hg H. destruct (join_path_tail f r) as (a & Ea & Ta). destruct (join_path_tail g s) as (b & Eb & Tb).
  rewrite Ea, Eb in H. now destruct (apart f g a b).
Qed.

Lemma join_path_nonempty : forall f r, f <> [] -> join_path f r <> [].
Proof. intros f [|x r] H; cbn [join_path]; [exact H|]. destruct f; [contradiction|discriminate]. Qed.

Lemma inner_mapped : forall m g x i, everywhere names_distinct m -> everywhere table_apart m -> In x (rel_items m) ->
  inner m (mapped m g) (snd x) (fst x) i = mapped m (upd g x i).
Proof.
  induction m as [t p a simples structs refs IH] using model_ind'. intros g x i Hd Ht Hx.
  pose proof (everywhere_inv _ _ _ _ _ _ _ Hd) as [Hd1 Hd2].
  pose proof (everywhere_inv _ _ _ _ _ _ _ Ht) as [Ht1 Ht2].
  pose proof Hd1 as (Hc & Hnd & Hf).
  cbn [rel_items] in Hx. apply in_app_or in Hx as [Hx|Hx].
  - apply in_map_iff in Hx as (n & <- & Hn). cbn [fst snd mapped]. rewrite inner_own by exact Hd1. f_equal.
    + rewrite (set_own_mapped (fun n => g ([], n))) by exact Hc. apply map_ext. intros y. f_equal. unfold upd, eqb_item. cbn [fst snd].
      reflexivity.
    + apply map_ext_in. intros [f sub] Hin. apply mapped_ext. intros y _. rewrite upd_other; [reflexivity|].
      rewrite Forall_forall in Hf. intros E. injection E as E _. symmetry in E. revert E. apply join_path_nonempty. apply (Hf _ Hin).
  - apply in_flat_map in Hx as ([f sub] & Hin & Hx). apply in_map_iff in Hx as ([r c] & <- & Hr). cbn [fst snd].
    destruct (in_split _ _ Hin) as (r1 & r2 & ->). cbn [mapped inner].
    rewrite map_app. cbn [map].
    assert (Hnf : ~ In f (map fst r1)).
    { rewrite map_app in Hnd. cbn [map fst] in Hnd. apply NoDup_remove_2 in Hnd. intros H. apply Hnd. apply in_or_app. now left. }
    assert (Hnf2 : ~ In f (map fst r2)).
    { rewrite map_app in Hnd. cbn [map fst] in Hnd. apply NoDup_remove_2 in Hnd. intros H. apply Hnd. apply in_or_app. now right. }
    rewrite child_ref; [|apply map_length|exact Hnf|exact Hf].
    rewrite map_app. cbn [map].
    rewrite Forall_forall in Hf, Hd2, Ht2, IH. destruct (Hf _ Hin) as [Fne Fd]. cbn [fst] in Fne, Fd.
    assert (Oth : forall f' sub', In (f', sub') (r1 ++ (f, sub) :: r2) -> f' <> f ->
      mapped sub' (fun i0 => g (join_path f' (fst i0), snd i0)) =
      mapped sub' (fun i0 => upd g (join_path f r, c) i (join_path f' (fst i0), snd i0))).
    { intros f' sub' Hin' Hne. apply mapped_ext. intros y _. rewrite upd_other; [reflexivity|]. intros E. injection E as E _.
      apply Hne. symmetry. eapply join_path_apart; [| |exact E]; [exact Fd|]. apply (Hf _ Hin'). }
    f_equal; [|f_equal; [|f_equal]].
    + apply map_ext. intros n. rewrite upd_other; [reflexivity|]. intros E. injection E as E _. revert E. now apply join_path_nonempty.
    + apply map_ext_in. intros [f' sub'] Hin'. apply Oth; [apply in_or_app; now left|].
      intros ->. apply Hnf. apply in_map_iff. exists (f, sub'). auto.
    + rewrite set_mapping_eq.
      assert (St : strip_prefix_or r (m_table sub ++ [46]) = r).
      { destruct sub as [t' p' a' simples' structs' refs'].
        pose proof (everywhere_inv _ _ _ _ _ _ _ (Hd2 _ Hin)) as [D1 _]. pose proof (everywhere_inv _ _ _ _ _ _ _ (Ht2 _ Hin)) as [T1 _].
        exact (strip_nested t' p' a' simples' structs' refs' (r, c) Hr D1 T1). }
      rewrite St. pose proof (IH _ Hin (fun i0 => g (join_path f (fst i0), snd i0)) (r, c) i (Hd2 _ Hin) (Ht2 _ Hin) Hr) as E.
      cbn [fst snd] in E. rewrite E. apply mapped_ext. intros y _. unfold upd, eqb_item. cbn [fst snd].
      destruct (list_eqb c (snd y)); [|now rewrite !andb_false_r]. rewrite !andb_true_r.
      destruct (list_eqb r (fst y)) eqn:Er.
      * apply list_eqb_eq in Er. subst r. now rewrite list_eqb_refl.
      * replace (list_eqb (join_path f r) (join_path f (fst y))) with false; [reflexivity|].
        symmetry. apply list_eqb_neq. apply list_eqb_neq in Er. intros E'. apply Er. eapply join_path_inj; eauto.
    + apply map_ext_in. intros [f' sub'] Hin'. apply Oth; [apply in_or_app; right; now right|].
      intros ->. apply Hnf2. apply in_map_iff. exists (f, sub'). auto.
Qed.

(** ** Reading a row *)

(** The fields in order with their indices. *)
Definition flat (m : model) (g : str * str -> option nat) : list (str * option nat) :=
  map (fun i => (snd i, g i)) (rel_items m).

Lemma take_fields_app : forall l1 l2 row, take_fields (l1 ++ l2) row =
  rbind (take_fields l1 row) (fun '(vs, row) => rbind (take_fields l2 row) (fun '(ws, row) => Ok (vs ++ ws, row))).
Proof.
  induction l1 as [|f l1 IH]; intros l2 row; cbn [app take_fields rbind].
  - destruct (take_fields l2 row) as [[vs r]|e|]; reflexivity.
  - destruct (take_field f row) as [[v r]|e|]; cbn [rbind]; try reflexivity. rewrite IH.
    destruct (take_fields l1 r) as [[vs r']|e|]; cbn [rbind]; try reflexivity.
    destruct (take_fields l2 r') as [[ws r'']|e|]; reflexivity.
Qed.

Lemma from_row_mapped : forall m g row, from_row (mapped m g) row = take_fields (flat m g) row.
Proof.
  induction m as [t p a simples structs refs IH] using model_ind'. intros g row. cbn [mapped]. rewrite from_row_eq.
  unfold flat. cbn [rel_items]. rewrite map_app, map_map, take_fields_app. cbn [snd].
  match goal with |- rbind ?x _ = rbind ?y _ => change y with x; destruct x as [[vs row1]|e|] end; cbn [rbind]; try reflexivity.
  match goal with |- rbind ?x _ = rbind ?y _ => assert (E : x = y); [|rewrite E; reflexivity] end.
  clear vs row. revert row1. induction refs as [|[f sub] refs IHr]; intros row; [reflexivity|].
  inversion IH as [|? ? I1 I2]; subst. cbn [snd] in I1. cbn [map rows_all flat_map].
  rewrite map_app, map_map, take_fields_app. rewrite I1. unfold flat. cbn [snd].
  match goal with |- rbind ?x _ = rbind ?y _ => change y with x; destruct x as [[vs row1]|e|] end; cbn [rbind]; try reflexivity.
  rewrite (IHr I2). reflexivity.
Qed.

(** ** All columns *)

(** The last index at which a column stands in the query. *)
Fixpoint last_at (sel : list (str * str)) (k : nat) (x : str * str) : option nat :=
  match sel with
  | [] => None
  | y :: r => match last_at r (S k) x with Some i => Some i | None => if eqb_item y x then Some k else None end
  end.

Lemma last_at_spec : forall sel k x,
  match last_at sel k x with
  | Some i => (k <= i)%nat /\ is_last_at sel x (i - k)
  | None => ~ In x sel
  end.
Proof.
  induction sel as [|y sel IH]; intros k x; cbn [last_at]; [intros []|].
  specialize (IH (S k) x). destruct (last_at sel (S k) x) as [i|].
  - destruct IH as (Hk & H1 & H2). split; [lia|]. unfold is_last_at. replace (i - k)%nat with (S (i - S k)) by lia. split; [exact H1|].
    intros j Hj. destruct j as [|j]; [lia|]. cbn [nth_error]. apply H2. lia.
  - destruct (eqb_item y x) eqn:E.
    + apply eqb_item_spec in E. subst y. split; [lia|]. rewrite Nat.sub_diag. split; [reflexivity|].
      intros j Hj. destruct j as [|j]; [lia|]. cbn [nth_error]. intros Hn. apply IH. eapply nth_error_In; eauto.
    + intros [->|H]; [|auto]. apply not_true_iff_false in E. apply E. now apply eqb_item_spec.
Qed.

Lemma set_own_miss : forall own n i, ~ In n (map fst own) -> set_own own n i = own.
Proof.
  induction own as [|[x o] own IH]; intros n i H; [reflexivity|]. cbn [set_own].
  replace (list_eqb n x) with false; [|symmetry; apply list_eqb_neq; intros ->; apply H; now left].
  rewrite IH; [reflexivity|]. intros Hin. apply H. now right.
Qed.

Lemma set_unrelated : forall m g x i, unrelated m x -> set_mapping m (mapped m g) (snd x) (fst x) i = mapped m g.
Proof.
  intros [t p a simples structs refs] g x i (Hn & Hr). rewrite set_mapping_eq. cbn [m_table mapped inner].
  rewrite child_own.
  - rewrite set_own_miss; [reflexivity|]. rewrite map_map. cbn [fst]. rewrite map_id. exact Hn.
  - intros f Hf. unfold strip_prefix_or. destruct (starts_with (fst x) (t ++ [46])) eqn:E.
    + apply starts_with_spec in E as (s & E). rewrite E, skipn_app, skipn_all, Nat.sub_diag. cbn [app skipn]. split.
      * intros ->. specialize (Hr f [] Hf). inversion Hr as [|? ? _ H]; subst. inversion H as [|? ? (H1 & _) _]; subst. now apply H1.
      * destruct (starts_with s (f ++ [46])) eqn:E2; [|reflexivity]. apply starts_with_spec in E2 as (s2 & ->).
        specialize (Hr f s2 Hf). inversion Hr as [|? ? _ H]; subst. inversion H as [|? ? (_ & H1) _]; subst.
        elim H1. rewrite E, <- !app_assoc. reflexivity.
    + split.
      * intros Ef. specialize (Hr f [] Hf). inversion Hr as [|? ? (H1 & _) _]; subst. now apply H1.
      * destruct (starts_with (fst x) (f ++ [46])) eqn:E2; [|reflexivity]. apply starts_with_spec in E2 as (s2 & E2).
        specialize (Hr f s2 Hf). inversion Hr as [|? ? (_ & H1) _]; subst. elim H1. rewrite E2, <- app_assoc. reflexivity.
Qed.

Lemma unrelated_not_selected : forall m x, everywhere names_distinct m -> unrelated m x -> ~ In x (selected (m_table m) m).
Proof.
  intros [t p a simples structs refs] x Hd (Hn & Hr) Hin. cbn [m_table] in Hin. rewrite selected_rel in Hin by exact Hd.
  apply in_map_iff in Hin as ([r c] & <- & Hi). cbn [fst snd] in *. cbn [rel_items] in Hi. apply in_app_or in Hi as [Hi|Hi].
  - apply in_map_iff in Hi as (n & E & Hi). injection E as <- <-. contradiction.
  - apply in_flat_map in Hi as ([f sub] & Hf & Hi). apply in_map_iff in Hi as ([r' c'] & E & _). injection E as <- <-. cbn [fst] in *.
    assert (Hf' : In f (map fst refs)) by (apply in_map_iff; exists (f, sub); auto).
    pose proof (everywhere_inv _ _ _ _ _ _ _ Hd) as [(_ & _ & Hne) _]. rewrite Forall_forall in Hne. destruct (Hne _ Hf) as [Hne' _].
    cbn [fst] in Hne'. destruct r' as [|y r']; cbn [join_path] in Hr.
    + specialize (Hr f [] Hf'). inversion Hr as [|? ? _ H]; subst. inversion H as [|? ? (H1 & _) _]; subst.
      apply H1. destruct f; [contradiction|]. cbn [join_path]. now rewrite <- app_assoc.
    + specialize (Hr f (y :: r') Hf'). inversion Hr as [|? ? _ H]; subst. inversion H as [|? ? (_ & H1) _]; subst.
      apply H1. destruct f; [contradiction|]. cbn [join_path app]. now rewrite <- !app_assoc.
Qed.

Definition rooted (m : model) (i : str * str) : str * str := (join_path (m_table m) (fst i), snd i).

Lemma set_columns_mapped : forall m sel cols g k, everywhere names_distinct m -> everywhere table_apart m ->
  Forall (fun x => In x (selected (m_table m) m) \/ unrelated m x) sel -> describes sel cols ->
  set_columns m (mapped m g) k cols =
  mapped m (fun i => match last_at sel k (rooted m i) with Some j => Some j | None => g i end).
Proof.
  intros m sel. induction sel as [|y sel IH]; intros cols g k Hd Ht Hs Hc.
  - inversion Hc; subst. cbn [set_columns last_at]. reflexivity.
  - inversion Hc as [|? c ? ? (C1 & C2) Hc']; subst. inversion Hs as [|? ? Hy Hs']; subst. cbn [set_columns]. rewrite C1, C2.
    assert (Ht1 : m_table m <> []).
    { destruct m. apply everywhere_inv in Ht as [(T & _) _]. exact T. }
    destruct Hy as [Hy|Hy].
    + pose proof Hy as Hy'. rewrite selected_rel in Hy' by exact Hd. apply in_map_iff in Hy' as (i0 & E0 & Hi0).
      assert (Es : set_mapping m (mapped m g) (snd y) (fst y) k = mapped m (upd g i0 k)).
      { subst y. cbn [fst snd]. rewrite <- inner_mapped by assumption. destruct m as [t p a simples structs refs].
        cbn [mapped m_table]. apply set_root; [exact Hi0| |].
        - apply everywhere_inv in Hd. tauto.
        - apply everywhere_inv in Ht. tauto. }
      rewrite Es, (IH _ _ _ Hd Ht Hs' Hc'). apply mapped_ext. intros i Hi. cbn [last_at].
      destruct (last_at sel (S k) (rooted m i)); [reflexivity|].
      destruct (eqb_item y (rooted m i)) eqn:E.
      * apply eqb_item_spec in E. subst y. unfold rooted in E. injection E as E1 E2. apply join_path_inj in E1; [|exact Ht1].
        replace i with i0; [apply upd_same|]. destruct i, i0. cbn [fst snd] in *. congruence.
      * apply upd_other. intros ->. apply not_true_iff_false in E. apply E. apply eqb_item_spec. now rewrite <- E0.
    + rewrite set_unrelated by exact Hy. rewrite (IH _ _ _ Hd Ht Hs' Hc'). apply mapped_ext. intros i Hi. cbn [last_at].
      destruct (last_at sel (S k) (rooted m i)); [reflexivity|].
      destruct (eqb_item y (rooted m i)) eqn:E; [|reflexivity].
      apply eqb_item_spec in E. subst y. exfalso. apply (unrelated_not_selected m _ Hd Hy).
      rewrite selected_rel by exact Hd. apply in_map_iff. exists i. auto.
Qed.

(** ** The values *)

Lemma nth_error_put : forall {A} (v : A) i row j, (i < length row)%nat -> j <> i ->
  nth_error (firstn i row ++ v :: skipn (S i) row) j = nth_error row j.
Proof.
  intros A v. induction i as [|i IH]; intros [|a row] j Hi Hj; cbn [length] in Hi; try lia.
  - destruct j; [congruence|]. reflexivity.
  - destruct j; [reflexivity|]. change (nth_error (firstn i row ++ v :: skipn (S i) row) j = nth_error row j). apply IH; [lia|congruence].
Qed.

Lemma take_fields_ok : forall L row0 row, length row = length row0 ->
  (forall f i, In f L -> snd f = Some i -> nth_error row i = nth_error row0 i /\ (i < length row0)%nat) ->
  (forall f, In f L -> snd f <> None) -> NoDup (map snd L) ->
  exists vs left, take_fields L row = Ok (vs, left) /\
    Forall2 (fun f v => exists i, snd f = Some i /\ nth_error row0 i = Some v) L vs.
Proof.
  induction L as [|f L IH]; intros row0 row Hl Hv Hs Hn; cbn [take_fields].
  - eauto.
  - unfold take_field. destruct (snd f) as [i|] eqn:Ef; [|elim (Hs f); [now left|exact Ef]].
    destruct (Hv f i (or_introl eq_refl) Ef) as (H1 & H2).
    destruct (nth_error row i) as [v|] eqn:Ev; [|apply nth_error_None in Ev; lia]. cbn [rbind].
    cbn [map] in Hn. inversion Hn as [|? ? N1 N2]; subst.
    destruct (IH row0 (firstn i row ++ VNull :: skipn (S i) row)) as (vs & left & E & F).
    + rewrite app_length, firstn_length. cbn [length]. rewrite skipn_length. lia.
    + intros f' j Hin Ej. destruct (Hv f' j (or_intror Hin) Ej) as (G1 & G2). split; [|exact G2].
      assert (Hne : j <> i). { intros ->. apply N1. rewrite Ef, <- Ej. now apply in_map. }
      rewrite <- G1. apply nth_error_put; [lia|congruence].
    + intros f' Hin. apply Hs. now right.
    + exact N2.
    + rewrite E. cbn [rbind]. eexists _, _. split; [reflexivity|]. constructor; [|exact F].
      exists i. split; [exact Ef|]. rewrite <- H1. reflexivity.
Qed.

Lemma take_fields_missing : forall L1 n L2 row,
  Forall (fun f => exists i, snd f = Some i /\ (i < length row)%nat) L1 ->
  take_fields (L1 ++ (n, None) :: L2) row = Err (EMissingField n).
Proof.
  induction L1 as [|f L1 IH]; intros n L2 row H; [reflexivity|]. inversion H as [|? ? (i & Ef & Hi) H']; subst.
  cbn [app take_fields]. unfold take_field. rewrite Ef.
  destruct (nth_error row i) as [v|] eqn:Ev; [|apply nth_error_None in Ev; lia]. cbn [rbind]. rewrite IH; [reflexivity|].
  eapply Forall_impl; [|exact H']. intros g (j & Eg & Hj). exists j. split; [exact Eg|].
  rewrite app_length, firstn_length. cbn [length]. rewrite skipn_length. lia.
Qed.

(** ** Whole rows *)

Lemma from_columns_flat : forall m sel cols row, everywhere names_distinct m -> everywhere table_apart m ->
  Forall (fun x => In x (selected (m_table m) m) \/ unrelated m x) sel -> describes sel cols ->
  from_row (from_columns m cols) row = take_fields (map (fun x => (snd x, last_at sel 0 x)) (selected (m_table m) m)) row.
Proof.
  intros m sel cols row Hd Ht Hs Hc. unfold from_columns. rewrite default_mapped.
  rewrite (set_columns_mapped _ _ _ _ _ Hd Ht Hs Hc), from_row_mapped. unfold flat. rewrite selected_rel by exact Hd.
  rewrite map_map. f_equal. apply map_ext. intros i. cbn [snd]. unfold rooted.
  now destruct (last_at sel 0 (join_path (m_table m) (fst i), snd i)).
Qed.

Lemma describes_length : forall sel cols, describes sel cols -> length sel = length cols.
Proof. unfold describes. induction 1; cbn [length]; congruence. Qed.

Lemma last_at_length : forall sel x i, last_at sel 0 x = Some i -> is_last_at sel x i /\ (i < length sel)%nat.
Proof.
  intros sel x i E. pose proof (last_at_spec sel 0 x) as H. rewrite E in H. destruct H as (_ & H). rewrite Nat.sub_0_r in H.
  split; [exact H|]. destruct H as (H & _). apply nth_error_Some. congruence.
Qed.

Lemma rows_any : forall m sel cols row, everywhere names_distinct m -> everywhere table_apart m ->
  Forall (fun x => In x (selected (m_table m) m) \/ unrelated m x) sel -> describes sel cols -> length row = length cols ->
  incl (selected (m_table m) m) sel ->
  exists vs left, from_row (from_columns m cols) row = Ok (vs, left) /\
    Forall2 (fun x v => exists i, is_last_at sel x i /\ nth_error row i = Some v) (selected (m_table m) m) vs.
Proof.
  intros m sel cols row Hd Ht Hs Hc Hl Hi. rewrite (from_columns_flat _ _ _ _ Hd Ht Hs Hc).
  assert (Hls : length row = length sel) by (rewrite Hl; symmetry; exact (describes_length _ _ Hc)).
  assert (Hnd : NoDup (selected (m_table m) m)) by (apply selected_nodup; assumption).
  assert (Hsome : forall x, In x (selected (m_table m) m) -> exists i, last_at sel 0 x = Some i).
  { intros x Hx. pose proof (last_at_spec sel 0 x) as H. destruct (last_at sel 0 x); [eauto|]. elim H. now apply Hi. }
  destruct (take_fields_ok (map (fun x => (snd x, last_at sel 0 x)) (selected (m_table m) m)) row row) as (vs & left & E & F).
  - reflexivity.
  - intros f i Hf Ef. apply in_map_iff in Hf as (x & <- & Hx). cbn [snd] in Ef. apply last_at_length in Ef. split; [reflexivity|]. lia.
  - intros f Hf. apply in_map_iff in Hf as (x & <- & Hx). cbn [snd]. destruct (Hsome x Hx) as (i & ->). discriminate.
  - rewrite map_map. cbn [snd]. revert Hnd Hsome. generalize (selected (m_table m) m) as l. clear.
    induction l as [|x l IH]; intros Hnd Hsome; cbn [map]; constructor.
    + intros Hin. apply in_map_iff in Hin as (y & E & Hy). destruct (Hsome x (or_introl eq_refl)) as (i & Ei). rewrite Ei in E.
      apply last_at_length in E as ((E & _) & _). apply last_at_length in Ei as ((Ei & _) & _). rewrite Ei in E. injection E as ->.
      inversion Hnd; contradiction.
    + apply IH; [now inversion Hnd|]. intros y Hy. apply Hsome. now right.
  - exists vs, left. split; [exact E|]. clear E. revert vs F. generalize (selected (m_table m) m) as l.
    induction l as [|x l IH]; intros vs F; cbn [map] in F; inversion F as [|? v ? ? (i & E1 & E2) F']; subst; constructor; [|auto].
    cbn [snd] in E1. exists i. split; [|exact E2]. now apply last_at_length in E1.
Qed.

Lemma rows_missing : forall m sel cols row before x after, everywhere names_distinct m -> everywhere table_apart m ->
  Forall (fun x => In x (selected (m_table m) m) \/ unrelated m x) sel -> describes sel cols -> length row = length cols ->
  selected (m_table m) m = before ++ x :: after -> incl before sel -> ~ In x sel ->
  from_row (from_columns m cols) row = Err (EMissingField (snd x)).
Proof.
  intros m sel cols row before x after Hd Ht Hs Hc Hl Es Hi Hx. rewrite (from_columns_flat _ _ _ _ Hd Ht Hs Hc), Es.
  assert (Hls : length row = length sel) by (rewrite Hl; symmetry; exact (describes_length _ _ Hc)).
  rewrite map_app. cbn [map]. replace (last_at sel 0 x) with (@None nat).
  - apply take_fields_missing. apply Forall_forall. intros f Hf. apply in_map_iff in Hf as (y & <- & Hy). cbn [snd].
    pose proof (last_at_spec sel 0 y) as H. destruct (last_at sel 0 y) as [i|] eqn:E; [|elim H; now apply Hi].
    apply last_at_length in E. exists i. split; [reflexivity|]. lia.
  - pose proof (last_at_spec sel 0 x) as H. destruct (last_at sel 0 x) as [i|] eqn:E; [|reflexivity].
    apply last_at_length in E as ((E & _) & _). elim Hx. eapply nth_error_In; exact E.
Qed.
