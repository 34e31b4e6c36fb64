(** Proofs about the classification of fields. *)
From Coq Require Import String ZArith List Bool Lia Permutation.
From Verif Require Import Base BaseFacts Types FieldTypes Spec_FieldTypes.
Import ListNotations.
Open Scope Z_scope.

Lemma matches_rev_spec : forall a b, matches_rev a b = true <-> (exists r, b = a ++ r) \/ (exists r, a = b ++ r).
Proof.
  induction a as [|x a IH]; intros [|y b]; cbn [matches_rev]; split; intros H; try reflexivity.
  - left. now exists [].
  - left. now exists (y :: b).
  - right. now exists (x :: a).
  - destruct (list_eqb x y) eqn:E; [|discriminate]. apply list_eqb_eq in E. subst y. apply IH in H as [(r & ->)|(r & ->)]; [left|right]; now exists r.
  - destruct H as [(r & E)|(r & E)]; cbn [app] in E; injection E as -> ->; rewrite list_eqb_refl; apply IH; [left|right]; now exists r.
Qed.

Lemma path_matches_spec : forall p full, path_matches p full = true <->
  (exists o, full = o ++ idents p) \/ (exists o, idents p = o ++ full).
Proof.
  intros p full. unfold path_matches. rewrite matches_rev_spec. split; (intros [(r & E)|(r & E)]; [left|right]).
  - exists (rev r). apply (f_equal (@rev str)) in E. now rewrite rev_app_distr, !rev_involutive in E.
  - exists (rev r). apply (f_equal (@rev str)) in E. now rewrite rev_app_distr, !rev_involutive in E.
  - exists (rev r). rewrite E. now rewrite rev_app_distr.
  - exists (rev r). rewrite E. now rewrite rev_app_distr.
Qed.

Lemma matches_written : forall p full, idents p <> [] -> (forall outer, outer <> [] -> idents p <> outer ++ full) ->
  path_matches p full = true <-> written full p.
Proof.
  intros p full Hn Hl. rewrite path_matches_spec. split.
  - intros [(o & E)|(o & E)]; [exists o; auto|]. destruct o as [|x o]; [exists []; cbn [app] in *; auto|].
    exfalso. now apply (Hl (x :: o)).
  - intros (o & E & _). left. now exists o.
Qed.

Lemma written_matches : forall p full, written full p -> path_matches p full = true.
Proof. intros p full (o & E & _). apply path_matches_spec. left. now exists o. Qed.

Lemma last_argument : forall p q, get_last_arguments_path p = Some q <-> applied_to p q.
Proof.
  intros [s] q. unfold get_last_arguments_path, applied_to. cbn [segments]. split.
  - destruct (rev s) as [|[n a] r] eqn:E; [discriminate|]. destruct a as [|[|[|q'] [|]]]; try discriminate. intros H. injection H as ->.
    exists (rev r), n. f_equal. rewrite <- (rev_involutive s), E. reflexivity.
  - intros (front & n & E). injection E as ->. rewrite rev_app_distr. reflexivity.
Qed.

Lemma scalars_same : forall full, In full SIMPLE <-> In full scalar_types.
Proof. intros full. unfold SIMPLE, scalar_types. cbn [map app In]. tauto. Qed.

Lemma scalar_spec : forall p, no_lookalike p ->
  existsb (path_matches p) SIMPLE = true <-> exists full, In full scalar_types /\ written full p.
Proof.
  intros p (Hn & Hl). rewrite existsb_exists. inversion Hl as [|? ? _ Hl1]; subst. inversion Hl1 as [|? ? _ Hl2]; subst.
  rewrite Forall_forall in Hl2. split.
  - intros (full & Hin & M). apply scalars_same in Hin. exists full. split; [exact Hin|]. apply matches_written in M; auto.
  - intros (full & Hin & W). exists full. split; [now apply scalars_same|]. now apply written_matches.
Qed.

Lemma vec_spec : forall p, no_lookalike p -> path_matches p vec_type = true <-> written vec_type p.
Proof. intros p (Hn & Hl). inversion Hl as [|? ? H _]; subst. now apply matches_written. Qed.

Lemma option_spec : forall p, no_lookalike p -> path_matches p option_type = true <-> written option_type p.
Proof. intros p (Hn & Hl). inversion Hl as [|? ? _ Hl1]; subst. inversion Hl1 as [|? ? H _]; subst. now apply matches_written. Qed.

Lemma u8_spec : forall p, no_lookalike p -> path_matches p [s2l "u8"] = true <-> written [s2l "u8"] p.
Proof.
  intros p (Hn & Hl). inversion Hl as [|? ? _ Hl1]; subst. inversion Hl1 as [|? ? _ Hl2]; subst. rewrite Forall_forall in Hl2.
  apply matches_written; [exact Hn|]. apply Hl2. unfold scalar_types. cbn [map app In]. tauto.
Qed.

Lemma last_name : forall full p, written full p -> last (idents p) [] = last full [].
Proof.
  intros full p (o & -> & Hn). destruct (exists_last Hn) as (l & x & E). rewrite E, app_assoc, !last_last. reflexivity.
Qed.

Lemma vec_not_option : forall p, written vec_type p -> written option_type p -> False.
Proof. intros p H1 H2. apply last_name in H1, H2. rewrite H1 in H2. vm_compute in H2. discriminate. Qed.

Lemma inner_spec : forall p, no_lookalike p -> (forall q, applied_to p q -> no_lookalike q) ->
  is_simple_inner p = true <-> plain_column p.
Proof.
  intros p Hp Hq. unfold is_simple_inner, plain_column. destruct (existsb (path_matches p) SIMPLE) eqn:E.
  - split; [intros _|auto]. left. now apply scalar_spec.
  - assert (Hs : ~ exists full, In full scalar_types /\ written full p).
    { intros H. apply scalar_spec in H; [congruence|exact Hp]. }
    change [s2l "std"; s2l "vec"; s2l "Vec"] with vec_type. destruct (path_matches p vec_type) eqn:V.
    + apply vec_spec in V; [|exact Hp]. destruct (get_last_arguments_path p) as [q|] eqn:G.
      * apply last_argument in G. rewrite u8_spec by auto. split.
        -- intros W. right. eauto.
        -- intros [H|(_ & q' & A & W)]; [contradiction|]. apply last_argument in A, G. rewrite G in A. injection A as <-. exact W.
      * split; [discriminate|]. intros [H|(_ & q' & A & W)]; [contradiction|]. apply last_argument in A. congruence.
    + split; [discriminate|]. intros [H|(W & _)]; [contradiction|]. apply written_matches in W. congruence.
Qed.

Lemma inner_eq : forall p, is_simple_inner p =
  if existsb (path_matches p) SIMPLE then true else
  if path_matches p vec_type then match get_last_arguments_path p with Some q => path_matches q [s2l "u8"] | None => false end else false.
Proof. reflexivity. Qed.

Lemma simple_spec : forall p, no_lookalike p -> (forall q, applied_to p q -> no_lookalike q) ->
  (forall q r, applied_to p q -> applied_to q r -> no_lookalike r) -> is_simple p = true <-> column p.
Proof.
  intros p Hp Hq Hr. unfold column. rewrite <- (inner_spec p Hp Hq), (inner_eq p). unfold is_simple.
  change [s2l "std"; s2l "vec"; s2l "Vec"] with vec_type. change [s2l "std"; s2l "option"; s2l "Option"] with option_type.
  destruct (existsb (path_matches p) SIMPLE) eqn:E; [tauto|].
  destruct (path_matches p vec_type) eqn:V.
  - assert (No : ~ (written option_type p /\ exists q, applied_to p q /\ plain_column q)).
    { intros (W & _). apply vec_spec in V; [|exact Hp]. eapply vec_not_option; eauto. }
    destruct (get_last_arguments_path p) as [q|] eqn:G.
    + tauto.
    + destruct (path_matches p option_type) eqn:O; [|intuition discriminate].
      exfalso. apply option_spec in O; [|exact Hp]. apply vec_spec in V; [|exact Hp]. eapply vec_not_option; eauto.
  - destruct (path_matches p option_type) eqn:O.
    + apply option_spec in O; [|exact Hp]. destruct (get_last_arguments_path p) as [q|] eqn:G.
      * apply last_argument in G. rewrite inner_spec; [|auto|eauto]. split.
        -- intros H. right. eauto.
        -- intros [H|(_ & q' & A & H)]; [discriminate|]. apply last_argument in A, G. rewrite G in A. injection A as <-. exact H.
      * split; [discriminate|]. intros [H|(_ & q' & A & H)]; [discriminate|]. apply last_argument in A. congruence.
    + split; [discriminate|]. intros [H|(W & _)]; [discriminate|]. apply written_matches in W. congruence.
Qed.

Lemma idents_eq_spec : forall a b, idents_eq a b = true <-> a = b.
Proof.
  induction a as [|x a IH]; intros [|y b]; cbn [idents_eq]; split; intros H; try reflexivity; try discriminate.
  - apply andb_true_iff in H as (H1 & H2). apply list_eqb_eq in H1. apply IH in H2. congruence.
  - injection H as -> ->. rewrite list_eqb_refl. now apply IH.
Qed.

(** ** Exactly what is taken for a column *)

Lemma alike_spec : forall p full, path_matches p full = true <-> ends_alike full p.
Proof.
  intros p full. rewrite path_matches_spec. unfold ends_alike. split.
  - intros [(o & E)|(o & E)]; exists o; auto.
  - intros (o & [E|E]); [left | right]; now exists o.
Qed.

Lemma scalar_like : forall p, existsb (path_matches p) SIMPLE = true <-> exists full, In full scalar_types /\ ends_alike full p.
Proof.
  intros p. rewrite existsb_exists. split; intros (full & Hin & H); exists full; split; try (now apply scalars_same); now apply alike_spec.
Qed.

Lemma like_last : forall full p, ends_alike full p -> full <> [] -> idents p <> [] -> last (idents p) [] = last full [].
Proof.
  intros full p (o & [E|E]) Hf Hp.
  - destruct (exists_last Hp) as (l & x & X). rewrite E, X, app_assoc, !last_last. reflexivity.
  - destruct (exists_last Hf) as (l & x & X). rewrite E, X, app_assoc, !last_last. reflexivity.
Qed.

Lemma like_one : forall p, ends_alike vec_type p -> ends_alike option_type p -> idents p = [].
Proof.
  intros p V O. destruct (idents p) as [|x l] eqn:E; [reflexivity|].
  apply like_last in V; [|discriminate|congruence]. apply like_last in O; [|discriminate|congruence]. rewrite V in O. vm_compute in O. discriminate.
Qed.

Lemma inner_like : forall p, is_simple_inner p = true <-> plain_column_like p.
Proof.
  intros p. rewrite inner_eq. unfold plain_column_like. rewrite <- scalar_like, <- alike_spec.
  destruct (existsb (path_matches p) SIMPLE); [tauto|]. destruct (path_matches p vec_type).
  - destruct (get_last_arguments_path p) as [q|] eqn:G.
    + rewrite alike_spec. apply last_argument in G. split.
      * intros H. right. eauto.
      * intros [H|(_ & q' & A & W)]; [discriminate|]. apply last_argument in A, G. rewrite G in A. injection A as <-. exact W.
    + split; [discriminate|]. intros [H|(_ & q' & A & W)]; [discriminate|]. apply last_argument in A. congruence.
  - split; [discriminate|]. intros [H|(H & _)]; discriminate.
Qed.

Lemma simple_like : forall p, is_simple p = true <-> column_like p.
Proof.
  intros p. unfold column_like. rewrite <- (inner_like p), (inner_eq p). unfold is_simple.
  change [s2l "std"; s2l "vec"; s2l "Vec"] with vec_type. change [s2l "std"; s2l "option"; s2l "Option"] with option_type.
  destruct (existsb (path_matches p) SIMPLE) eqn:E; [tauto|].
  assert (Ne : idents p <> []).
  { intros N. assert (existsb (path_matches p) SIMPLE = true); [|congruence]. apply scalar_like. exists [s2l "u8"].
    split; [unfold scalar_types; cbn [map app In]; tauto|]. exists [s2l "u8"]. left. now rewrite N. }
  assert (One : path_matches p vec_type = true -> path_matches p option_type = true -> False).
  { intros V O. apply alike_spec in V, O. apply Ne. now apply like_one. }
  rewrite <- (alike_spec p option_type).
  destruct (path_matches p vec_type).
  - destruct (path_matches p option_type); [exfalso; auto|]. destruct (get_last_arguments_path p) as [q|]; intuition discriminate.
  - destruct (path_matches p option_type).
    + destruct (get_last_arguments_path p) as [q|] eqn:G.
      * apply last_argument in G. rewrite inner_like. split.
        -- intros H. right. eauto.
        -- intros [H|(_ & q' & A & H)]; [discriminate|]. apply last_argument in A, G. rewrite G in A. injection A as <-. exact H.
      * split; [discriminate|]. intros [H|(_ & q' & A & H)]; [discriminate|]. apply last_argument in A. congruence.
    + intuition discriminate.
Qed.
