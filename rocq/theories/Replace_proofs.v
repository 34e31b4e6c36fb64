(** The active model made from a whole model, as one with typed fields. *)
From Coq Require Import String ZArith List Bool Lia Permutation.
From Verif Require Import Base BaseFacts Types Conversion Models TypedModel Spec_Conv Spec_Model Spec_Engine Spec_Active Spec_Replace
  Model_proofs Typed_proofs Engine_proofs Active_proofs.
Import ListNotations.
Open Scope Z_scope.

Definition whole_simples (a : bool) (p : str) (simples : list (str * rust_type)) (xs : list rust_value) : list (option rust_value) :=
  map (fun '(f, v) => if a && list_eqb (fst f) p then None else Some v) (combine simples xs).

Fixpoint whole (m : tmodel) (x : tinstance) : tactive :=
  match m, x with
  | TModel t p a simples structs refs, TInstance xs ss cs =>
    TActive (whole_simples a p simples xs) (map Some ss)
      ((fix go (refs : list (str * tmodel)) (cs : list tinstance) : list tref :=
          match refs, cs with
          | (f, sub) :: refs', c :: cs' => TInsert (whole sub c) :: go refs' cs'
          | _, _ => []
          end) refs cs)
  end.
Fixpoint whole_refs (refs : list (str * tmodel)) (cs : list tinstance) : list tref :=
  match refs, cs with
  | (f, sub) :: refs', c :: cs' => TInsert (whole sub c) :: whole_refs refs' cs'
  | _, _ => []
  end.
Lemma whole_eq : forall t p a simples structs refs xs ss cs,
  whole (TModel t p a simples structs refs) (TInstance xs ss cs) = TActive (whole_simples a p simples xs) (map Some ss) (whole_refs refs cs).
Proof. reflexivity. Qed.

Fixpoint instances_of (refs : list (str * tmodel)) (cs : list tinstance) : list instance :=
  match refs, cs with
  | (_, sub) :: refs', c :: cs' => instance_of sub c :: instances_of refs' cs'
  | _, _ => []
  end.
Lemma instance_of_eq : forall t p a simples structs refs xs ss cs,
  instance_of (TModel t p a simples structs refs) (TInstance xs ss cs) =
  Instance (map (fun '(f, v) => field_into (snd f) v) (combine simples xs))
    (map (fun '(s, l) => map (fun '(f, v) => field_into (snd f) v) (combine (snd s) l)) (combine structs ss)) (instances_of refs cs).
Proof. reflexivity. Qed.

Lemma whole_active : forall m x, active_of m (whole m x) = into_active_model (untyped m) (instance_of m x).
Proof.
  induction m as [t p a simples structs refs IH] using tmodel_ind'. intros [xs ss cs].
  rewrite whole_eq, active_of_eq, instance_of_eq. cbn [untyped]. rewrite into_active_eq. f_equal.
  - unfold whole_simples, active_simples. clear. revert xs. induction simples as [|[n ty] l IH]; intros [|x xs]; try reflexivity.
    cbn [map combine fst snd]. rewrite IH. f_equal. now destruct (a && list_eqb n p).
  - clear. revert ss. induction structs as [|[n l] r IH]; intros [|s ss]; try reflexivity.
    cbn [map combine option_map fst snd]. rewrite IH. f_equal. f_equal. unfold struct_names. cbn [fst snd]. clear. revert s.
    induction l as [|[f ty] l IH]; intros [|v s]; try reflexivity. cbn [map combine fst snd]. now rewrite IH.
  - revert cs. induction IH as [|[f sub] refs H _ IH]; intros [|c cs]; try reflexivity.
    cbn [whole_refs tref_refs instances_of map active_refs fst snd] in *. now rewrite H, IH.
Qed.

Lemma whole_proper : forall T m x, all_exact m x -> proper T m (whole m x).
Proof.
  intros T. induction m as [t p a simples structs refs IH] using tmodel_ind'. intros x E.
  inversion E as [? ? ? ? ? ? xs ss cs E1 E2 E3]; subst. rewrite whole_eq. constructor.
  - unfold whole_simples. clear - E1. induction E1 as [|[n ty] v simples xs H _ IH]; [constructor|]. cbn [combine map fst snd].
    constructor; [|exact IH]. cbn [fst snd] in *. intros y Hy. destruct (a && list_eqb n p) eqn:K; [discriminate|]. injection Hy as ->.
    split; [exact H|]. intros -> ->. cbn [andb] in K. rewrite list_eqb_refl in K. discriminate.
  - clear - E2. induction E2 as [|s l structs ss H _ IH]; [constructor|]. cbn [map]. constructor; [|exact IH].
    intros l' Hl. injection Hl as ->. exact H.
  - clear - IH E3. induction E3 as [|[f sub] c refs cs H _ IH']; inversion_clear IH; cbn [whole_refs]; constructor; auto.
    cbn [snd] in *. constructor. auto.
Qed.

Lemma nth_whole : forall a p simples xs i n ty x, nth_error simples i = Some (n, ty) -> nth_error xs i = Some x ->
  nth_error (whole_simples a p simples xs) i = Some (if a && list_eqb n p then None else Some x).
Proof.
  intros a p. induction simples as [|f l IH]; intros [|v xs] [|i] n ty x H1 H2; try discriminate; cbn in H1, H2.
  - injection H1 as ->. injection H2 as ->. reflexivity.
  - unfold whole_simples. cbn [combine map nth_error]. now apply (IH xs i n ty x).
Qed.

Lemma same_structs : forall old (structs : list (str * list (str * rust_type))) (ss ss' : list (list rust_value)),
  length ss = length structs -> length ss' = length structs ->
  (forall i n parts g l, nth_error structs i = Some (n, parts) -> nth_error (map Some ss) i = Some g -> nth_error ss' i = Some l ->
     struct_becomes (old i) g parts l) -> ss' = ss.
Proof.
  intros old structs ss ss' L1 L2 H. apply nth_ext with (d := []) (d' := []); [congruence|]. intros i Hi.
  destruct (nth_error structs i) as [[n parts]|] eqn:E1; [|apply nth_error_None in E1; lia].
  destruct (nth_error ss i) as [g|] eqn:E2; [|apply nth_error_None in E2; lia].
  destruct (nth_error ss' i) as [l|] eqn:E3; [|apply nth_error_None in E3; lia].
  specialize (H i n parts (Some g) l E1 (map_nth_error Some i ss E2) E3). cbn in H. subst l.
  now rewrite (nth_error_nth _ _ [] E2), (nth_error_nth _ _ [] E3).
Qed.

Lemma whole_becomes : forall R m y old id z, all_exact m y -> becomes R m old (whole m y) id z ->
  match old with
  | None => saved m y id z
  | Some (TInstance xs xss xc as x) => length xs = match m with TModel _ _ _ simples _ _ => length simples end -> replaced m x y z
  end.
Proof.
  intros R. induction m as [t p a simples structs refs IH] using tmodel_ind'. intros y old id z E B.
  inversion E as [? ? ? ? ? ? ys ss cs E1 E2 E3]; subst. rewrite whole_eq in B.
  inversion B as [? ? ? ? ? ? ? ? ? ? ? zs zss zc L1 L2 F L3 L4 G Rf]; subst.
  assert (Ly : length ys = length simples) by (clear - E1; induction E1; cbn; congruence).
  assert (Ls : length ss = length structs) by (clear - E2; induction E2; cbn; congruence).
  assert (zss = ss) by exact (same_structs (old_struct old) structs ss zss Ls L4 G). subst zss.
  assert (C : saved_children refs cs zc).
  { clear - IH E3 Rf. revert zc Rf. generalize (old_children old (length refs)) as olds.
    induction E3 as [|[f sub] c refs cs H _ IH']; intros olds zc Rf; inversion_clear IH as [|? ? I1 I2]; cbn [whole_refs] in Rf;
      inversion Rf as [| |? ? ? ? ? ? id ? c' cs' B1 B2|]; subst; [constructor|].
    apply (saved_cons f sub refs c cs id c' cs'); [exact (I1 c None id c' H B1)|]. now apply (IH' I2 olds0). }
  destruct old as [[xs xss xc]|].
  - intros Lx. constructor; auto. intros i n ty x y z N1 N2 N3 N4.
    pose proof (F i n ty _ z N1 (nth_whole a p simples ys i n ty y N1 N3) N4) as K. cbn [old_simple] in K. rewrite N2 in K.
    destruct a; cbn [andb] in K; [|cbn in K; split; [discriminate|auto]].
    destruct (list_eqb n p) eqn:En; cbn in K.
    + apply list_eqb_eq in En. split; [auto|]. intros [X|X]; [discriminate|contradiction].
    + split; [|auto]. intros _ ->. rewrite list_eqb_refl in En. discriminate.
  - constructor; auto. intros i n ty x z N1 N2 N3.
    pose proof (F i n ty _ z N1 (nth_whole a p simples ys i n ty x N1 N2) N3) as K. cbn [old_simple] in K.
    destruct (a && list_eqb n p); exact K.
Qed.
