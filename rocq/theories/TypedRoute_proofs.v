(** Proofs about reading typed models from any columns. *)
From Coq Require Import ZArith List Bool Lia.
From Verif Require Import Base BaseFacts Types Models TypedModel Conn Spec_Conn Spec_Conv Spec_Model Spec_Typed Spec_Route Model_proofs Mapping_proofs Typed_proofs Route_proofs Spec_TypedRoute.
Import ListNotations.
Open Scope Z_scope.

Definition entry (g : list str * str -> option nat) (x : list str * str) : str * option nat := (snd x, g x).

Lemma types_fields_length : forall m, length (types_of m) = length (Spec_Route.fields_of (untyped m)).
Proof.
  induction m as [t p a simples structs refs IH] using tmodel_ind'. cbn [types_of untyped Spec_Route.fields_of].
  rewrite app_assoc, app_length, <- columns_types_length, app_length, (map_length (@pair (list str) str [])). f_equal.
  induction refs as [|[f sub] refs IHr]; [reflexivity|]. inversion IH as [|? ? I1 I2]; subst. cbn [map flat_map snd] in *.
  rewrite !app_length, map_length, I1, (IHr I2). reflexivity.
Qed.

Lemma from_mapping_placed : forall m g row,
  reshaped (shaped m) Spec_Typed.fields_of (from_mapping_and_row m (placed (untyped m) g) row)
    (take_conv (types_of m) (map (entry g) (Spec_Route.fields_of (untyped m))) row).
Proof.
  induction m as [t p a simples structs refs IH] using tmodel_ind'. intros g row. cbn [untyped placed]. rewrite from_mapping_eq.
  cbn [Spec_Route.fields_of types_of]. rewrite map_app, (map_map (@pair (list str) str [])). unfold entry at 1. cbn [snd].
  set (structs' := map (fun s => (fst s, map fst (snd s))) structs).
  set (G := fun n => (n, g ([], n))).
  assert (EC : columns_of (map fst simples) structs' = map fst simples ++ columns_of [] structs') by reflexivity.
  change (fun x => (x, g ([], x))) with G. rewrite EC, !(map_app G), <- app_assoc.
  rewrite take_typed_conv by (rewrite !map_length; reflexivity).
  rewrite take_conv_app by (rewrite !map_length; reflexivity).
  match goal with |- context[rbind (rbind ?x _) _] => destruct x as [[xs r1]|e|] eqn:C1 end; cbn [rbind reshaped]; try reflexivity.
  assert (L1 : length simples = length xs).
  { apply take_conv_length in C1; [|rewrite !map_length; reflexivity]. rewrite map_length in C1. congruence. }
  assert (L2 : length (map G (columns_of [] structs')) = length (flat_map (fun s : str * list (str * rust_type) => snd s) structs)).
  { rewrite map_length. unfold structs', columns_of. cbn [app]. clear. induction structs as [|[n l] structs IH]; [reflexivity|].
    cbn [map flat_map fst snd]. rewrite !app_length, !map_length. f_equal. exact IH. }
  pose proof (structs_conv structs (map G (columns_of [] structs')) r1 L2) as S.
  rewrite take_conv_app by (rewrite L2; clear; induction structs as [|[n l] structs IH]; [reflexivity|];
    cbn [flat_map snd]; rewrite !app_length, map_length; f_equal; exact IH).
  unfold reshaped in S. destruct (take_conv _ (map G (columns_of [] structs')) r1) as [[ys r2]|e|]; cbn [rbind reshaped];
    [|now rewrite S|now rewrite S].
  destruct S as (ss & -> & S & <-). cbn [rbind].
  match goal with |- context[take_conv ?a ?b r2] => set (T := a); set (O := b) end.
  assert (CH : reshaped (fun cs => Forall2 (fun r c => shaped (snd r) c) refs cs) (flat_map Spec_Typed.fields_of)
    (children_rows refs (map (fun r => match r with (f, sub) => placed sub (fun x => g (f :: fst x, snd x)) end)
       (map (fun r => match r with (f, sub) => (f, untyped sub) end) refs)) r2) (take_conv T O r2)).
  { unfold T, O. clear - IH. revert r2. induction refs as [|[f sub] refs IHr]; intros row.
    - cbn. exists []. splits; [reflexivity|constructor|reflexivity].
    - inversion IH as [|? ? I1 I2]; subst. cbn [snd] in I1. cbn [map flat_map children_rows].
      rewrite map_app, (map_map (fun x : list str * str => (f :: fst x, snd x))). specialize (I1 (fun x => g (f :: fst x, snd x)) row).
      rewrite take_conv_app by (rewrite map_length; apply types_fields_length).
      change (fun x : list str * str => entry g (f :: fst x, snd x)) with (entry (fun x : list str * str => g (f :: fst x, snd x))).
      unfold reshaped in I1.
      match type of I1 with match ?c with _ => _ end => destruct c as [[zs r3]|e|] end; cbn [rbind reshaped]; [|now rewrite I1|now rewrite I1].
      destruct I1 as (x & E & Sx & <-). rewrite E. cbn [rbind]. specialize (IHr I2 r3). unfold reshaped in IHr.
      match type of IHr with match ?c with _ => _ end => destruct c as [[ws r4]|e|] end; cbn [rbind];
        [|now rewrite IHr|now rewrite IHr].
      destruct IHr as (cs & -> & Sc & <-). cbn [rbind]. exists (x :: cs). splits; [reflexivity|constructor; assumption|reflexivity]. }
  unfold reshaped in CH. destruct (take_conv T O r2) as [[zs r3]|e|]; cbn [rbind]; [|now rewrite CH|now rewrite CH].
  destruct CH as (cs & -> & Sc & <-). cbn [rbind]. exists (TInstance xs ss cs). splits; [reflexivity|now constructor|reflexivity].
Qed.

Lemma nth_error_firstn_lt : forall A n (l : list A) i, (i < n)%nat -> nth_error (firstn n l) i = nth_error l i.
Proof. induction n as [|n IH]; intros [|a l] [|i] H; try lia; try reflexivity. cbn [firstn nth_error]. apply IH. lia. Qed.
Lemma nth_error_skipn_add : forall A n (l : list A) i, nth_error (skipn n l) i = nth_error l (n + i).
Proof. induction n as [|n IH]; intros [|a l] i; cbn [skipn Nat.add nth_error]; try reflexivity; [now destruct i|apply IH]. Qed.

(** ** Fields in order *)
Section any.
Context (um : model) (cols : list column) (row : list value).
Context (Hd : everywhere names_distinct um) (Hl : length row = length cols) (Hv : Forall value_ok row).

Notation g := (last_to um cols 0).
Notation hv := (has_value um cols row).

Lemma hv_unique : forall x v w, hv x v -> hv x w -> v = w.
Proof. intros x v w (i & A & B) (j & C & D). rewrite (takes_unique _ _ _ _ _ A C) in B. congruence. Qed.

Lemma hv_ok : forall x v, hv x v -> value_ok v.
Proof. intros x v (i & _ & E). rewrite Forall_forall in Hv. apply Hv. eapply nth_error_In; eauto. Qed.

(** The fields [L] are still to be read. *)
Definition untouched (L : list (list str * str)) (r : list value) : Prop :=
  length r = length row /\ forall x i, In x L -> takes um cols x i -> nth_error r i = nth_error row i.

Lemma g_none : forall x, g x = None <-> (forall c, In c cols -> ~ column_of um x c).
Proof.
  intros x. pose proof (last_to_spec um cols 0 x Hd) as S. split.
  - intros E. rewrite E in S. now rewrite Forall_forall in S.
  - intros H. destruct (g x) as [i|] eqn:E; [|reflexivity]. apply takes_last in E; [|exact Hd]. destruct E as ((c & C & G) & _).
    elim (H c (nth_error_In _ _ C) G).
Qed.

Lemma step : forall x L r, untouched (x :: L) r -> ~ In x L ->
  (g x = None /\ take_field (entry g x) r = Err (EMissingField (snd x))) \/
  (exists v r', hv x v /\ take_field (entry g x) r = Ok (v, r') /\ untouched L r').
Proof.
  intros x L r (Lr & U) N. unfold take_field, entry. cbn [fst snd]. destruct (g x) as [i|] eqn:E; [right|left; auto].
  apply takes_last in E; [|exact Hd]. pose proof (takes_bound _ _ _ _ E) as B.
  destruct (nth_error row i) as [v|] eqn:Ei; [|apply nth_error_None in Ei; lia].
  exists v, (firstn i r ++ VNull :: skipn (S i) r). rewrite (U x i (or_introl eq_refl) E), Ei. splits; [exists i; auto|reflexivity|split].
  - rewrite app_length. cbn [length]. rewrite firstn_length, skipn_length. lia.
  - intros y j Hy T. rewrite <- (U y j (or_intror Hy) T). assert (j <> i).
    { intros ->. rewrite (takes_apart _ _ _ _ _ Hd T E) in Hy. contradiction. }
    destruct (Nat.lt_ge_cases j i) as [X|X].
    + rewrite nth_error_app1 by (rewrite firstn_length; lia). apply nth_error_firstn_lt. exact X.
    + rewrite nth_error_app2 by (rewrite firstn_length; lia). rewrite firstn_length.
      replace (j - Nat.min i (length r))%nat with (S (j - S i)) by lia. cbn [nth_error]. rewrite nth_error_skipn_add. f_equal. lia.
Qed.

Definition refused_in (ts : list rust_type) (L : list (list str * str)) (e : parse_error) : Prop :=
  exists before x after t1 t t2 vs xs, L = before ++ x :: after /\ ts = t1 ++ t :: t2 /\
    Forall2 hv before vs /\ reads_all t1 vs xs /\
    ((forall c, In c cols -> ~ column_of um x c) /\ e = EMissingField (snd x) \/ exists v, hv x v /\ refuses t v e).

Lemma conv_any : forall L ts r, NoDup L -> length ts = length L -> untouched L r ->
  match take_conv ts (map (entry g) L) r with
  | Ok (xs, _) => (exists vs, Forall2 hv L vs /\ reads_all ts vs xs)
  | Err e => refused_in ts L e
  | Panic => False
  end.
Proof.
  induction L as [|x L IH]; intros [|t ts] r N Lt U; try discriminate; cbn [map take_conv].
  - exists []. split; constructor.
  - inversion N as [|? ? N1 N2]; subst. injection Lt as Lt.
    destruct (step x L r U N1) as [(G & ->)|(v & r' & V & -> & U')]; cbn [rbind].
    + exists [], x, L, [], t, ts, [], []. splits; [reflexivity|reflexivity|constructor|constructor|]. left. split; [now apply g_none|reflexivity].
    + destruct (field_iff t v (hv_ok _ _ V)) as (F1 & F2 & F3). destruct (field_try_into t v) as [y|e|]; [| |now elim F3]; cbn [rbind].
      * specialize (IH ts r' N2 Lt U'). destruct (take_conv ts (map (entry g) L) r') as [[xs r2]|e|]; cbn [rbind]; [| |exact IH].
        -- destruct IH as (vs & A & B). exists (v :: vs). split; constructor; auto. now apply F1.
        -- destruct IH as (b & z & a & t1 & t' & t2 & vs & xs & -> & -> & A & B & C).
           exists (x :: b), z, a, (t :: t1), t', t2, (v :: vs), (y :: xs). splits; try reflexivity; [constructor; auto|constructor; [now apply F1|auto]|exact C].
      * exists [], x, L, [], t, ts, [], []. splits; [reflexivity|reflexivity|constructor|constructor|]. right. exists v. split; [exact V|now apply F2].
Qed.

Lemma conv_reads : forall L ts r vs xs, NoDup L -> untouched L r -> Forall2 hv L vs -> reads_all ts vs xs ->
  exists r', take_conv ts (map (entry g) L) r = Ok (xs, r').
Proof.
  intros L ts r vs xs N U F. revert ts r xs N U. induction F as [|x v L vs V F IH]; intros ts r xs N U R; inversion R as [|t ? y ts' ? ys R1 R2]; subst.
  - exists r. reflexivity.
  - inversion N as [|? ? N1 N2]; subst. cbn [map take_conv].
    destruct (step x L r U N1) as [(G & _)|(w & r' & W & -> & U')]; cbn [rbind].
    + exfalso. destruct V as (i & T & _). apply takes_last in T; [|exact Hd]. congruence.
    + rewrite <- (hv_unique _ _ _ V W) in *. rewrite (reads_fun _ _ _ R1 (hv_ok _ _ V)). cbn [rbind].
      destruct (IH ts' r' ys N2 U' R2) as (r2 & ->). cbn [rbind]. now exists r2.
Qed.

Lemma conv_refused : forall L ts r e, NoDup L -> untouched L r -> refused_in ts L e -> take_conv ts (map (entry g) L) r = Err e.
Proof.
  intros L ts r e N U (b & x & a & t1 & t & t2 & vs & xs & -> & -> & F & R & C).
  revert t1 r xs N U R. induction F as [|z v b vs V F IH]; intros t1 r xs N U R; inversion R as [|t' ? y ts' ? ys R1 R2]; subst; cbn [app map take_conv] in *;
    inversion N as [|? ? N1 N2]; subst.
  - destruct (step x a r U N1) as [(G & ->)|(w & r' & W & -> & U')]; cbn [rbind].
    + destruct C as [(_ & ->)|(v & V & _)]; [reflexivity|]. exfalso. destruct V as (i & T & _). apply takes_last in T; [|exact Hd]. congruence.
    + destruct C as [(G & _)|(v & V & Rf)].
      * exfalso. destruct W as (i & ((c & C & G') & _) & _). elim (G c (nth_error_In _ _ C) G').
      * rewrite <- (hv_unique _ _ _ V W). rewrite (refuses_fun _ _ _ Rf (hv_ok _ _ V)). reflexivity.
  - destruct (step z (b ++ x :: a) r U N1) as [(G & _)|(w & r' & W & -> & U')]; cbn [rbind].
    + exfalso. destruct V as (i & T & _). apply takes_last in T; [|exact Hd]. congruence.
    + rewrite <- (hv_unique _ _ _ V W) in *. rewrite (reads_fun _ _ _ R1 (hv_ok _ _ V)). cbn [rbind].
      now rewrite (IH ts' r' ys N2 U' R2).
Qed.
End any.

Lemma typed_any : forall m cols row, everywhere names_distinct (untyped m) -> length row = length cols -> Forall value_ok row ->
  let r := rmap fst (from_mapping_and_row m (from_columns (untyped m) cols) row) in
  (forall x, r = Ok x <-> any_row m cols row x) /\ (forall e, r = Err e <-> any_refused m cols row e) /\ r <> Panic.
Proof.
  intros m cols row Hd Hl Hv. cbv zeta.
  assert (E : from_columns (untyped m) cols = placed (untyped m) (last_to (untyped m) cols 0)).
  { unfold from_columns. rewrite default_placed, columns_placed by exact Hd. apply placed_ext. intros x _. now destruct (last_to (untyped m) cols 0 x). }
  rewrite E. pose proof (from_mapping_placed m (last_to (untyped m) cols 0) row) as M.
  set (L := Spec_Route.fields_of (untyped m)) in *.
  assert (N : NoDup L) by now apply fields_nodup.
  assert (U : untouched (untyped m) cols row L row) by (split; auto).
  assert (Lt : length (types_of m) = length L) by apply types_fields_length.
  pose proof (conv_any (untyped m) cols row Hd Hl Hv L (types_of m) row N Lt U) as A.
  pose proof (fun vs xs => conv_reads (untyped m) cols row Hd Hl Hv L (types_of m) row vs xs N U) as B.
  pose proof (fun e => conv_refused (untyped m) cols row Hd Hl Hv L (types_of m) row e N U) as C.
  change (refused_in (untyped m) cols row (types_of m) L) with (any_refused m cols row) in *.
  unfold any_row, row_of. fold L.
  destruct (take_conv (types_of m) (map (entry (last_to (untyped m) cols 0)) L) row) as [[xs r]|e|]; cbn [reshaped] in M; [| |contradiction].
  - destruct M as (x & -> & S & Ex). cbn [rmap fst]. splits; [| |discriminate].
    + intros y. split.
      * intros H. injection H as <-. destruct A as (vs & A1 & A2). exists vs. rewrite Ex. auto.
      * intros (vs & A1 & Sy & A2). destruct (B vs _ A1 A2) as (r' & X). injection X as X _.
        assert (x = y) as <-; [|reflexivity]. refine (proj1 (shaped_unique m x y S Sy [] [] _)). rewrite !app_nil_r. congruence.
    + intros e. split; [discriminate|]. intros H. apply C in H. discriminate.
  - rewrite M. cbn [rmap]. splits; [| |discriminate].
    + intros y. split; [discriminate|]. intros (vs & A1 & Sy & A2). destruct (B vs _ A1 A2) as (r' & X). discriminate.
    + intros e'. split; [intros H; injection H as <-; exact A|]. intros H. apply C in H. injection H as <-. reflexivity.
Qed.

Lemma rows_any_read : forall values m cols rows vss, everywhere names_distinct (untyped m) -> Forall (fun r => length r = length cols /\ Forall value_ok r) vss ->
  all_rows values cols rows = Ok vss ->
  let r := all_rows (model_rows values m) cols rows in
  (forall xs, r = Ok xs <-> Forall2 (any_row m cols) vss xs) /\
  (forall e, r = Err e <-> exists p, e = EProtocol (PParse p) /\ any_rows_refused m cols vss p) /\ r <> Panic.
Proof.
  intros values m cols rows vss Ha. revert vss. induction rows as [|p rows IH]; intros vss Hv E; cbn [all_rows] in *.
  - injection E as <-. cbv zeta. splits.
    + intros xs. split; [intros H; injection H as <-; constructor|]. intros H. inversion H. reflexivity.
    + intros e. split; [discriminate|]. intros (q & _ & b & row & a & xs & X & _). destruct b; discriminate.
    + discriminate.
  - destruct (values cols p) as [row|e|] eqn:Ev; try discriminate.
    destruct (all_rows values cols rows) as [vss'|e|] eqn:Er; try discriminate. injection E as <-.
    inversion Hv as [|? ? (V1 & V2) V3]; subst. destruct (typed_any m cols row Ha V1 V2) as (R1 & R2 & R3).
    destruct (IH vss' V3 eq_refl) as (I1 & I2 & I3). cbv zeta in *.
    assert (EM : model_rows values m cols p = of_parse (rmap fst (from_mapping_and_row m (from_columns (untyped m) cols) row))).
    { unfold model_rows. rewrite Ev. reflexivity. }
    rewrite EM.
    destruct (rmap fst (from_mapping_and_row m (from_columns (untyped m) cols) row)) as [x|e|]; unfold of_parse; cbn [rmap_err]; [| |contradiction].
    + splits.
      * intros xs. destruct (all_rows (model_rows values m) cols rows) as [ys|e|].
        -- split; [intros H; injection H as <-; constructor; [now apply R1|now apply I1]|].
           intros H. inversion H as [|? y ? ys' A1 A2]; subst. apply R1 in A1. apply I1 in A2. congruence.
        -- split; [discriminate|]. intros H. inversion H as [|? y ? ys' A1 A2]; subst. apply I1 in A2. discriminate.
        -- contradiction.
      * intros e. split.
        -- intros H. destruct (all_rows (model_rows values m) cols rows) as [ys|e'|]; [discriminate| |discriminate].
           injection H as <-. destruct (proj1 (I2 e') eq_refl) as (q & -> & b & r & a & xs & -> & F & Rf).
           exists q. split; [reflexivity|]. exists (row :: b), r, a, (x :: xs). splits; [reflexivity| |exact Rf].
           constructor; [now apply R1|exact F].
        -- intros (q & -> & b & r & a & xs & X & F & Rf). destruct b as [|b0 b].
           ++ cbn [app] in X. injection X as <- <-. apply R2 in Rf. discriminate.
           ++ cbn [app] in X. injection X as <- ->. inversion F as [|? y ? ys F1 F2]; subst.
              assert (C : all_rows (model_rows values m) cols rows = Err (EProtocol (PParse q))).
              { apply I2. exists q. split; [reflexivity|]. exists b, r, a, ys. splits; [reflexivity|exact F2|exact Rf]. }
              rewrite C. reflexivity.
      * destruct (all_rows (model_rows values m) cols rows); [discriminate|discriminate|contradiction].
    + splits.
      * intros xs. split; [discriminate|]. intros H. inversion H as [|? y ? ys' A1 A2]; subst. apply R1 in A1. discriminate.
      * intros e'. split.
        -- intros H. injection H as <-. exists e. split; [reflexivity|]. exists [], row, vss', []. splits; [reflexivity|constructor|now apply R2].
        -- intros (q & -> & b & r & a & xs & X & F & Rf). destruct b as [|b0 b].
           ++ cbn [app] in X. injection X as <- <-. apply R2 in Rf. congruence.
           ++ cbn [app] in X. injection X as <- ->. inversion F as [|? y ? ys F1 F2]; subst. apply R1 in F1. discriminate.
      * discriminate.
Qed.
