(** Proofs about reading rows as models. *)
From Coq Require Import String ZArith List Bool Lia.
From Verif Require Import Base BaseFacts Types Framing Utf8 Conversion Spec_Conv Conversion_proofs Models Spec_Model Spec_Mapping Model_proofs
  Mapping_proofs Spec_Wire Packets Spec_Packets Auth Auth_proofs Spec_Stmt Conn Spec_Conn Conn_proofs TypedModel Spec_Typed.
Import ListNotations.
Open Scope Z_scope.

(** ** One field *)
Lemma field_reads : forall t v, value_ok v ->
  (exists x, field_try_into t v = Ok x /\ reads t v x) \/ (exists e, field_try_into t v = Err e /\ refuses t v e).
Proof.
  induction t as [p| | | | | | |t IH]; intros v Hv; cbn [field_try_into].
  - assert (exists ctor ty, prim_spec p ctor ty) as (ctor & ty & Hp) by (destruct p; eexists _, _; constructor).
    destruct (prim_exact_spec p ctor ty Hp) as (H1 & H2).
    destruct (prim_try_into p v) as [x|e|] eqn:E.
    + left. exists (RNum x). split; [reflexivity|]. apply prim_exact in E. subst v. rewrite (proj1 (H1 x)). econstructor; eauto.
    + right. exists e. split; [reflexivity|]. assert (N : forall x, v <> ctor x).
      { intros x ->. rewrite (proj2 (H1 x)) in E. discriminate. }
      rewrite (H2 v N) in E. injection E as <-. econstructor; eauto.
    + exfalso. destruct p, v; discriminate.
  - destruct (int_of v) as [n|] eqn:E.
    + left. rewrite (bool_exact v n E). cbn [rmap]. eexists. split; [reflexivity|]. now constructor.
    + right. rewrite (bool_other v E). cbn [rmap]. eexists. split; [reflexivity|]. now constructor.
  - destruct v as [|x|x|x|x|x|x|x|x|x|x|b|y m d|neg d h m s u|y m d h mi s u]; try (right; eexists; split; [reflexivity|]; constructor; intros; discriminate).
    destruct Hv as (Hb & _). destruct (string_try_into (VBytes b)) as [s|e|] eqn:E.
    + left. eexists. split; [reflexivity|]. constructor. now apply string_utf8.
    + right. exists e. split; [reflexivity|]. assert (N : forall s, ~ utf8_text s b).
      { intros s Hs. apply string_utf8 in Hs; [|exact Hb]. rewrite Hs in E. discriminate. }
      rewrite (string_not_utf8 b Hb N) in E. injection E as <-. now constructor.
    + exfalso. cbn in E. destruct (utf8_decode b); discriminate.
  - destruct v; try (right; eexists; split; [reflexivity|]; constructor; intros; discriminate).
    left. eexists. split; [reflexivity|]. constructor.
  - destruct v as [|x|x|x|x|x|x|x|x|x|x|b|y m d|neg d h m s u|y m d h mi s u]; try (right; eexists; split; [reflexivity|]; constructor; intros; discriminate).
    + destruct Hv as (Hy & _). destruct (date_into_exact y m d Hy) as (H1 & H2).
      destruct (date_try_into (VDate y m d)) as [x|e|] eqn:E.
      * left. pose proof (proj1 (H1 x) eq_refl) as (C & ->). eexists. split; [reflexivity|]. now constructor.
      * right. exists e. split; [reflexivity|]. assert (N : ~ calendar_date y m d).
        { intros C. pose proof (proj2 (H1 (mkDate y m d)) (conj C eq_refl)). discriminate. }
        specialize (H2 N). injection H2 as ->. eapply rf_date_bounds; [left; reflexivity|exact N].
      * exfalso. unfold date_try_into in E. destruct (from_ymd_opt y m d); discriminate.
    + destruct Hv as (Hy & _). destruct (date_of_datetime_exact y m d h mi s u Hy) as (H1 & H2).
      destruct (date_try_into (VDatetime y m d h mi s u)) as [x|e|] eqn:E.
      * left. pose proof (proj1 (H1 x) eq_refl) as (C & ->). eexists. split; [reflexivity|]. now constructor.
      * right. exists e. split; [reflexivity|]. assert (N : ~ calendar_date y m d).
        { intros C. pose proof (proj2 (H1 (mkDate y m d)) (conj C eq_refl)). discriminate. }
        specialize (H2 N). injection H2 as ->. eapply rf_date_bounds; [right; eauto|exact N].
      * exfalso. unfold date_try_into in E. destruct (from_ymd_opt y m d); discriminate.
  - destruct v as [|x|x|x|x|x|x|x|x|x|x|b|y m d|neg d h m s u|y m d h mi s u]; try (right; eexists; split; [reflexivity|]; constructor; intros; discriminate).
    destruct (datetime_into_exact y m d h mi s u Hv) as (H1 & H2).
    destruct (datetime_try_into (VDatetime y m d h mi s u)) as [x|e|] eqn:E.
    + left. pose proof (proj1 (H1 x) eq_refl) as (C & K & ->). eexists. split; [reflexivity|]. now constructor.
    + right. exists e. split; [reflexivity|].
      assert (N : ~ (calendar_date y m d /\ (clock_time h mi s u \/ leap_second h mi s u))).
      { intros (C & K). pose proof (proj2 (H1 _) (conj C (conj K eq_refl))). discriminate. }
      specialize (H2 N). injection H2 as ->. now constructor.
    + exfalso. unfold datetime_try_into in E. destruct (from_ymd_opt y m d); [|discriminate]. destruct (from_hms_micro_opt h mi s u); discriminate.
  - destruct v as [|x|x|x|x|x|x|x|x|x|x|b|y m d|neg d h m s u|y m d h mi s u]; try (right; eexists; split; [reflexivity|]; constructor; intros; discriminate).
    destruct (time_into_exact neg d h m s u Hv) as (H1 & H2). destruct (Z.lt_ge_cases u 1000000) as [U|U].
    + destruct (H1 U) as (x & -> & V & T). left. eexists. split; [reflexivity|]. now constructor.
    + rewrite (H2 U). right. eexists. split; [reflexivity|]. now constructor.
  - destruct (IH v Hv) as [(r & E & R)|(e & E & R)]; destruct v;
      try (left; exists RNone; split; [reflexivity|constructor]);
      cbn [option_try_into]; rewrite E; cbn [rmap];
      first [left; eexists; split; [reflexivity|constructor; [discriminate|exact R]]
        |right; eexists; split; [reflexivity|constructor; [discriminate|exact R]]].
Qed.

Lemma reads_fun : forall t v x, reads t v x -> value_ok v -> field_try_into t v = Ok x.
Proof.
  induction 1; intros Hv; cbn [field_try_into].
  - now rewrite (proj2 (proj1 (prim_exact_spec p ctor ty H) x)).
  - now rewrite (bool_exact v n H).
  - destruct Hv as (Hb & _). apply (string_utf8 b s Hb) in H. now rewrite H.
  - reflexivity.
  - destruct Hv as (Hy & _). now rewrite (proj2 (proj1 (date_into_exact y m d Hy) _) (conj H eq_refl)).
  - destruct Hv as (Hy & _). now rewrite (proj2 (proj1 (date_of_datetime_exact y m d h mi s u Hy) _) (conj H eq_refl)).
  - now rewrite (proj2 (proj1 (datetime_into_exact y m d h mi s u Hv) _) (conj H (conj H0 eq_refl))).
  - destruct (time_into_exact neg d h m s u Hv) as (H2 & _). destruct (H2 H) as (x' & -> & V & T).
    replace x' with x; [reflexivity|]. apply duration_unique; [assumption|assumption|congruence].
  - reflexivity.
  - destruct v; try contradiction; cbn [option_try_into]; rewrite (IHreads Hv); reflexivity.
Qed.

Lemma refuses_fun : forall t v e, refuses t v e -> value_ok v -> field_try_into t v = Err e.
Proof.
  induction 1; intros Hv; cbn [field_try_into].
  - now rewrite (proj2 (prim_exact_spec p ctor ty H) v H0).
  - now rewrite (bool_other v H).
  - now rewrite (string_other v H).
  - destruct Hv as (Hb & _). now rewrite (string_not_utf8 b Hb H).
  - now rewrite (vec_other v H).
  - now rewrite (proj1 (dates_other v) H H0).
  - destruct H as [->|(h & mi & s & u & ->)]; destruct Hv as (Hy & _).
    + now rewrite (proj2 (date_into_exact y m d Hy) H0).
    + now rewrite (proj2 (date_of_datetime_exact y m d h mi s u Hy) H0).
  - now rewrite (proj2 (dates_other v) H).
  - now rewrite (proj2 (datetime_into_exact y m d h mi s u Hv) H).
  - now rewrite (duration_other v H).
  - now rewrite (proj2 (time_into_exact neg d h m s u Hv) H).
  - destruct v; try contradiction; cbn [option_try_into]; rewrite (IHrefuses Hv); reflexivity.
Qed.

Lemma field_iff : forall t v, value_ok v ->
  (forall x, field_try_into t v = Ok x <-> reads t v x) /\ (forall e, field_try_into t v = Err e <-> refuses t v e) /\
  field_try_into t v <> Panic.
Proof.
  intros t v Hv. destruct (field_reads t v Hv) as [(x & E & R)|(e & E & R)].
  - splits.
    + intros x'. rewrite E. split; [intros H; injection H as <-; exact R|]. intros R'. apply reads_fun in R'; [congruence|exact Hv].
    + intros e. rewrite E. split; [discriminate|]. intros R'. apply refuses_fun in R'; [congruence|exact Hv].
    + rewrite E. discriminate.
  - splits.
    + intros x'. rewrite E. split; [discriminate|]. intros R'. apply reads_fun in R'; [congruence|exact Hv].
    + intros e'. rewrite E. split; [intros H; injection H as <-; exact R|]. intros R'. apply refuses_fun in R'; [congruence|exact Hv].
    + rewrite E. discriminate.
Qed.

(** ** Lists of fields *)
Fixpoint convert_all (ts : list rust_type) (vs : list value) : res parse_error (list rust_value) :=
  match ts, vs with
  | t :: ts', v :: vs' => rbind (field_try_into t v) (fun x => rmap (cons x) (convert_all ts' vs'))
  | _, _ => Ok []
  end.

Lemma convert_iff : forall ts vs, Forall value_ok vs -> length ts = length vs ->
  (forall xs, convert_all ts vs = Ok xs <-> reads_all ts vs xs) /\
  (forall e, convert_all ts vs = Err e <-> first_refused ts vs e) /\ convert_all ts vs <> Panic.
Proof.
  induction ts as [|t ts IH]; intros [|v vs] Hv Hl; try discriminate; cbn [convert_all].
  - splits.
    + intros xs. split; [intros H; injection H as <-; constructor|]. intros H. inversion H. reflexivity.
    + intros e. split; [discriminate|]. intros (t1 & t & t2 & v1 & v & v2 & xs & E & _). destruct t1; discriminate.
    + discriminate.
  - inversion Hv as [|? ? V1 V2]; subst. injection Hl as Hl. destruct (IH vs V2 Hl) as (I1 & I2 & I3).
    destruct (field_iff t v V1) as (F1 & F2 & F3).
    destruct (field_try_into t v) as [x|e|] eqn:E; cbn [rbind]; [| |congruence].
    + splits.
      * intros xs. destruct (convert_all ts vs) as [ys|e|]; cbn [rmap].
        -- split; [intros H; injection H as <-; constructor; [now apply F1|now apply I1]|].
           intros H. inversion H as [|? ? ? ? ? ? R1 R2]; subst. apply F1 in R1. injection R1 as <-. apply I1 in R2. injection R2 as <-. reflexivity.
        -- split; [discriminate|]. intros H. inversion H as [|? ? ? ? ? ? R1 R2]; subst. apply I1 in R2. discriminate.
        -- congruence.
      * intros e. split.
        -- intros H. destruct (convert_all ts vs) as [ys|e'|] eqn:C; cbn [rmap] in H; [discriminate| |discriminate].
           injection H as <-. destruct (proj1 (I2 e') eq_refl) as (t1 & t0 & t2 & v1 & v0 & v2 & xs & -> & -> & R & Rf).
           exists (t :: t1), t0, t2, (v :: v1), v0, v2, (x :: xs). splits; try reflexivity; [|exact Rf].
           constructor; [now apply F1|exact R].
        -- intros (t1 & t0 & t2 & v1 & v0 & v2 & xs & E1 & E2 & R & Rf). destruct t1 as [|t1' t1].
           ++ inversion R; subst. cbn [app] in E1, E2. injection E1 as <- <-. injection E2 as <- <-. apply F2 in Rf. discriminate.
           ++ inversion R as [|? v1' ? ? v1'' ? R1 R2]; subst. cbn [app] in E1, E2. injection E1 as <- ->. injection E2 as <- ->.
              assert (C : convert_all (t1 ++ t0 :: t2) (v1'' ++ v0 :: v2) = Err e).
              { apply I2. exists t1, t0, t2, v1'', v0, v2. eexists. eauto. }
              rewrite C. reflexivity.
      * destruct (convert_all ts vs); cbn [rmap]; first [discriminate|contradiction].
    + splits.
      * intros xs. split; [discriminate|]. intros H. inversion H as [|? ? ? ? ? ? R1 R2]; subst. apply F1 in R1. discriminate.
      * intros e'. split.
        -- intros H. injection H as <-. exists [], t, ts, [], v, vs, []. splits; try reflexivity; [constructor|now apply F2].
        -- intros (t1 & t0 & t2 & v1 & v0 & v2 & xs & E1 & E2 & R & Rf). destruct t1 as [|t1' t1].
           ++ inversion R; subst. cbn [app] in E1, E2. injection E1 as <- <-. injection E2 as <- <-. apply F2 in Rf. congruence.
           ++ inversion R as [|? v1' ? ? v1'' ? R1 R2]; subst. cbn [app] in E1, E2. injection E1 as <- ->. injection E2 as <- ->.
              apply F1 in R1. discriminate.
      * discriminate.
Qed.

(** ** The derived code *)
Fixpoint take_conv (ts : list rust_type) (own : list (str * option nat)) (row : list value) : res parse_error (list rust_value * list value) :=
  match ts, own with
  | t :: ts', f :: own' =>
    rbind (take_field f row) (fun '(v, row) =>
    rbind (field_try_into t v) (fun x =>
    rbind (take_conv ts' own' row) (fun '(xs, row) => Ok (x :: xs, row))))
  | _, _ => Ok ([], row)
  end.

Lemma take_conv_app : forall t1 t2 o1 o2 row, length t1 = length o1 ->
  take_conv (t1 ++ t2) (o1 ++ o2) row =
  rbind (take_conv t1 o1 row) (fun '(xs, row) => rbind (take_conv t2 o2 row) (fun '(ys, row) => Ok (xs ++ ys, row))).
Proof.
  induction t1 as [|t t1 IH]; intros t2 [|f o1] o2 row Hl; try discriminate; cbn [app take_conv].
  - cbn [rbind]. destruct (take_conv t2 o2 row) as [[ys r]|e|]; reflexivity.
  - injection Hl as Hl. destruct (take_field f row) as [[v r]|e|]; cbn [rbind]; try reflexivity.
    destruct (field_try_into t v) as [x|e|]; cbn [rbind]; try reflexivity. rewrite IH by exact Hl.
    destruct (take_conv t1 o1 r) as [[xs r']|e|]; cbn [rbind]; try reflexivity.
    destruct (take_conv t2 o2 r') as [[ys r'']|e|]; reflexivity.
Qed.

Lemma take_typed_conv : forall ts own rest row, length ts = length own ->
  take_typed ts (own ++ rest) row = rbind (take_conv ts own row) (fun '(xs, row) => Ok (xs, rest, row)).
Proof.
  induction ts as [|t ts IH]; intros [|f own] rest row Hl; try discriminate; [reflexivity|].
  injection Hl as Hl. cbn [app take_typed take_conv]. destruct (take_field f row) as [[v r]|e|]; cbn [rbind]; try reflexivity.
  destruct (field_try_into t v) as [x|e|]; cbn [rbind]; try reflexivity. rewrite IH by exact Hl.
  destruct (take_conv ts own r) as [[xs r']|e|]; reflexivity.
Qed.

Lemma take_conv_length : forall ts own row xs row', length ts = length own -> take_conv ts own row = Ok (xs, row') -> length xs = length ts.
Proof.
  induction ts as [|t ts IH]; intros [|f own] row xs row' Hl E; try discriminate; cbn [take_conv] in E.
  - injection E as <- <-. reflexivity.
  - destruct (take_field f row) as [[v r]|e|]; cbn [rbind] in E; try discriminate.
    destruct (field_try_into t v) as [x|e|]; cbn [rbind] in E; try discriminate.
    destruct (take_conv ts own r) as [[ys r']|e|] eqn:C; cbn [rbind] in E; try discriminate. injection E as <- <-.
    cbn [length]. f_equal. eapply IH; [|exact C]. now injection Hl.
Qed.

(** [r] is the flat result [f] put into shape. *)
Definition reshaped {X} (shape : X -> Prop) (flat : X -> list rust_value) (r : res parse_error (X * list value))
  (f : res parse_error (list rust_value * list value)) : Prop :=
  match f with
  | Ok (xs, row) => exists x, r = Ok (x, row) /\ shape x /\ flat x = xs
  | Err e => r = Err e
  | Panic => r = Panic
  end.

Lemma structs_conv : forall structs own row,
  length own = length (flat_map (fun s : str * list (str * rust_type) => snd s) structs) ->
  reshaped (fun ss => Forall2 (fun (s : str * list (str * rust_type)) l => length (snd s) = length l) structs ss) (@concat _)
    (take_structs structs own row) (take_conv (flat_map (fun s => map snd (snd s)) structs) own row).
Proof.
  induction structs as [|s structs IH]; intros own row Hl; cbn [flat_map take_structs].
  - destruct own; [|discriminate]. cbn [take_conv reshaped]. exists []. splits; [reflexivity|constructor|reflexivity].
  - cbn [flat_map] in Hl. rewrite app_length in Hl.
    assert (exists o1 o2, own = o1 ++ o2 /\ length o1 = length (snd s)) as (o1 & o2 & -> & L1).
    { exists (firstn (length (snd s)) own), (skipn (length (snd s)) own). split; [symmetry; apply firstn_skipn|].
      apply firstn_length_le. lia. }
    rewrite app_length in Hl. rewrite take_typed_conv by (rewrite map_length; lia). rewrite take_conv_app by (rewrite map_length; lia).
    destruct (take_conv (map snd (snd s)) o1 row) as [[xs r]|e|] eqn:C; cbn [rbind reshaped]; try reflexivity.
    specialize (IH o2 r ltac:(lia)). unfold reshaped in IH. destruct (take_conv _ o2 r) as [[ys r']|e|]; cbn [rbind].
    + destruct IH as (ss & -> & S & <-). cbn [rbind]. exists (xs :: ss). splits; [reflexivity| |reflexivity].
      constructor; [|exact S]. apply take_conv_length in C; [|rewrite map_length; lia]. rewrite map_length in C. lia.
    + now rewrite IH.
    + now rewrite IH.
Qed.

Lemma tmodel_ind' : forall P : tmodel -> Prop,
  (forall t p a simples structs refs, Forall (fun r => P (snd r)) refs -> P (TModel t p a simples structs refs)) ->
  forall m, P m.
Proof.
  intros P H. fix IH 1. intros [t p a simples structs refs]. apply H.
  induction refs as [|[f sub] r IHr]; constructor; [apply IH|exact IHr].
Qed.

Fixpoint children_rows (refs : list (str * tmodel)) (cs : list mapping) (row : list value) : res parse_error (list tinstance * list value) :=
  match refs, cs with
  | (_, sub) :: refs', c :: cs' =>
    rbind (from_mapping_and_row sub c row) (fun '(x, row) =>
    rbind (children_rows refs' cs' row) (fun '(l, row) => Ok (x :: l, row)))
  | _, _ => Ok ([], row)
  end.

Lemma from_mapping_eq : forall t p a simples structs refs own children row,
  from_mapping_and_row (TModel t p a simples structs refs) (Mapping own children) row =
  rbind (take_typed (map snd simples) own row) (fun '(xs, own, row) =>
  rbind (take_structs structs own row) (fun '(ss, row) =>
  rbind (children_rows refs children row) (fun '(l, row) => Ok (TInstance xs ss l, row)))).
Proof. reflexivity. Qed.

Lemma columns_types_length : forall (simples : list (str * rust_type)) (structs : list (str * list (str * rust_type))),
  length (columns_of (map fst simples) (map (fun s => (fst s, map fst (snd s))) structs)) =
  length (map snd simples ++ flat_map (fun s => map snd (snd s)) structs).
Proof.
  intros. unfold columns_of. rewrite !app_length, !map_length. f_equal. induction structs as [|[n l] structs IH]; [reflexivity|].
  cbn [map flat_map fst snd]. rewrite !app_length, !map_length. f_equal. exact IH.
Qed.

Lemma types_length : forall m, length (types_of m) = length (rel_items (untyped m)).
Proof.
  induction m as [t p a simples structs refs IH] using tmodel_ind'. cbn [types_of untyped rel_items].
  rewrite app_assoc, app_length, <- columns_types_length, app_length, (map_length (@pair str str [])). f_equal.
  induction refs as [|[f sub] refs IHr]; [reflexivity|]. inversion IH as [|? ? I1 I2]; subst. cbn [map flat_map snd] in *.
  rewrite !app_length, map_length, I1, (IHr I2). reflexivity.
Qed.

Lemma from_mapping_conv : forall m g row,
  reshaped (shaped m) fields_of (from_mapping_and_row m (mapped (untyped m) g) row) (take_conv (types_of m) (flat (untyped m) g) row).
Proof.
  induction m as [t p a simples structs refs IH] using tmodel_ind'. intros g row. cbn [untyped mapped]. rewrite from_mapping_eq.
  unfold flat. cbn [rel_items types_of]. rewrite map_app, (map_map (@pair str str [])). cbn [snd].
  set (structs' := map (fun s => (fst s, map fst (snd s))) structs).
  set (G := fun n => (n, g ([], n))).
  assert (EC : columns_of (map fst simples) structs' = map fst simples ++ columns_of [] structs') by reflexivity.
  change (fun x => (x, g ([], x))) with G. rewrite EC, !(map_app G), <- app_assoc.
  rewrite take_typed_conv by (rewrite !map_length; reflexivity).
  rewrite take_conv_app by (rewrite !map_length; reflexivity).
  match goal with |- context[rbind (rbind ?x _) _] => destruct x as [[xs r1]|e|] eqn:C1 end; cbn [rbind reshaped]; try reflexivity.
  assert (L1 : length simples = length xs).
  { apply take_conv_length in C1; [|rewrite !map_length; reflexivity]. rewrite map_length in C1. congruence. }
  assert (L2 : length (map G (columns_of [] structs')) = length (flat_map (fun s : str * list (str * rust_type) => snd s) structs)).
  { rewrite map_length. unfold structs', columns_of. cbn [app]. clear. induction structs as [|[n l] structs IH]; [reflexivity|].
    cbn [map flat_map fst snd]. rewrite !app_length, !map_length. f_equal. exact IH. }
  pose proof (structs_conv structs (map G (columns_of [] structs')) r1 L2) as S.
  rewrite take_conv_app by (rewrite L2; clear; induction structs as [|[n l] structs IH]; [reflexivity|];
    cbn [flat_map snd]; rewrite !app_length, map_length; f_equal; exact IH).
  unfold reshaped in S. destruct (take_conv _ (map G (columns_of [] structs')) r1) as [[ys r2]|e|]; cbn [rbind reshaped];
    [|now rewrite S|now rewrite S].
  destruct S as (ss & -> & S & <-). cbn [rbind].
  match goal with |- context[take_conv ?a ?b r2] => set (T := a); set (O := b) end.
  assert (CH : reshaped (fun cs => Forall2 (fun r c => shaped (snd r) c) refs cs) (flat_map fields_of)
    (children_rows refs (map (fun r => match r with (f, sub) => mapped sub (fun i => g (join_path f (fst i), snd i)) end)
       (map (fun r => match r with (f, sub) => (f, untyped sub) end) refs)) r2) (take_conv T O r2)).
  { unfold T, O. clear - IH. revert r2. induction refs as [|[f sub] refs IHr]; intros row.
    - cbn. exists []. splits; [reflexivity|constructor|reflexivity].
    - inversion IH as [|? ? I1 I2]; subst. cbn [snd] in I1. cbn [map flat_map children_rows].
      rewrite map_app, (map_map (fun i : str * str => (join_path f (fst i), snd i))). cbn [snd]. specialize (I1 (fun i => g (join_path f (fst i), snd i)) row). unfold flat in I1.
      rewrite take_conv_app by (rewrite map_length; apply types_length).
      cbn [fst snd] in I1.
      match goal with H : reshaped _ _ _ ?c |- context[take_conv (types_of sub) ?o row] => change (take_conv (types_of sub) o row) with c end.
      unfold reshaped in I1.
      match type of I1 with match ?c with _ => _ end => destruct c as [[zs r3]|e|] end; cbn [rbind reshaped]; [|now rewrite I1|now rewrite I1].
      destruct I1 as (x & E & Sx & <-).
      cbn [fst snd] in E |- *. rewrite E. cbn [rbind]. specialize (IHr I2 r3). unfold reshaped in IHr.
      match type of IHr with match ?c with _ => _ end => destruct c as [[ws r4]|e|] end; cbn [rbind];
        [|now rewrite IHr|now rewrite IHr].
      destruct IHr as (cs & -> & Sc & <-). cbn [rbind]. exists (x :: cs). splits; [reflexivity|constructor; assumption|reflexivity]. }
  unfold reshaped in CH. destruct (take_conv T O r2) as [[zs r3]|e|]; cbn [rbind]; [|now rewrite CH|now rewrite CH].
  destruct CH as (cs & -> & Sc & <-). cbn [rbind]. exists (TInstance xs ss cs). splits; [reflexivity|now constructor|reflexivity].
Qed.

Lemma take_conv_fields : forall ts own row vs left, length ts = length own -> take_fields own row = Ok (vs, left) ->
  match convert_all ts vs with
  | Ok xs => take_conv ts own row = Ok (xs, left)
  | Err e => take_conv ts own row = Err e
  | Panic => take_conv ts own row = Panic
  end /\ length vs = length ts.
Proof.
  induction ts as [|t ts IH]; intros [|f own] row vs left Hl E; try discriminate; cbn [take_fields] in E.
  - injection E as <- <-. split; reflexivity.
  - destruct (take_field f row) as [[v r]|e|] eqn:F; cbn [rbind] in E; try discriminate.
    destruct (take_fields own r) as [[ws r']|e|] eqn:G; cbn [rbind] in E; try discriminate. injection E as <- <-.
    cbn [take_conv convert_all]. rewrite F. cbn [rbind]. injection Hl as Hl. destruct (IH own r ws r' Hl G) as (I & L).
    split; [|cbn [length]; congruence].
    destruct (field_try_into t v) as [x|e|]; cbn [rbind]; try reflexivity.
    destruct (convert_all ts ws) as [xs|e|]; cbn [rmap]; rewrite I; reflexivity.
Qed.

(** Shapes are determined by the fields. *)
Lemma concat_shape : forall (structs : list (str * list (str * rust_type))) ss ss' (l l' : list rust_value),
  Forall2 (fun s l => length (snd s) = length l) structs ss -> Forall2 (fun s l => length (snd s) = length l) structs ss' ->
  concat ss ++ l = concat ss' ++ l' -> ss = ss' /\ l = l'.
Proof.
  induction structs as [|s structs IH]; intros ss ss' l l' H1 H2 E; inversion H1 as [|? ? ? ? A1 B1]; subst; inversion H2 as [|? ? ? ? A2 B2]; subst; [auto|].
  cbn [concat] in E. rewrite <- !app_assoc in E.
  assert (forall (a b c d : list rust_value), length a = length b -> a ++ c = b ++ d -> a = b /\ c = d) as A.
  { induction a; intros [|z b] c d Hl Hq; try discriminate; [auto|]. injection Hq as -> Hq. injection Hl as Hl.
    destruct (IHa _ _ _ Hl Hq) as (-> & ->). auto. }
  apply A in E as (-> & E); [|congruence]. destruct (IH _ _ _ _ B1 B2 E) as (-> & ->). auto.
Qed.

Lemma shaped_unique : forall m x y, shaped m x -> shaped m y -> forall l l', fields_of x ++ l = fields_of y ++ l' -> x = y /\ l = l'.
Proof.
  induction m as [t p a simples structs refs IH] using tmodel_ind'. intros x y Hx Hy l l' E.
  inversion Hx as [? ? ? ? ? ? xs ss cs L1 S1 C1]; subst. inversion Hy as [? ? ? ? ? ? ys ss' ds L2 S2 C2]; subst.
  cbn [fields_of] in E. rewrite <- !app_assoc in E.
  assert (forall (a b c d : list rust_value), length a = length b -> a ++ c = b ++ d -> a = b /\ c = d) as A.
  { induction a0; intros [|z b] c d Hl Hq; try discriminate; [auto|]. injection Hq as -> Hq. injection Hl as Hl.
    destruct (IHa0 _ _ _ Hl Hq) as (-> & ->). auto. }
  apply A in E as (-> & E); [|congruence]. apply (concat_shape structs) in E as (-> & E); [|assumption|assumption].
  assert (cs = ds /\ l = l') as (-> & ->); [|auto]. clear - IH C1 C2 E. revert cs ds C1 C2 E.
  induction refs as [|r refs IHr]; intros cs ds C1 C2 E; inversion C1 as [|? ? ? ? A1 B1]; subst; inversion C2 as [|? ? ? ? A2 B2]; subst; [auto|].
  inversion IH as [|? ? I1 I2]; subst. cbn [flat_map] in E. rewrite <- !app_assoc in E.
  destruct (I1 _ _ A1 A2 _ _ E) as (-> & E'). destruct (IHr I2 _ _ B1 B2 E') as (-> & ->). auto.
Qed.

(** ** Rows *)
Lemma values_unique : forall (sel : list (str * str)) (row : list value) l vs vs',
  Forall2 (fun x v => exists i, is_last_at sel x i /\ nth_error row i = Some v) l vs ->
  Forall2 (fun x v => exists i, is_last_at sel x i /\ nth_error row i = Some v) l vs' -> vs = vs'.
Proof.
  intros sel row l vs vs' H. revert vs'. induction H as [|x v l vs (i & (A1 & A2) & A3) _ IH]; intros vs' H'; inversion H' as [|? v' ? vs2 (j & (B1 & B2) & B3) R]; subst; [reflexivity|].
  f_equal; [|now apply IH]. assert (i = j) as <-; [|congruence].
  destruct (Nat.lt_trichotomy i j) as [L|[L|L]]; [|exact L|]; exfalso; [now apply (A2 j L)|now apply (B2 i L)].
Qed.

Lemma row_read : forall m sel cols row, asks_for m sel cols -> length row = length cols -> Forall value_ok row ->
  let r := rmap fst (from_mapping_and_row m (from_columns (untyped m) cols) row) in
  (forall x, r = Ok x <-> model_row m sel row x) /\ (forall e, r = Err e <-> row_refused m sel row e) /\ r <> Panic.
Proof.
  intros m sel cols row (Hd & Ht & Hs & Hi & Hc) Hl Hv.
  destruct (rows_any _ _ _ _ Hd Ht Hs Hc Hl Hi) as (vs & left & E & F).
  assert (U : forall P : list value -> Prop, (exists vs', values_of m sel row vs' /\ P vs') <-> P vs).
  { intros P. split; [|intros H; exists vs; split; [exact F|exact H]]. intros (vs' & F' & H).
    now rewrite (values_unique _ _ _ _ _ F F'). }
  cut (let r := rmap fst (from_mapping_and_row m (from_columns (untyped m) cols) row) in
    (forall x, r = Ok x <-> row_of m vs x) /\ (forall e, r = Err e <-> first_refused (types_of m) vs e) /\ r <> Panic).
  { cbv zeta. intros (H1 & H2 & H3). splits; [| |exact H3]; intros; [rewrite H1|rewrite H2]; symmetry;
      [apply (U (fun vs => row_of m vs x))|apply (U (fun vs => first_refused (types_of m) vs e))]. }
  unfold from_columns in *. rewrite default_mapped in *. rewrite (set_columns_mapped _ _ _ _ _ Hd Ht Hs Hc) in *.
  rewrite from_row_mapped in E. match type of E with context[flat _ ?f] => set (g := f) in * end.
  assert (Lt : length (types_of m) = length (flat (untyped m) g)) by (unfold flat; rewrite map_length; apply types_length).
  destruct (take_conv_fields _ _ _ _ _ Lt E) as (T & L).
  assert (Hvs : Forall value_ok vs).
  { clear - F Hv. induction F as [|x v xs vs (i & _ & Ei) _ IH]; constructor; [|exact IH].
    rewrite Forall_forall in Hv. apply Hv. eapply nth_error_In; eauto. }
  destruct (convert_iff (types_of m) vs Hvs ltac:(congruence)) as (C1 & C2 & C3).
  pose proof (from_mapping_conv m g row) as M. unfold reshaped in M. unfold row_of.
  destruct (convert_all (types_of m) vs) as [xs|e|] eqn:Ec; rewrite T in M; [| |congruence].
  - destruct M as (x & -> & S & <-). cbn [rmap fst]. splits.
    + intros y. split.
      * intros H. injection H as <-. split; [exact S|]. now apply C1.
      * intros (Sy & R). apply C1 in R. injection R as R.
        assert (x = y) as <-; [|reflexivity]. refine (proj1 (shaped_unique m x y S Sy [] [] _)). rewrite !app_nil_r. exact R.
    + intros e. split; [discriminate|]. intros R. apply C2 in R. discriminate.
    + discriminate.
  - rewrite M. cbn [rmap]. splits.
    + intros y. split; [discriminate|]. intros (_ & R). apply C1 in R. discriminate.
    + intros e'. split; [intros H; injection H as <-; now apply C2|]. intros R. apply C2 in R. injection R as <-. reflexivity.
    + discriminate.
Qed.

Lemma rows_read : forall values m sel cols rows vss, asks_for m sel cols -> Forall (fun r => length r = length cols /\ Forall value_ok r) vss ->
  all_rows values cols rows = Ok vss ->
  let r := all_rows (model_rows values m) cols rows in
  (forall xs, r = Ok xs <-> Forall2 (model_row m sel) vss xs) /\
  (forall e, r = Err e <-> exists p, e = EProtocol (PParse p) /\ rows_refused m sel vss p) /\ r <> Panic.
Proof.
  intros values m sel cols rows vss Ha. revert vss. induction rows as [|p rows IH]; intros vss Hv E; cbn [all_rows] in *.
  - injection E as <-. cbv zeta. splits.
    + intros xs. split; [intros H; injection H as <-; constructor|]. intros H. inversion H. reflexivity.
    + intros e. split; [discriminate|]. intros (q & _ & b & row & a & xs & X & _). destruct b; discriminate.
    + discriminate.
  - destruct (values cols p) as [row|e|] eqn:Ev; try discriminate.
    destruct (all_rows values cols rows) as [vss'|e|] eqn:Er; try discriminate. injection E as <-.
    inversion Hv as [|? ? (V1 & V2) V3]; subst. destruct (row_read m sel cols row Ha V1 V2) as (R1 & R2 & R3).
    destruct (IH vss' V3 eq_refl) as (I1 & I2 & I3). cbv zeta in *.
    assert (EM : model_rows values m cols p = of_parse (rmap fst (from_mapping_and_row m (from_columns (untyped m) cols) row))).
    { unfold model_rows. rewrite Ev. reflexivity. }
    rewrite EM.
    destruct (rmap fst (from_mapping_and_row m (from_columns (untyped m) cols) row)) as [x|e|]; unfold of_parse; cbn [rmap_err]; [| |contradiction].
    + splits.
      * intros xs. destruct (all_rows (model_rows values m) cols rows) as [ys|e|].
        -- split; [intros H; injection H as <-; constructor; [now apply R1|now apply I1]|].
           intros H. inversion H as [|? y ? ys' A1 A2]; subst. apply R1 in A1. apply I1 in A2. congruence.
        -- split; [discriminate|]. intros H. inversion H as [|? y ? ys' A1 A2]; subst. apply I1 in A2. discriminate.
        -- contradiction.
      * intros e. split.
        -- intros H. destruct (all_rows (model_rows values m) cols rows) as [ys|e'|]; [discriminate| |discriminate].
           injection H as <-. destruct (proj1 (I2 e') eq_refl) as (q & -> & b & r & a & xs & -> & F & Rf).
           exists q. split; [reflexivity|]. exists (row :: b), r, a, (x :: xs). splits; [reflexivity| |exact Rf].
           constructor; [now apply R1|exact F].
        -- intros (q & -> & b & r & a & xs & X & F & Rf). destruct b as [|b0 b].
           ++ cbn [app] in X. injection X as <- <-. apply R2 in Rf. discriminate.
           ++ cbn [app] in X. injection X as <- ->. inversion F as [|? y ? ys F1 F2]; subst.
              assert (C : all_rows (model_rows values m) cols rows = Err (EProtocol (PParse q))).
              { apply I2. exists q. split; [reflexivity|]. exists b, r, a, ys. splits; [reflexivity|exact F2|exact Rf]. }
              rewrite C. reflexivity.
      * destruct (all_rows (model_rows values m) cols rows); [discriminate|discriminate|contradiction].
    + splits.
      * intros xs. split; [discriminate|]. intros H. inversion H as [|? y ? ys' A1 A2]; subst. apply R1 in A1. discriminate.
      * intros e'. split.
        -- intros H. injection H as <-. exists e. split; [reflexivity|]. exists [], row, vss', []. splits; [reflexivity|constructor|now apply R2].
        -- intros (q & -> & b & r & a & xs & X & F & Rf). destruct b as [|b0 b].
           ++ cbn [app] in X. injection X as <- <-. apply R2 in Rf. congruence.
           ++ cbn [app] in X. injection X as <- ->. inversion F as [|? y ? ys F1 F2]; subst. apply R1 in F1. discriminate.
      * discriminate.
Qed.

(** ** Result sets of prepared statements *)
Lemma stmt_query_opens : forall id params values, 0 <= id < 2 ^ 32 -> params < 65536 -> Forall value_ok values ->
  Z.of_nat (length values) = params ->
  exists ps, stmt_request id values ps /\
  forall A (decode : list column -> bytes -> res error A) c cols rows pkts w wi qn qe rest,
  Z.testbit (c_caps c) DEPRECATE_EOF_BIT = true ->
  requests ps w qn -> answer_packets (c_caps c) (ARows cols rows) pkts -> framed qn pkts wi qe -> between c (wi ++ rest) ->
  exists c1, stmt_query (mkPrepared id params) values c = (Ok (mkSet cols None), c1) /\
  exists c2 rs, collect decode (c1, mkSet cols None) = (all_rows decode cols rows, (c2, rs)) /\ between c2 rest /\
    s_out (c_stream c2) = s_out (c_stream c) ++ w /\
    (forall l, all_rows decode cols rows = Ok l -> c_pending c2 = false /\ s_in (c_stream c2) = rest).
Proof.
  intros id params values U1 U2 U3 U4. destruct (stmt_request_ok _ _ _ U1 U2 U3 U4) as (ps & Ep & Hn & Hr).
  exists ps. split; [exact Hr|]. intros A decode c cols rows pkts w wi qn qe rest Hc R Ha Hf Hb.
  destruct (write_commands_between ps c (wi ++ rest) Hc Hb Hn) as (w0 & q0 & R0 & Hq & c1 & E & As).
  destruct (requests_det _ _ _ R0 _ _ R) as (-> & ->).
  destruct (rs_read_opens (c_caps c) c1 cols rows pkts wi qe rest) as (c2 & E2 & O & S); auto; try (rewrite As; auto; fail).
  exists c2. assert (Hc2 : Z.testbit (c_caps c2) DEPRECATE_EOF_BIT = true).
  { unfold c_caps. destruct S as (-> & _). rewrite As. exact Hc. }
  assert (So : s_out (c_stream c2) = s_out (c_stream c) ++ w). { destruct S as (_ & ->). rewrite As. reflexivity. }
  split.
  - unfold stmt_query. cbn [ps_params ps_id]. replace (lenZ values =? params) with true by (unfold lenZ; lia). cbn [negb].
    rewrite iob, (send_execute_packets id values ps Ep), E. exact E2.
  - destruct (collect_set A decode cols rows c2 rest Hc2 O) as (c3 & rs & E3 & B & (_ & So3) & P).
    exists c3, rs. split; [exact E3|]. split; [assumption|]. split; [now rewrite So3|].
    intros l H. destruct (P l H) as ((_ & _ & P1 & P2) & _). auto.
Qed.
