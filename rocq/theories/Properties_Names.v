(** Columns and the names of fields: C100. *)
From Coq Require Import String ZArith List Bool Lia.
From Verif Require Import Base BaseFacts Types Framing Models Spec_Text Spec_Model Model_proofs Properties_Model
  DeriveNames Spec_Names.
Import ListNotations.
Open Scope Z_scope.

(** [written] with what holds of the structs referred to. *)
Lemma written_induction : forall P : written -> Prop,
  (forall t p a simples structs refs, Forall (fun r => P (snd r)) refs -> P (Written t p a simples structs refs)) ->
  forall w, P w.
Proof.
  intros P H. fix go 1. intros [t p a simples structs refs]. apply H.
  induction refs as [|[f sub] r IH]; constructor; [exact (go sub)|exact IH].
Qed.

Lemma not_raw_text : forall i, not_raw i -> ident_text i = i_name i.
Proof. intros [[|] n] H; [discriminate H|reflexivity]. Qed.

Lemma not_raw_texts : forall l, Forall not_raw l -> map ident_text l = map i_name l.
Proof. induction 1; cbn; [reflexivity|]. rewrite not_raw_text by assumption. congruence. Qed.

Lemma parts_texts : forall l, Forall parts_not_raw l ->
  map (fun '(f, parts) => (ident_text f, map ident_text parts)) l =
  map (fun '(f, parts) => (ident_fragment f, map ident_fragment parts)) l.
Proof.
  induction 1 as [|[f parts] l [H1 H2] _ IH]; cbn [map]; [reflexivity|]. cbn [fst snd] in *.
  rewrite IH, not_raw_text, not_raw_texts by assumption. reflexivity.
Qed.

(** Without raw identifiers the query, the mapping and the statements that write all use the columns
    with the names of the fields. *)
Theorem C100_plain_partial : forall w, throughout no_raw w ->
  query_model w = meant w /\ mapping_model w = meant w.
Proof.
  induction w as [t p a simples structs refs IH] using written_induction. intros H.
  inversion H as [? ? ? ? ? ? (H1 & H2 & H3) H4]; subst.
  cbn [query_model mapping_model meant]. rewrite (not_raw_texts _ H1), (parts_texts _ H2).
  assert (E : map (fun r : ident * written => match r with (f, sub) => (ident_text f, query_model sub) end) refs =
              map (fun r : ident * written => match r with (f, sub) => (i_name f, meant sub) end) refs /\
              map (fun r : ident * written => match r with (f, sub) => (ident_text f, mapping_model sub) end) refs =
              map (fun r : ident * written => match r with (f, sub) => (i_name f, meant sub) end) refs).
  { clear - IH H3 H4. induction refs as [|[f sub] r IHr]; [split; reflexivity|].
    inversion IH; inversion H3; inversion H4; subst. cbn [fst snd] in *.
    destruct (IHr ltac:(assumption) ltac:(assumption) ltac:(assumption)) as [E1 E2].
    match goal with HI : throughout no_raw sub -> _, HS : throughout no_raw sub |- _ => destruct (HI HS) as [F1 F2] end.
    cbn [map]. rewrite E1, E2, F1, F2, not_raw_text by assumption. split; reflexivity. }
  destruct E as [E1 E2]. rewrite E1, E2. split; reflexivity.
Qed.
Print Assumptions C100_plain_partial.

(** The query then asks for exactly these columns. *)
Theorem C100_query_partial : forall w, throughout no_raw w ->
  everywhere has_column (meant w) -> everywhere names_plain (meant w) ->
  parse_select (build_query (m_table (query_model w)) (model_columns (query_model w))) =
  Some (selected (m_table (meant w)) (meant w), m_table (meant w), joins (m_table (meant w)) (meant w)).
Proof.
  intros w H H1 H2. destruct (C100_plain_partial w H) as [E _]. rewrite E. apply C64_select; assumption.
Qed.
Print Assumptions C100_query_partial.

Lemma same_models : forall w, throughout no_raw_structs w -> query_model w = mapping_model w.
Proof.
  induction w as [t p a simples structs refs IH] using written_induction. intros H.
  inversion H as [? ? ? ? ? ? H1 H2]; subst. cbn [query_model mapping_model]. cbn in H1.
  rewrite (parts_texts _ H1). f_equal.
  clear - IH H2. induction refs as [|[f sub] r IHr]; [reflexivity|].
  inversion IH; inversion H2; subst. cbn [fst snd map] in *.
  match goal with HI : throughout no_raw_structs sub -> _, HS : throughout no_raw_structs sub |- _ => rewrite (HI HS) end.
  f_equal. apply IHr; assumption.
Qed.

(** As long as no field of a struct type and none of its parts is raw, the rows of the struct's own
    query are read: every field takes the value of its column. *)
Theorem C100_read_partial : forall w cols row, throughout no_raw_structs w ->
  everywhere names_distinct (query_model w) -> everywhere table_apart (query_model w) ->
  describes (selected (m_table (query_model w)) (query_model w)) cols -> length row = length cols ->
  from_row (from_columns (mapping_model w) cols) row = Ok (row, repeat VNull (length row)).
Proof.
  intros w cols row H H1 H2 H3 H4. rewrite <- (same_models w H). apply C65_mapping_partial; assumption.
Qed.
Print Assumptions C100_read_partial.

(** ** Raw identifiers *)

(** A raw field is not the column of its name: the query asks for a column with the mark in its
    name. *)
Theorem C100_raw_asked : forall t p a simples structs refs f alias,
  In f simples -> i_raw f = true ->
  In (alias, s2l "r#" ++ i_name f) (selected alias (query_model (Written t p a simples structs refs))).
Proof.
  intros t p a simples structs refs f alias H E. cbn [query_model selected]. apply in_or_app. left.
  apply in_map. unfold columns_of. apply in_or_app. left.
  replace (s2l "r#" ++ i_name f) with (ident_text f) by (unfold ident_text; rewrite E; reflexivity).
  apply in_map. exact H.
Qed.
Print Assumptions C100_raw_asked.

Definition plain (s : string) : ident := mkIdent false (s2l s).
Definition raw (s : string) : ident := mkIdent true (s2l s).

(** struct Event { id: u32, r#type: u8 } *)
Definition event_struct : written := Written (s2l "event") (s2l "id") true [plain "id"; raw "type"] [] [].

Theorem C100_raw_refuted :
  columns_of (map i_name [plain "id"; raw "type"]) [] = [s2l "id"; s2l "type"] /\
  parse_select (build_query (m_table (query_model event_struct)) (model_columns (query_model event_struct))) =
    Some ([(s2l "event", s2l "id"); (s2l "event", s2l "r#type")], s2l "event", []) /\
  insert (fun h _ _ => Ok (Z.of_nat (length h) + 1))
    (into_active_model (mapping_model event_struct) (Instance [Ok (VUInt 0); Ok (VUTiny 3)] [] [])) [] =
    (Ok 1, [(s2l "insert into `event` (`r#type`) values (?)", [VUTiny 3], Ok 1)]) /\
  (forall v w, from_row (from_columns (mapping_model event_struct)
     (map some_column [(s2l "event", s2l "id"); (s2l "event", s2l "type")])) [v; w] = Err (EMissingField (s2l "r#type"))).
Proof. splits; vm_compute; reflexivity. Qed.
Print Assumptions C100_raw_refuted.

(** *** A struct whose own query it cannot read *)

Definition below (k : nat) (e : str * option nat) : Prop := match snd e with Some i => (i < k)%nat | None => True end.

Lemma below_mono : forall own k k', Forall (below k) own -> (k <= k')%nat -> Forall (below k') own.
Proof.
  intros own k k' H L. revert H. apply Forall_impl. intros [n [i|]]; unfold below; cbn [snd]; [lia|tauto].
Qed.

Lemma set_own_below : forall own org i, Forall (below i) own -> Forall (below (S i)) (set_own own org i).
Proof.
  induction own as [|[n o] r IH]; intros org i H; cbn [set_own]; [constructor|].
  inversion H as [|? ? H1 H2]; subst. destruct (list_eqb org n).
  - constructor; [unfold below; cbn [snd]; lia|]. apply (below_mono _ i); [assumption|lia].
  - constructor; [|apply IH; assumption].
    unfold below in *. cbn [snd] in *. destruct o; [lia|exact I].
Qed.

Lemma set_own_other : forall own org i n, org <> n -> In (n, None) own -> In (n, None) (set_own own org i).
Proof.
  induction own as [|[m o] r IH]; intros org i n D H; cbn [set_own]; [destruct H|].
  destruct (list_eqb org m) eqn:E.
  - apply list_eqb_eq in E. subst m. destruct H as [H|H]; [injection H; intros; congruence|]. right. exact H.
  - destruct H as [H|H]; [left; exact H|]. right. apply IH; assumption.
Qed.

Lemma set_columns_flat : forall t p a s ss cols own k n, Forall (below k) own -> In (n, None) own ->
  Forall (fun c => col_org_name c <> n) cols ->
  exists own', set_columns (Model t p a s ss []) (Mapping own []) k cols = Mapping own' [] /\
    Forall (below (k + length cols)) own' /\ In (n, None) own'.
Proof.
  induction cols as [|c cols IH]; intros own k n H1 H2 H3; cbn [set_columns length].
  - exists own. rewrite Nat.add_0_r. splits; auto.
  - inversion H3 as [|? ? H4 H5]; subst.
    destruct (IH (set_own own (col_org_name c) k) (S k) n (set_own_below _ _ _ H1) (set_own_other _ _ _ _ H4 H2) H5)
      as (own' & E1 & E2 & E3).
    exists own'. splits; [exact E1| |exact E3]. rewrite Nat.add_succ_r. exact E2.
Qed.

Lemma take_fields_missing : forall own row n, Forall (below (length row)) own -> In (n, None) own ->
  exists f, take_fields own row = Err (EMissingField f).
Proof.
  induction own as [|[m o] r IH]; intros row n H1 H2; [destruct H2|].
  inversion H1 as [|? ? B H3]; subst. cbn [take_fields]. unfold take_field. cbn [fst snd].
  destruct o as [i|]; [|exists m; reflexivity].
  destruct H2 as [H2|H2]; [discriminate H2|].
  unfold below in B. cbn [snd] in B. destruct (nth_error row i) as [v|] eqn:E; [|apply nth_error_None in E; lia].
  cbn [rbind].
  assert (L : length (firstn i row ++ VNull :: skipn (S i) row) = length row).
  { rewrite app_length, firstn_length. cbn [length]. rewrite skipn_length. lia. }
  destruct (IH (firstn i row ++ VNull :: skipn (S i) row) n ltac:(rewrite L; exact H3) H2) as (f & F).
  exists f. rewrite F. reflexivity.
Qed.

(** A column of a struct: of a simple field, or of a part. *)
Inductive item : Type := ISimple (f : ident) | IPart (f part : ident).

Definition items (simples : list ident) (structs : list (ident * list ident)) : list item :=
  map ISimple simples ++ flat_map (fun '(f, parts) => map (IPart f) parts) structs.
Definition query_name (x : item) : str :=
  match x with ISimple f => ident_text f | IPart f q => ident_text f ++ s2l "_" ++ ident_text q end.
Definition mapping_name (x : item) : str :=
  match x with ISimple f => ident_text f | IPart f q => i_name f ++ s2l "_" ++ i_name q end.

Lemma query_names : forall simples structs,
  columns_of (map ident_text simples) (map (fun '(f, parts) => (ident_text f, map ident_text parts)) structs) =
  map query_name (items simples structs).
Proof.
  intros simples structs. unfold columns_of, items. rewrite map_app, map_map. f_equal.
  induction structs as [|[f parts] r IH]; cbn [map flat_map]; [reflexivity|].
  rewrite IH, map_app, !map_map. reflexivity.
Qed.

Lemma mapping_names : forall simples structs,
  columns_of (map ident_text simples) (map (fun '(f, parts) => (ident_fragment f, map ident_fragment parts)) structs) =
  map mapping_name (items simples structs).
Proof.
  intros simples structs. unfold columns_of, items. rewrite map_app, map_map. f_equal.
  induction structs as [|[f parts] r IH]; cbn [map flat_map]; [reflexivity|].
  rewrite IH, map_app, !map_map. reflexivity.
Qed.

Lemma own_names_columns : forall simples structs, own_names simples structs = columns_of simples structs.
Proof.
  intros simples structs. unfold own_names, columns_of. f_equal.
  induction structs as [|[f parts] r IH]; cbn [flat_map]; [reflexivity|]. rewrite IH. reflexivity.
Qed.

Lemma raw_hash : forall i, i_raw i = true -> In 35 (ident_text i).
Proof. intros i H. unfold ident_text. rewrite H. right. left. reflexivity. Qed.

Lemma same_image : forall (A B : Type) (f : A -> B) l x y, NoDup (map f l) -> In x l -> In y l -> f x = f y -> x = y.
Proof.
  intros A B f. induction l as [|z l IH]; intros x y N X Y E; [destruct X|].
  cbn [map] in N. inversion N as [|? ? N1 N2]; subst.
  destruct X as [X|X], Y as [Y|Y]; subst; auto.
  - exfalso. apply N1. rewrite E. apply in_map. exact Y.
  - exfalso. apply N1. rewrite <- E. apply in_map. exact X.
Qed.

Lemma not_asked : forall simples structs f parts q,
  Forall (fun s => hashless (fst s) /\ Forall hashless (snd s)) structs ->
  NoDup (map mapping_name (items simples structs)) ->
  In (f, parts) structs -> In q parts -> i_raw f = true \/ i_raw q = true ->
  ~ In (mapping_name (IPart f q)) (map query_name (items simples structs)).
Proof.
  intros simples structs f parts q HL ND Hf Hq R HI. apply in_map_iff in HI. destruct HI as (y & E & HY).
  assert (HX : In (IPart f q) (items simples structs)).
  { unfold items. apply in_or_app. right. apply in_flat_map. exists (f, parts). split; [exact Hf|]. apply in_map. exact Hq. }
  assert (NH : ~ In 35 (mapping_name (IPart f q))).
  { rewrite Forall_forall in HL. destruct (HL _ Hf) as [L1 L2]. cbn [fst snd] in *. rewrite Forall_forall in L2.
    cbn [mapping_name]. intros H. apply in_app_or in H. destruct H as [H|H]; [exact (L1 H)|].
    cbn in H. destruct H as [H|H]; [discriminate H|]. exact (L2 q Hq H). }
  assert (EY : query_name y = mapping_name y).
  { destruct y as [g|g h]; [reflexivity|]. cbn [query_name mapping_name]. rewrite <- E in NH. cbn [query_name] in NH.
    destruct (i_raw g) eqn:Rg; [exfalso; apply NH; apply in_or_app; left; apply raw_hash; exact Rg|].
    destruct (i_raw h) eqn:Rh; [exfalso; apply NH; apply in_or_app; right; right; apply raw_hash; exact Rh|].
    rewrite !not_raw_text by assumption. reflexivity. }
  rewrite EY in E. pose proof (same_image _ _ _ _ _ _ ND HY HX E) as EQ. subst y.
  rewrite <- EY in NH. cbn [query_name] in NH.
  destruct R as [R|R]; apply NH; apply in_or_app; [left|right; right]; apply raw_hash; exact R.
Qed.

(** With a raw field of a struct type, or a raw part, no row of the struct's own query can be read:
    the query asks for [r#f_q], the mapping waits for [f_q].  (Structs without references.) *)
Theorem C100_unreadable : forall t p a simples structs f parts q cols row,
  let w := Written t p a simples structs [] in
  Forall (fun s => hashless (fst s) /\ Forall hashless (snd s)) structs ->
  names_distinct (mapping_model w) ->
  In (f, parts) structs -> In q parts -> i_raw f = true \/ i_raw q = true ->
  describes (selected t (query_model w)) cols -> length row = length cols ->
  exists missing, from_row (from_columns (mapping_model w) cols) row = Err (EMissingField missing).
Proof.
  intros t p a simples structs f parts q cols row w HL (ND & _) Hf Hq R D L. unfold w in *.
  cbn [mapping_model map] in *. rewrite mapping_names in ND.
  pose proof (not_asked _ _ _ _ _ HL ND Hf Hq R) as NA.
  unfold from_columns. cbn [default_mapping map]. rewrite own_names_columns, mapping_names.
  assert (HC : Forall (fun c => col_org_name c <> mapping_name (IPart f q)) cols).
  { cbn [query_model map selected flat_map] in D. rewrite app_nil_r, query_names in D.
    apply Forall_forall. intros c HIn E. apply NA. rewrite <- E.
    clear - D HIn. unfold describes in D. remember (map (pair t) (map query_name (items simples structs))) as sel eqn:ES.
    assert (HS : Forall (fun s => In (snd s) (map query_name (items simples structs))) sel).
    { subst sel. apply Forall_forall. intros s H. apply in_map_iff in H. destruct H as (n & <- & H). exact H. }
    clear ES. induction D as [|s c' sel cols (_ & E) D IH]; [destruct HIn|].
    inversion HS; subst. destruct HIn as [->|HIn]; [rewrite E; assumption|apply IH; assumption]. }
  destruct (set_columns_flat t p a (map ident_text simples)
    (map (fun '(f, parts) => (ident_fragment f, map ident_fragment parts)) structs) cols
    (map (fun n => (n, None)) (map mapping_name (items simples structs))) 0 (mapping_name (IPart f q)))
    as (own & E1 & E2 & E3).
  - apply Forall_forall. intros e H. apply in_map_iff in H. destruct H as (n & <- & _). exact I.
  - apply (in_map (fun n => (n, None))). apply in_map. unfold items. apply in_or_app. right. apply in_flat_map.
    exists (f, parts). split; [exact Hf|]. apply in_map. exact Hq.
  - exact HC.
  - cbn [Nat.add] in E2. rewrite <- L in E2. destruct (take_fields_missing own row _ E2 E3) as (m & M).
    exists m. replace (set_columns _ _ _ _) with (Mapping own []) by (symmetry; exact E1).
    cbn [from_row]. rewrite M. reflexivity.
Qed.
Print Assumptions C100_unreadable.

(** struct Mark { id: u32, r#in: Point }, with ty = Point{x, y} *)
Definition mark_struct : written :=
  Written (s2l "mark") (s2l "id") true [plain "id"] [(raw "in", [plain "x"; plain "y"])] [].

Theorem C100_unreadable_refuted : exists w cols, everywhere names_distinct (query_model w) /\
  everywhere names_distinct (mapping_model w) /\ everywhere table_apart (mapping_model w) /\
  describes (selected (m_table (query_model w)) (query_model w)) cols /\ length cols = 3%nat /\
  forall u v x, from_row (from_columns (mapping_model w) cols) [u; v; x] = Err (EMissingField (s2l "in_x")).
Proof.
  exists mark_struct. exists (map some_column (selected (s2l "mark") (query_model mark_struct))). splits.
  - vm_compute. concrete.
  - vm_compute. concrete.
  - vm_compute. concrete.
  - apply some_columns_describe.
  - reflexivity.
  - intros u v x. vm_compute. reflexivity.
Qed.
Print Assumptions C100_unreadable_refuted.

(** src/model/test.rs:15-34 as written, without raw identifiers; and one with a raw simple field. *)
Definition entity_struct : written :=
  Written (s2l "entity") (s2l "id") true (map plain ["id"; "name"; "heading"; "model"; "spawn_after"]%string)
    [(plain "position", map plain ["x"; "y"; "z"]%string)]
    [(plain "map", Written (s2l "map") (s2l "id") true (map plain ["id"; "name"; "difficulty"; "last_played"]%string) [] [])].

Example C100_case :
  throughout no_raw entity_struct /\ meant entity_struct = entity_model /\ query_model entity_struct = entity_model /\
  mapping_model entity_struct = entity_model /\
  everywhere has_column (meant entity_struct) /\ everywhere names_plain (meant entity_struct) /\
  throughout no_raw_structs event_struct /\ everywhere names_distinct (query_model event_struct) /\
  everywhere table_apart (query_model event_struct) /\ ~ no_raw event_struct /\
  from_row (from_columns (mapping_model event_struct)
    (map some_column [(s2l "event", s2l "id"); (s2l "event", s2l "r#type")])) [VUInt 7; VUTiny 3] =
    Ok ([VUInt 7; VUTiny 3], [VNull; VNull]) /\
  Forall (fun s => hashless (fst s) /\ Forall hashless (snd s)) [(raw "in", [plain "x"; plain "y"])] /\
  names_distinct (mapping_model mark_struct).
Proof.
  assert (E : meant entity_struct = entity_model) by reflexivity.
  splits; try reflexivity.
  - repeat constructor.
  - rewrite E. unfold entity_model, map_model. concrete.
  - rewrite E. unfold entity_model, map_model. concrete.
  - repeat constructor.
  - vm_compute. concrete.
  - vm_compute. concrete.
  - intros (H & _). inversion H as [|? ? _ H2]. inversion H2 as [|? ? H3 _]. discriminate H3.
  - repeat constructor; no_in.
  - vm_compute. concrete.
Qed.
