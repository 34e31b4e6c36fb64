(** Models that are inserted and selected again: C94. *)
From Coq Require Import String ZArith List Bool Lia Permutation.
From Verif Require Import Base BaseFacts Types Framing Spec_Wire Packets Spec_Packets Auth Spec_Stmt Spec_Text Rows Conn Spec_Conn Conn_proofs
  Conversion Spec_Conv Conversion_proofs Models Spec_Model Spec_Mapping Mapping_proofs Model_proofs TypedModel Spec_Typed Typed_proofs
  Spec_Engine Engine_proofs Spec_Engine_run Properties_Model Properties_Mapping Properties_Typed.
Import ListNotations.
Open Scope Z_scope.

(** ** C94: what is inserted is what is selected *)

(** A model whose values are exact, inserted without error into tables made for it, is afterwards in
    its table, with the keys the server has assigned, next to what was there before. *)
Theorem C94_insert_partial : forall db st m x h id h' l, serves db st -> made_for (st h) m -> keys_differ (st h) ->
  everywhere names_distinct (untyped m) -> everywhere names_plain (untyped m) ->
  all_exact m x -> ~ In (m_table (untyped m)) (referred m) -> contents (st h) m l ->
  insert db (into_active_model (untyped m) (instance_of m x)) h = (Ok id, h') ->
  made_for (st h') m /\ keys_differ (st h') /\ exists x', saved m x id x' /\ contents (st h') m (x' :: l).
Proof.
  intros db st m x h id h' l Sv Md KD Nd Np Ex Nn Ct E.
  destruct (insert_saves db st m x h id h' Sv Md Ex Nd Np E) as ((r & x' & tb & tb' & kv & S1 & S2 & S3 & S4 & S5 & S6 & S7 & S8 & S9) & G & K).
  splits; [eapply made_grows; eauto|auto|]. exists x'. split; [exact S1|].
  destruct (S9 Nn) as (before & after & R1 & R2). eapply contents_grow; eauto.
Qed.
Print Assumptions C94_insert_partial.

(** Also if the model refers to its own table: the row is there, and none is gone. *)
Theorem C94_insert_row_partial : forall db st m x h id h', serves db st -> made_for (st h) m ->
  everywhere names_distinct (untyped m) -> everywhere names_plain (untyped m) -> all_exact m x ->
  insert db (into_active_model (untyped m) (instance_of m x)) h = (Ok id, h') ->
  exists x' r tb tb', saved m x id x' /\ row_is (st h') m r x' /\
    st h (m_table (untyped m)) = Some tb /\ st h' (m_table (untyped m)) = Some tb' /\ In r (t_rows tb') /\ incl (t_rows tb) (t_rows tb') /\
    forall t, t <> m_table (untyped m) -> ~ In t (referred m) -> st h' t = st h t.
Proof.
  intros db st m x h id h' Sv Md Nd Np Ex E.
  destruct (insert_saves db st m x h id h' Sv Md Ex Nd Np E) as ((r & x' & tb & tb' & kv & S1 & S2 & S3 & S4 & S5 & S6 & S7 & S8 & S9) & G & K).
  exists x', r, tb, tb'. splits; auto.
  - destruct (G _ _ S3) as (tb2 & G1 & _ & _ & G2). rewrite S4 in G1. injection G1 as ->. exact G2.
  - intros t N1 N2. apply S8. intros [X|X]; [now apply N1|contradiction].
Qed.
Print Assumptions C94_insert_row_partial.

(** The generated query gives the models in the table, in some order. *)
Theorem C94_select_partial : forall T m l rows, made_for T m -> keys_differ T ->
  everywhere names_distinct (untyped m) -> everywhere names_plain (untyped m) -> everywhere has_column (untyped m) ->
  contents T m l -> answers T (build_query (m_table (untyped m)) (model_columns (untyped m))) rows ->
  exists l', Permutation l l' /\ Forall2 (model_row m (selected (m_table (untyped m)) (untyped m))) rows l' /\ Forall (Forall value_ok) rows.
Proof. exact answer_rows. Qed.
Print Assumptions C94_select_partial.

(** Several models inserted one after the other, by a program that stops at an error. *)
Fixpoint insert_each (db : database) (m : tmodel) (xs : list tinstance) (h : list statement) : res error (list Z) * list statement :=
  match xs with
  | [] => (Ok [], h)
  | x :: xs =>
    match insert db (into_active_model (untyped m) (instance_of m x)) h with
    | (Ok id, h) =>
      match insert_each db m xs h with
      | (Ok ids, h) => (Ok (id :: ids), h)
      | (Err e, h) => (Err e, h)
      | (Panic, h) => (Panic, h)
      end
    | (Err e, h) => (Err e, h)
    | (Panic, h) => (Panic, h)
    end
  end.

Lemma insert_each_saves : forall db st m xs h ids h' l, serves db st -> made_for (st h) m -> keys_differ (st h) ->
  everywhere names_distinct (untyped m) -> everywhere names_plain (untyped m) ->
  Forall (all_exact m) xs -> ~ In (m_table (untyped m)) (referred m) -> contents (st h) m l ->
  insert_each db m xs h = (Ok ids, h') ->
  made_for (st h') m /\ keys_differ (st h') /\
  exists xs', Forall2 (fun xi x' => saved m (fst xi) (snd xi) x') (combine xs ids) xs' /\ length ids = length xs /\ contents (st h') m (xs' ++ l).
Proof.
  intros db st m. induction xs as [|x xs IH]; intros h ids h' l Sv Md KD Nd Np Ex Nn Ct E; cbn [insert_each] in E.
  - injection E as <- <-. splits; auto. exists []. splits; [constructor|reflexivity|exact Ct].
  - inversion Ex as [|? ? Ex1 Ex2]; subst.
    destruct (insert db (into_active_model (untyped m) (instance_of m x)) h) as [[id|e|] h1] eqn:E1; [|discriminate..].
    destruct (C94_insert_partial db st m x h id h1 l Sv Md KD Nd Np Ex1 Nn Ct E1) as (Md1 & KD1 & x' & S1 & C1).
    destruct (insert_each db m xs h1) as [[ids1|e|] h2] eqn:E2; [|discriminate..]. injection E as <- <-.
    destruct (IH h1 ids1 h2 (x' :: l) Sv Md1 KD1 Nd Np Ex2 Nn C1 E2) as (Md2 & KD2 & xs' & S2 & L2 & C2).
    splits; auto. exists (x' :: xs'). splits.
    + cbn [combine]. constructor; [exact S1|exact S2].
    + cbn [length]. congruence.
    + eapply perm_cell; [exact C2|]. symmetry. apply Permutation_middle.
Qed.

(** Models inserted into a table and then queried, over the wire: read are exactly these models, with
    their keys, and those that were there before, in some order. *)
Theorem C94_round_trip_partial :
  forall (f32_text f64_text : Z -> list Z -> Prop) (f32 f64 : str -> option Z) debug db st m xs h ids h' l,
  (forall x l, f32_text x l -> Forall (fun c => 0 <= c < 128) l /\ f32 l = Some x) ->
  (forall x l, f64_text x l -> Forall (fun c => 0 <= c < 128) l /\ f64 l = Some x) ->
  serves db st -> made_for (st h) m -> keys_differ (st h) -> contents (st h) m l ->
  everywhere names_distinct (untyped m) -> everywhere names_plain (untyped m) -> everywhere has_column (untyped m) ->
  Forall (all_exact m) xs -> ~ In (m_table (untyped m)) (referred m) ->
  insert_each db m xs h = (Ok ids, h') ->
  let sel := selected (m_table (untyped m)) (untyped m) in
  let q := build_query (m_table (untyped m)) (model_columns (untyped m)) in
  exists xs', Forall2 (fun xi x' => saved m (fst xi) (snd xi) x') (combine xs ids) xs' /\ length ids = length xs /\
  forall b c cols vss rows pkts w wi qn qe rest,
  utf8_text q b -> answers (st h') q vss ->
  asks_for m sel cols -> Forall (fun c => col_type c <> CLongBlob) cols ->
  Forall2 (text_row f32_text f64_text (map (fun c => (col_type c, has_flag (col_flags c) UNSIGNED_FLAG)) cols)) vss rows ->
  Z.testbit (c_caps c) DEPRECATE_EOF_BIT = true ->
  requests [3 :: b] w qn -> answer_packets (c_caps c) (ARows cols rows) pkts -> framed qn pkts wi qe ->
  between c (wi ++ rest) ->
  exists c1 c2 rs ys, query b c = (Ok (mkSet cols None), c1) /\
    collect (model_rows (text_rows debug f32 f64) m) (c1, mkSet cols None) = (Ok ys, (c2, rs)) /\
    Permutation (xs' ++ l) ys /\ between c2 rest.
Proof.
  intros f32_text f64_text f32 f64 debug db st m xs h ids h' l H1 H2 Sv Md KD Ct Nd Np Hc Ex Nn E sel q.
  destruct (insert_each_saves db st m xs h ids h' l Sv Md KD Nd Np Ex Nn Ct E) as (Md' & KD' & xs' & S & L & Ct').
  exists xs'. splits; auto. intros b c cols vss rows pkts w wi qn qe rest _ An Ha Hb Hr Hcap Hq Hp Hf Hw.
  destruct (C94_select_partial (st h') m (xs' ++ l) vss Md' KD' Nd Np Hc Ct' An) as (ys & P & R & V).
  destruct (C93_query_partial f32_text f64_text f32 f64 debug m sel b c cols vss rows pkts w wi qn qe rest H1 H2 Ha Hb Hr V Hcap Hq Hp Hf Hw)
    as (c1 & r & c2 & rs & Q1 & Q2 & Q3 & _ & _ & Q4).
  exists c1, c2, rs, ys. splits; auto. rewrite (proj2 (Q3 ys) R) in Q2. exact Q2.
Qed.
Print Assumptions C94_round_trip_partial.

(** The tables of the test models; [map] has a column more. *)
Definition map_cols : list column_def :=
  [mkDef (s2l "id") (KNum U32) true; mkDef (s2l "name") KBytes false; mkDef (s2l "difficulty") (KNum U8) false;
   mkDef (s2l "note") (KNull KBytes) false; mkDef (s2l "last_played") (KNull KDatetime) false].
Definition entity_cols : list column_def :=
  [mkDef (s2l "id") (KNum U32) true; mkDef (s2l "name") KBytes false; mkDef (s2l "heading") (KNum F32) false;
   mkDef (s2l "model") (KNum U32) false; mkDef (s2l "spawn_after") KTime false; mkDef (s2l "map") (KNum U32) false;
   mkDef (s2l "position_x") (KNum F32) false; mkDef (s2l "position_y") (KNum F32) false; mkDef (s2l "position_z") (KNum F32) false].
Definition old_map : row :=
  [(s2l "id", VUInt 4); (s2l "name", VBytes (s2l "well")); (s2l "difficulty", VUTiny 9); (s2l "note", VNull); (s2l "last_played", VNull)].
Definition world : tables := fun t =>
  if list_eqb t (s2l "map") then Some (mkTable map_cols (s2l "id") [old_map])
  else if list_eqb t (s2l "entity") then Some (mkTable entity_cols (s2l "id") []) else None.
Definition orc (n : Z) : tinstance :=
  TInstance [RNum 0; RString (s2l "orc"); RNum n; RNum 3; RDuration (mkDuration 30 500000000)] [[RNum 1; RNum 2; RNum 3]]
    [TInstance [RNum 0; RString (s2l "cave"); RNum 2; RSome (RDatetime (mkDate 2024 2 29) (mkTime 20 15 0 0))] [] []].
Definition orc_row (n id map : Z) : list value :=
  [VUInt id; VBytes (s2l "orc"); VFloat n; VUInt 3; VTime false 0 0 0 30 500000; VFloat 1; VFloat 2; VFloat 3;
   VUInt map; VBytes (s2l "cave"); VUTiny 2; VDatetime 2024 2 29 20 15 0 0].

Ltac members := let H := fresh in intros ? ? H; cbn [In] in H; repeat (destruct H as [H|H]; [injection H as <- <-|]); try destruct H.

Lemma world_made : made_for world entity_types.
Proof.
  assert (M : made_for world map_types).
  { econstructor; [reflexivity|reflexivity|nodup|left; reflexivity|intros _; exists U32; left; reflexivity|nodup| |members|constructor].
    members; (eexists; split; [cbn; repeat (try (left; reflexivity); right)|]; split; [intros X|intros (_ & X)]; try discriminate; auto). }
  econstructor; [reflexivity|reflexivity|nodup|left; reflexivity|intros _; exists U32; left; reflexivity|nodup| | |].
  - members; (eexists; split; [cbn; repeat (try (left; reflexivity); right)|]; split; [intros X|intros (_ & X)]; try discriminate; auto).
  - members; cbn; repeat (try (left; reflexivity); right).
  - constructor; [|constructor]. cbn [snd fst]. split; [exact M|]. cbn [map_types].
    intros ty H. cbn [In] in H. repeat (destruct H as [H|H]; [try discriminate; injection H as <-|]); [|destruct H]. cbn. repeat (try (left; reflexivity); right).
Qed.

Lemma orc_exact : forall n, 0 <= n < 2 -> all_exact entity_types (orc n).
Proof.
  intros n Hn. unfold orc, entity_types, map_types.
  assert (U : utf8_text (s2l "orc") (s2l "orc") /\ utf8_text (s2l "cave") (s2l "cave")).
  { split; cbn; repeat (apply (utf8_cons _ _ [_] _); [constructor; lia|]); constructor. }
  destruct U as (U1 & U2).
  repeat match goal with
  | |- all_exact _ _ => constructor
  | |- Forall2 _ [] [] => constructor
  | |- Forall2 _ (_ :: _) (_ :: _) => constructor; cbn [fst snd]
  | |- exact (TyPrim _) _ => eapply exact_num; [constructor|cbn; unfold unsigned_ok; lia]
  | |- exact TyString _ => eapply exact_string; [eassumption|reflexivity]
  | |- exact (TyOption _) _ => apply exact_some; [discriminate|]
  | |- exact TyDuration _ => apply exact_duration
  | |- exact TyDatetime _ => apply exact_datetime
  end.
  all: try (vm_compute; intuition congruence).
  destruct (ymd_iff 2024 2 29 ltac:(lia)) as [(C & _)|(_ & F)]; [split; [cbn; lia|exact C]|vm_compute in F; discriminate].
Qed.

Example C94_case :
  serves (engine world) (engine_tables world) /\ made_for world entity_types /\ keys_differ world /\ contents world entity_types [] /\
  everywhere names_distinct (untyped entity_types) /\ everywhere names_plain (untyped entity_types) /\ everywhere has_column (untyped entity_types) /\
  all_exact entity_types (orc 0) /\ all_exact entity_types (orc 1) /\ ~ In (m_table (untyped entity_types)) (referred entity_types) /\
  exists h', insert_each (engine world) entity_types [orc 0; orc 1] [] = (Ok [1; 2], h') /\ length h' = 4%nat /\
    answers (engine_tables world h') (build_query (m_table (untyped entity_types)) (model_columns (untyped entity_types)))
      [orc_row 0 1 5; orc_row 1 2 6].
Proof.
  splits; try (apply orc_exact; lia).
  - apply engine_serves.
  - exact world_made.
  - intros t tb E. unfold world in E. destruct (list_eqb t (s2l "map")); [|destruct (list_eqb t (s2l "entity")); [|discriminate]]; injection E as <-.
    + split; [nodup|]. constructor; [|constructor]. exists (VUInt 4). split; [reflexivity|discriminate].
    + split; constructor.
  - exists (mkTable entity_cols (s2l "id") []), []. splits; [reflexivity|apply Permutation_refl|constructor].
  - cbn [untyped entity_types map_types map fst snd]. concrete.
  - cbn [untyped entity_types map_types map fst snd]. concrete.
  - cbn [untyped entity_types map_types map fst snd]. concrete.
  - cbn. intros [H|[]]. discriminate.
  - exists (snd (insert_each (engine world) entity_types [orc 0; orc 1] [])). splits; [vm_compute; reflexivity..|].
    apply select_answers. vm_compute. reflexivity.
Qed.

(** ** Values that do not come back *)

(** A duration of minus half a second is inserted without error and read as plus half a second. *)
Definition pause_types : tmodel :=
  TModel (s2l "pause") (s2l "id") true [(s2l "id", TyPrim U32); (s2l "length", TyDuration)] [] [].
Definition pauses : tables := fun t =>
  if list_eqb t (s2l "pause") then
    Some (mkTable [mkDef (s2l "id") (KNum U32) true; mkDef (s2l "length") KTime false] (s2l "id") []) else None.
Definition pause : tinstance := TInstance [RNum 0; RDuration (mkDuration (-1) 500000000)] [] [].


Theorem C94_refuted : exists T m x id h' row,
  serves (engine T) (engine_tables T) /\ made_for T m /\ keys_differ T /\ contents T m [] /\
  everywhere names_distinct (untyped m) /\ everywhere names_plain (untyped m) /\ everywhere has_column (untyped m) /\ referred m = [] /\
  (exists d, fields_of x = [RNum 0; RDuration d] /\ duration_valid d) /\
  insert (engine T) (into_active_model (untyped m) (instance_of m x)) [] = (Ok id, h') /\
  answers (engine_tables T h') (build_query (m_table (untyped m)) (model_columns (untyped m))) [row] /\
  (exists y, model_row m (selected (m_table (untyped m)) (untyped m)) row y) /\
  forall x', saved m x id x' -> ~ model_row m (selected (m_table (untyped m)) (untyped m)) row x'.
Proof.
  set (sel := selected (m_table (untyped pause_types)) (untyped pause_types)).
  assert (Nd : everywhere names_distinct (untyped pause_types)) by (cbn [untyped pause_types map fst snd]; concrete).
  assert (Ha : asks_for pause_types sel (map some_column sel)).
  { unfold asks_for. splits.
    - exact Nd.
    - cbn [untyped pause_types map fst snd]. concrete.
    - apply Forall_forall. auto.
    - intros x. auto.
    - apply some_columns_describe. }
  destruct (C93_rows_partial pause_types sel (map some_column sel) [VUInt 1; VTime false 0 0 0 0 500000] Ha eq_refl) as (R & _ & _).
  { repeat constructor; cbn; unfold unsigned_ok; lia. }
  exists pauses, pause_types, pause, 1, (snd (insert (engine pauses) (into_active_model (untyped pause_types) (instance_of pause_types pause)) [])),
    [VUInt 1; VTime false 0 0 0 0 500000].
  splits.
  - apply engine_serves.
  - econstructor; [reflexivity|reflexivity|nodup|left; reflexivity|intros _; exists U32; left; reflexivity|nodup| |members|constructor].
    members; (eexists; split; [cbn; repeat (try (left; reflexivity); right)|]; split; [intros X|intros (_ & X)]; try discriminate; auto).
  - intros t tb E. unfold pauses in E. destruct (list_eqb t (s2l "pause")); [|discriminate]. injection E as <-. split; constructor.
  - eexists _, []. splits; [reflexivity|apply Permutation_refl|constructor].
  - exact Nd.
  - cbn [untyped pause_types map fst snd]. concrete.
  - cbn [untyped pause_types map fst snd]. concrete.
  - reflexivity.
  - exists (mkDuration (-1) 500000000). split; [reflexivity|]. vm_compute. intuition congruence.
  - vm_compute. reflexivity.
  - apply select_answers. vm_compute. reflexivity.
  - exists (TInstance [RNum 1; RDuration (mkDuration 0 500000000)] [] []). apply R. vm_compute. reflexivity.
  - intros x' S M. apply R in M. vm_compute in M. injection M as <-.
    inversion S as [? ? ? ? ? ? ? ? ? ? ? ? ? ? Hy]; subst.
    specialize (Hy 1%nat _ _ _ _ eq_refl eq_refl eq_refl). vm_compute in Hy. discriminate.
Qed.
Print Assumptions C94_refuted.
