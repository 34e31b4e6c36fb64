(** Rows read as models: C93. *)
From Coq Require Import String ZArith List Bool Lia.
From Verif Require Import Base BaseFacts Types Framing Spec_Wire Packets Spec_Packets Auth Spec_Stmt Spec_Text Rows Conn Spec_Conn Conn_proofs
  Conversion Spec_Conv Models Spec_Model Spec_Mapping Mapping_proofs Properties_Command Properties_Model Properties_Mapping
  TypedModel Spec_Typed Typed_proofs.
Import ListNotations.
Open Scope Z_scope.

(** ** C93: rows are read as models *)

(** A field of a type takes exactly the values the type can hold, and refuses the others with the
    error that says why. *)
Theorem C93_fields : forall t v, value_ok v ->
  (forall x, field_try_into t v = Ok x <-> reads t v x) /\ (forall e, field_try_into t v = Err e <-> refuses t v e) /\
  field_try_into t v <> Panic.
Proof. exact field_iff. Qed.
Print Assumptions C93_fields.

(** A row of a query with the columns of the model (in any order, among others) is read as the model
    whose fields are the values of its columns, if every field takes its value; otherwise the error is
    that of the first field that refuses its value. *)
Theorem C93_rows_partial : forall m sel cols row, asks_for m sel cols -> length row = length cols -> Forall value_ok row ->
  let r := rmap fst (from_mapping_and_row m (from_columns (untyped m) cols) row) in
  (forall x, r = Ok x <-> model_row m sel row x) /\ (forall e, r = Err e <-> row_refused m sel row e) /\ r <> Panic.
Proof. exact row_read. Qed.
Print Assumptions C93_rows_partial.

(** Models collected from a query: one for every row the server has written, in order; or the error of
    the first field of the first row that cannot be read. *)
Theorem C93_query_partial :
  forall (f32_text f64_text : Z -> list Z -> Prop) (f32 f64 : str -> option Z) debug m sel q c cols vss rows pkts w wi qn qe rest,
  (forall x l, f32_text x l -> Forall (fun c => 0 <= c < 128) l /\ f32 l = Some x) ->
  (forall x l, f64_text x l -> Forall (fun c => 0 <= c < 128) l /\ f64 l = Some x) ->
  asks_for m sel cols -> Forall (fun c => col_type c <> CLongBlob) cols ->
  Forall2 (text_row f32_text f64_text (map (fun c => (col_type c, has_flag (col_flags c) UNSIGNED_FLAG)) cols)) vss rows ->
  Forall (Forall value_ok) vss ->
  Z.testbit (c_caps c) DEPRECATE_EOF_BIT = true ->
  requests [3 :: q] w qn -> answer_packets (c_caps c) (ARows cols rows) pkts -> framed qn pkts wi qe ->
  between c (wi ++ rest) ->
  exists c1 r c2 rs, query q c = (Ok (mkSet cols None), c1) /\
    collect (model_rows (text_rows debug f32 f64) m) (c1, mkSet cols None) = (r, (c2, rs)) /\
    (forall xs, r = Ok xs <-> Forall2 (model_row m sel) vss xs) /\
    (forall e, r = Err e <-> exists p, e = EProtocol (PParse p) /\ rows_refused m sel vss p) /\ r <> Panic /\
    between c2 rest.
Proof.
  intros f32_text f64_text f32 f64 debug m sel q c cols vss rows pkts w wi qn qe rest H1 H2 Ha Hb Hr Hv Hc Hq Hp Hf Hw.
  pose proof (C47_text_values f32_text f64_text f32 f64 debug cols vss rows H1 H2 Hr Hb) as E.
  destruct (C47_rows_in_order_partial _ (model_rows (text_rows debug f32 f64) m) q c cols rows pkts w wi qn qe rest Hc Hq Hp Hf Hw)
    as (c1 & E1 & (c2 & rs & E2 & B & _) & _).
  assert (V : Forall (fun r => length r = length cols /\ Forall value_ok r) vss).
  { clear - Hr Hv. induction Hr as [|vs p vss rows A _ IH]; constructor; inversion Hv; subst; auto. split; [|assumption].
    clear - A. rewrite <- (map_length (fun c => (col_type c, has_flag (col_flags c) UNSIGNED_FLAG))).
    induction A; cbn [length]; congruence. }
  destruct (rows_read _ m sel cols rows vss Ha V E) as (R1 & R2 & R3).
  exists c1, (all_rows (model_rows (text_rows debug f32 f64) m) cols rows), c2, rs. splits; assumption.
Qed.
Print Assumptions C93_query_partial.

(** The same for prepared statements. *)
Theorem C93_statement_partial : forall id params values,
  0 <= id < 2 ^ 32 -> params < 65536 -> Forall value_ok values -> Z.of_nat (length values) = params ->
  exists ps, stmt_request id values ps /\
  forall m sel c cols vss rows pkts w wi qn qe rest,
  asks_for m sel cols ->
  Forall2 (bin_row (map (fun c => (col_type c, has_flag (col_flags c) UNSIGNED_FLAG)) cols)) vss rows ->
  Forall (Forall value_ok) vss ->
  Z.testbit (c_caps c) DEPRECATE_EOF_BIT = true ->
  requests ps w qn -> answer_packets (c_caps c) (ARows cols rows) pkts -> framed qn pkts wi qe -> between c (wi ++ rest) ->
  exists c1 r c2 rs, stmt_query (mkPrepared id params) values c = (Ok (mkSet cols None), c1) /\
    collect (model_rows bin_rows m) (c1, mkSet cols None) = (r, (c2, rs)) /\
    (forall xs, r = Ok xs <-> Forall2 (model_row m sel) vss xs) /\
    (forall e, r = Err e <-> exists p, e = EProtocol (PParse p) /\ rows_refused m sel vss p) /\ r <> Panic /\
    between c2 rest.
Proof.
  intros id params values U1 U2 U3 U4. destruct (stmt_query_opens id params values U1 U2 U3 U4) as (ps & R & H).
  exists ps. split; [exact R|]. intros m sel c cols vss rows pkts w wi qn qe rest Ha Hr Hv Hc Hq Hp Hf Hw.
  destruct (C47_binary_values cols vss rows Hr) as (_ & E).
  destruct (H _ (model_rows bin_rows m) c cols rows pkts w wi qn qe rest Hc Hq Hp Hf Hw) as (c1 & E1 & c2 & rs & E2 & B & _).
  assert (V : Forall (fun r => length r = length cols /\ Forall value_ok r) vss).
  { clear - Hr Hv. induction Hr as [|vs p vss rows A _ IH]; constructor; inversion Hv; subst; auto. split; [|assumption].
    destruct A as (bm & w & _ & A & _). clear - A. rewrite <- (map_length (fun c => (col_type c, has_flag (col_flags c) UNSIGNED_FLAG))).
    induction A; cbn [length]; congruence. }
  destruct (rows_read _ m sel cols rows vss Ha V E) as (R1 & R2 & R3).
  exists c1, (all_rows (model_rows bin_rows m) cols rows), c2, rs. splits; assumption.
Qed.
Print Assumptions C93_statement_partial.

(** The types of the test models (src/model/test.rs:6-34). *)
Definition map_types : tmodel :=
  TModel (s2l "map") (s2l "id") true
    [(s2l "id", TyPrim U32); (s2l "name", TyString); (s2l "difficulty", TyPrim U8); (s2l "last_played", TyOption TyDatetime)] [] [].
Definition entity_types : tmodel :=
  TModel (s2l "entity") (s2l "id") true
    [(s2l "id", TyPrim U32); (s2l "name", TyString); (s2l "heading", TyPrim F32); (s2l "model", TyPrim U32); (s2l "spawn_after", TyDuration)]
    [(s2l "position", [(s2l "x", TyPrim F32); (s2l "y", TyPrim F32); (s2l "z", TyPrim F32)])]
    [(s2l "map", map_types)].
Definition entity_row : list value :=
  [VUInt 7; VBytes (s2l "orc"); VFloat 0; VUInt 3; VTime false 0 0 0 30 0; VFloat 1; VFloat 2; VFloat 3;
   VUInt 1; VBytes (s2l "cave"); VUTiny 2; VNull].
Definition entity : tinstance :=
  TInstance [RNum 7; RString (s2l "orc"); RNum 0; RNum 3; RDuration (mkDuration 30 0)] [[RNum 1; RNum 2; RNum 3]]
    [TInstance [RNum 1; RString (s2l "cave"); RNum 2; RNone] [] []].

Lemma entity_asks : asks_for entity_types (selected (s2l "entity") entity_model) (map some_column (selected (s2l "entity") entity_model)).
Proof.
  change (asks_for entity_types (selected (m_table (untyped entity_types)) (untyped entity_types))
    (map some_column (selected (m_table (untyped entity_types)) (untyped entity_types)))).
  unfold asks_for. splits.
  - cbn [untyped entity_types map_types map fst snd]. concrete.
  - cbn [untyped entity_types map_types map fst snd]. concrete.
  - apply Forall_forall. auto.
  - intros x. auto.
  - apply some_columns_describe.
Qed.

Example C93_case :
  untyped entity_types = entity_model /\
  asks_for entity_types (selected (s2l "entity") entity_model) (map some_column (selected (s2l "entity") entity_model)) /\
  length entity_row = length (selected (s2l "entity") entity_model) /\ Forall value_ok entity_row /\
  rmap fst (from_mapping_and_row entity_types (from_columns (untyped entity_types) (map some_column (selected (s2l "entity") entity_model)))
    entity_row) = Ok entity /\
  rmap fst (from_mapping_and_row entity_types (from_columns (untyped entity_types) (map some_column (selected (s2l "entity") entity_model)))
    (VUInt 7 :: VBytes [255] :: VDouble 5 :: skipn 3 entity_row)) = Err EFromUtf8.
Proof.
  splits; try reflexivity.
  - exact entity_asks.
  - unfold entity_row. repeat constructor; cbn [value_ok]; unfold bytes_ok, byte_ok, unsigned_ok, lenZ; cbn [s2l]; try lia.
    all: repeat constructor; cbn; try lia.
Qed.

(** The same over the wire: a map with all four columns, twice; the second row has no name. *)
Definition definition (name : string) (code flags : Z) : bytes :=
  [3; 100; 101; 102; 0] ++ wire_lenenc_str (s2l "map") ++ wire_lenenc_str (s2l "map") ++ wire_lenenc_str (s2l name) ++
  wire_lenenc_str (s2l name) ++ [12; 33; 0; 255; 0; 0; 0; code] ++ wire_uint 2 flags ++ [0; 0; 0].
Definition map_answer (name : bytes) : bytes :=
  frame 1 [4] ++ frame 2 (definition "last_played" 12 0) ++ frame 3 (definition "id" 3 32) ++
  frame 4 (definition "name" 253 0) ++ frame 5 (definition "difficulty" 1 32) ++
  frame 6 (wire_lenenc_str (s2l "2024-02-29 20:15:00") ++ wire_lenenc_str (s2l "1") ++ wire_lenenc_str (s2l "cave") ++
    wire_lenenc_str (s2l "2")) ++
  frame 7 ([251] ++ wire_lenenc_str (s2l "2") ++ name ++ wire_lenenc_str (s2l "255")) ++ frame 8 [254; 0; 0; 2; 0; 0; 0].
Definition read_maps (wire : bytes) : res error (list tinstance) :=
  match query (s2l "q") (idle wire) with
  | (Ok rs, c) => fst (collect (model_rows (text_rows true (fun _ => None) (fun _ => None)) map_types) (c, rs))
  | (Err e, _) => Err e
  | (Panic, _) => Panic
  end.
Example C93_wire_case :
  read_maps (map_answer (wire_lenenc_str (s2l "well"))) =
    Ok [TInstance [RNum 1; RString (s2l "cave"); RNum 2; RSome (RDatetime (mkDate 2024 2 29) (mkTime 20 15 0 0))] [] [];
        TInstance [RNum 2; RString (s2l "well"); RNum 255; RNone] [] []] /\
  read_maps (map_answer [251]) = Err (EProtocol (PParse (EWrongValue TBytes VNull))).
Proof. split; vm_compute; reflexivity. Qed.

(** C93 is false of a model with a reference named like the model's own table: every field has its
    column with a value it can hold, but the row is not read. *)
Definition folder : tmodel :=
  TModel (s2l "parent") (s2l "id") true [(s2l "id", TyPrim U32)] []
    [(s2l "parent", TModel (s2l "folder") (s2l "id") true [(s2l "id", TyPrim U32)] [] [])].
Theorem C93_same_name_refuted : exists m sel row x,
  sel = selected (m_table (untyped m)) (untyped m) /\ everywhere names_distinct (untyped m) /\
  Forall value_ok row /\ model_row m sel row x /\
  rmap fst (from_mapping_and_row m (from_columns (untyped m) (map some_column sel)) row) = Err (EMissingField (s2l "id")).
Proof.
  exists folder, (selected (s2l "parent") (untyped folder)), [VUInt 1; VUInt 2],
    (TInstance [RNum 1] [] [TInstance [RNum 2] [] []]). splits.
  - reflexivity.
  - unfold folder. cbn [untyped map fst snd]. concrete.
  - repeat constructor; cbn; lia.
  - exists [VUInt 1; VUInt 2]. split.
    + constructor; [|constructor; [|constructor]].
      * exists 0%nat. split; [|reflexivity]. split; [reflexivity|]. intros [|[|j]] H; [lia|discriminate|destruct j; discriminate].
      * exists 1%nat. split; [|reflexivity]. split; [reflexivity|]. intros [|[|j]] H; [lia|lia|destruct j; discriminate].
    + split; [repeat constructor|]. apply ra_cons; [eapply rd_prim; constructor|]. apply ra_cons; [eapply rd_prim; constructor|]. constructor.
  - vm_compute. reflexivity.
Qed.
Print Assumptions C93_same_name_refuted.
