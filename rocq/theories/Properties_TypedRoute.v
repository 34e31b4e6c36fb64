(** Property C93 for all columns: rows of any query read as typed models. *)
From Coq Require Import String ZArith List Bool Lia.
From Verif Require Import Base BaseFacts Types Framing Spec_Wire Packets Spec_Packets Auth Spec_Stmt Spec_Text Rows Conn Spec_Conn Conn_proofs
  Conversion Spec_Conv Models Spec_Model Spec_Mapping Model_proofs Mapping_proofs Properties_Command Properties_Model Properties_Mapping
  TypedModel Spec_Typed Typed_proofs Properties_Typed Spec_Route Route_proofs Spec_TypedRoute TypedRoute_proofs.
Import ListNotations.
Open Scope Z_scope.

(** ** C93 *)

(** Whatever the tables and references are named and whatever columns the server describes: a row is read
    as the instance whose fields have the values of the last columns that go to them; or the error is that of
    the first field that has no column or refuses its value. *)
Theorem C93_rows_exactly : forall m cols row, everywhere names_distinct (untyped m) -> length row = length cols -> Forall value_ok row ->
  let r := rmap fst (from_mapping_and_row m (from_columns (untyped m) cols) row) in
  (forall x, r = Ok x <-> any_row m cols row x) /\ (forall e, r = Err e <-> any_refused m cols row e) /\ r <> Panic.
Proof. exact typed_any. Qed.
Print Assumptions C93_rows_exactly.

(** Models collected from any query, with the rows the server has written. *)
Theorem C93_query_exactly_partial :
  forall (f32_text f64_text : Z -> list Z -> Prop) (f32 f64 : str -> option Z) debug m q c cols vss rows pkts w wi qn qe rest,
  (forall x l, f32_text x l -> Forall (fun c => 0 <= c < 128) l /\ f32 l = Some x) ->
  (forall x l, f64_text x l -> Forall (fun c => 0 <= c < 128) l /\ f64 l = Some x) ->
  everywhere names_distinct (untyped m) -> Forall (fun c => col_type c <> CLongBlob) cols ->
  Forall2 (text_row f32_text f64_text (map (fun c => (col_type c, has_flag (col_flags c) UNSIGNED_FLAG)) cols)) vss rows ->
  Forall (Forall value_ok) vss ->
  Z.testbit (c_caps c) DEPRECATE_EOF_BIT = true ->
  requests [3 :: q] w qn -> answer_packets (c_caps c) (ARows cols rows) pkts -> framed qn pkts wi qe ->
  between c (wi ++ rest) ->
  exists c1 r c2 rs, query q c = (Ok (mkSet cols None), c1) /\
    collect (model_rows (text_rows debug f32 f64) m) (c1, mkSet cols None) = (r, (c2, rs)) /\
    (forall xs, r = Ok xs <-> Forall2 (any_row m cols) vss xs) /\
    (forall e, r = Err e <-> exists p, e = EProtocol (PParse p) /\ any_rows_refused m cols vss p) /\ r <> Panic /\
    between c2 rest.
Proof.
  intros f32_text f64_text f32 f64 debug m q c cols vss rows pkts w wi qn qe rest H1 H2 Ha Hb Hr Hv Hc Hq Hp Hf Hw.
  pose proof (C47_text_values f32_text f64_text f32 f64 debug cols vss rows H1 H2 Hr Hb) as E.
  destruct (C47_rows_in_order_partial _ (model_rows (text_rows debug f32 f64) m) q c cols rows pkts w wi qn qe rest Hc Hq Hp Hf Hw)
    as (c1 & E1 & (c2 & rs & E2 & B & _) & _).
  assert (V : Forall (fun r => length r = length cols /\ Forall value_ok r) vss).
  { clear - Hr Hv. induction Hr as [|vs p vss rows A _ IH]; constructor; inversion Hv; subst; auto. split; [|assumption].
    clear - A. rewrite <- (map_length (fun c => (col_type c, has_flag (col_flags c) UNSIGNED_FLAG))).
    induction A; cbn [length]; congruence. }
  destruct (rows_any_read _ m cols rows vss Ha V E) as (R1 & R2 & R3).
  exists c1, (all_rows (model_rows (text_rows debug f32 f64) m) cols rows), c2, rs. splits; assumption.
Qed.
Print Assumptions C93_query_exactly_partial.

(** The same for prepared statements. *)
Theorem C93_statement_exactly : forall id params values,
  0 <= id < 2 ^ 32 -> params < 65536 -> Forall value_ok values -> Z.of_nat (length values) = params ->
  exists ps, stmt_request id values ps /\
  forall m c cols vss rows pkts w wi qn qe rest,
  everywhere names_distinct (untyped m) ->
  Forall2 (bin_row (map (fun c => (col_type c, has_flag (col_flags c) UNSIGNED_FLAG)) cols)) vss rows ->
  Forall (Forall value_ok) vss ->
  Z.testbit (c_caps c) DEPRECATE_EOF_BIT = true ->
  requests ps w qn -> answer_packets (c_caps c) (ARows cols rows) pkts -> framed qn pkts wi qe -> between c (wi ++ rest) ->
  exists c1 r c2 rs, stmt_query (mkPrepared id params) values c = (Ok (mkSet cols None), c1) /\
    collect (model_rows bin_rows m) (c1, mkSet cols None) = (r, (c2, rs)) /\
    (forall xs, r = Ok xs <-> Forall2 (any_row m cols) vss xs) /\
    (forall e, r = Err e <-> exists p, e = EProtocol (PParse p) /\ any_rows_refused m cols vss p) /\ r <> Panic /\
    between c2 rest.
Proof.
  intros id params values U1 U2 U3 U4. destruct (stmt_query_opens id params values U1 U2 U3 U4) as (ps & R & H).
  exists ps. split; [exact R|]. intros m c cols vss rows pkts w wi qn qe rest Ha Hr Hv Hc Hq Hp Hf Hw.
  destruct (C47_binary_values cols vss rows Hr) as (_ & E).
  destruct (H _ (model_rows bin_rows m) c cols rows pkts w wi qn qe rest Hc Hq Hp Hf Hw) as (c1 & E1 & c2 & rs & E2 & B & _).
  assert (V : Forall (fun r => length r = length cols /\ Forall value_ok r) vss).
  { clear - Hr Hv. induction Hr as [|vs p vss rows A _ IH]; constructor; inversion Hv; subst; auto. split; [|assumption].
    destruct A as (bm & w & _ & A & _). clear - A. rewrite <- (map_length (fun c => (col_type c, has_flag (col_flags c) UNSIGNED_FLAG))).
    induction A; cbn [length]; congruence. }
  destruct (rows_any_read _ m cols rows vss Ha V E) as (R1 & R2 & R3).
  exists c1, (all_rows (model_rows bin_rows m) cols rows), c2, rs. splits; assumption.
Qed.
Print Assumptions C93_statement_exactly.

(** A model with a reference named like its table, which the guarded theorems leave out: with other names
    for the tables it is read; without the column of the reference that is the error, unless the own field
    has refused its value before. *)
Example C93_exactly_case :
  let c := map some_column in
  let cols := c [(s2l "x", s2l "id"); (s2l "parent.parent", s2l "id"); (s2l "y", s2l "size")] in
  let short := c [(s2l "x", s2l "id")] in
  let read cols row := rmap fst (from_mapping_and_row folder (from_columns (untyped folder) cols) row) in
  everywhere names_distinct (untyped folder) /\
  any_row folder cols [VUInt 1; VUInt 2; VNull] (TInstance [RNum 1] [] [TInstance [RNum 2] [] []]) /\
  any_refused folder short [VUInt 1] (EMissingField (s2l "id")) /\
  read cols [VUInt 1; VUInt 2; VNull] = Ok (TInstance [RNum 1] [] [TInstance [RNum 2] [] []]) /\
  read short [VUInt 1] = Err (EMissingField (s2l "id")) /\
  read short [VNull] = Err (EWrongValue TUInt VNull).
Proof.
  cbv zeta. assert (D : everywhere names_distinct (untyped folder)) by (unfold folder; cbn [untyped map fst snd]; concrete).
  split; [exact D|]. splits; try (vm_compute; reflexivity).
  - apply (C93_rows_exactly folder (map some_column [(s2l "x", s2l "id"); (s2l "parent.parent", s2l "id"); (s2l "y", s2l "size")])
      [VUInt 1; VUInt 2; VNull] D); [reflexivity|repeat constructor; cbn; lia|vm_compute; reflexivity].
  - apply (C93_rows_exactly folder (map some_column [(s2l "x", s2l "id")]) [VUInt 1] D); [reflexivity|repeat constructor; cbn; lia|vm_compute; reflexivity].
Qed.
