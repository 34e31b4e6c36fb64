(** Active models on a connection: C96. *)
From Coq Require Import String ZArith List Bool Lia Permutation.
From Verif Require Import Base BaseFacts Types Framing Spec_Wire Packets Spec_Packets Packets_proofs Auth Spec_Stmt Spec_Text Rows Conn Spec_Conn Conn_proofs
  Conversion Spec_Conv Conversion_proofs Models Spec_Model Spec_Mapping Mapping_proofs Model_proofs TypedModel Spec_Typed Typed_proofs
  Spec_Engine Engine_proofs Spec_Engine_run Spec_Active Active_proofs ModelWire Spec_ModelWire ModelWire_proofs
  Properties_Command Properties_Model Properties_Mapping Properties_Typed Properties_Engine Properties_Active.
Import ListNotations.
Open Scope Z_scope.

(** ** C96: inserts and updates on a connection *)

(** Whatever the server is: if it answers each statement as [db] does, then the insert on the
    connection has the same result, the bytes sent are those of the statements [tr] in order, each
    prepared and executed once, and afterwards no byte of an answer is left. *)
Theorem C96_insert : exists packets : use -> list (list Z),
  (forall u, use_ok u -> request u (packets u)) /\
  forall A (decode : list column -> bytes -> res error A) caps db a r tr hs i o c rest,
  insert db a [] = (r, tr) -> exchanged tr hs -> history decode caps packets hs i o ->
  Z.testbit caps DEPRECATE_EOF_BIT = true -> c_caps c = caps -> between c (i ++ rest) ->
  exists c', insert_on a c = (r, c') /\ between c' rest /\ s_out (c_stream c') = s_out (c_stream c) ++ o.
Proof.
  exists use_packets. split; [intros u H; now apply use_packets_request|].
  intros A decode caps db a r tr hs i o c rest E Ex Hh Hd Hc Hb.
  destruct (carried_served _ _ _ (carried_insert db a) A decode caps r tr hs i o c rest E Ex Hh Hd Hc Hb) as (c' & H1 & H2 & _ & H3). eauto.
Qed.
Print Assumptions C96_insert.

(** An update likewise. *)
Theorem C96_update : exists packets : use -> list (list Z),
  (forall u, use_ok u -> request u (packets u)) /\
  forall A (decode : list column -> bytes -> res error A) caps db key primary a r tr hs i o c rest,
  update_model db key primary a [] = (r, tr) -> exchanged tr hs -> history decode caps packets hs i o ->
  Z.testbit caps DEPRECATE_EOF_BIT = true -> c_caps c = caps -> between c (i ++ rest) ->
  exists c', update_on key primary a c = (r, c') /\ between c' rest /\ s_out (c_stream c') = s_out (c_stream c) ++ o.
Proof.
  exists use_packets. split; [intros u H; now apply use_packets_request|].
  intros A decode caps db key p a r tr hs i o c rest E Ex Hh Hd Hc Hb.
  destruct (carried_served _ _ _ (carried_update db key p a) A decode caps r tr hs i o c rest E Ex Hh Hd Hc Hb) as (c' & H1 & H2 & _ & H3). eauto.
Qed.
Print Assumptions C96_update.

(** The program of C95 on a connection. *)
Definition run_op_on (m : tmodel) (o : op) : IO conn unit :=
  match o with
  | OInsert a => iobind (insert_on (active_of m a)) (fun _ => ioret tt)
  | OUpdate key a => update_typed_on m key a
  end.
Fixpoint run_ops_on (m : tmodel) (ops : list op) : IO conn unit :=
  match ops with
  | [] => ioret tt
  | o :: ops => iobind (run_op_on m o) (fun _ => run_ops_on m ops)
  end.

Lemma carried_op : forall db m o, carried (run_op db m o) (run_op_on m o).
Proof.
  intros db m [a|key a]; cbn [run_op run_op_on].
  - exact (carried_bind _ _ _ _ _ _ (carried_insert db (active_of m a)) (fun _ => carried_ret unit tt)).
  - apply carried_update.
Qed.
Lemma carried_ops : forall db m ops, carried (run_ops db m ops) (run_ops_on m ops).
Proof.
  intros db m. induction ops as [|o ops IH]; cbn [run_ops run_ops_on]; [apply carried_ret|].
  pose proof (carried_bind _ _ _ _ _ _ (carried_op db m o) (fun _ => IH)) as H. intros h r h' E. apply H.
  unfold iobind. destruct (run_op db m o h) as [[[]|e|] h1]; exact E.
Qed.

(** Inserts, updates and then the generated query, all on one connection to a server that keeps
    tables: read are exactly the models that the operations lead to. *)
Theorem C96_program_partial : exists packets : use -> list (list Z),
  (forall u, use_ok u -> request u (packets u)) /\
  forall (f32_text f64_text : Z -> list Z -> Prop) (f32 f64 : str -> option Z) debug A (decode : list column -> bytes -> res error A)
    caps db st m ops h' l,
  (forall x l, f32_text x l -> Forall (fun c => 0 <= c < 128) l /\ f32 l = Some x) ->
  (forall x l, f64_text x l -> Forall (fun c => 0 <= c < 128) l /\ f64 l = Some x) ->
  serves db st -> made_for (st []) m -> integer_keys m -> keys_differ (st []) -> contents (st []) m l ->
  everywhere names_distinct (untyped m) -> everywhere names_plain (untyped m) -> everywhere has_column (untyped m) ->
  ~ In (m_table (untyped m)) (referred m) -> ops_proper db st m ops [] ->
  run_ops db m ops [] = (Ok tt, h') ->
  Z.testbit caps DEPRECATE_EOF_BIT = true ->
  let sel := selected (m_table (untyped m)) (untyped m) in
  let q := build_query (m_table (untyped m)) (model_columns (untyped m)) in
  exists l', all_changed db st m ops [] l l' /\
  forall hs i o b c cols vss rows pkts w wi qn qe rest,
  exchanged h' hs -> history decode caps packets hs i o ->
  utf8_text q b -> answers (st h') q vss ->
  asks_for m sel cols -> Forall (fun c => col_type c <> CLongBlob) cols ->
  Forall2 (text_row f32_text f64_text (map (fun c => (col_type c, has_flag (col_flags c) UNSIGNED_FLAG)) cols)) vss rows ->
  requests [3 :: b] w qn -> answer_packets caps (ARows cols rows) pkts -> framed qn pkts wi qe ->
  c_caps c = caps -> between c (i ++ wi ++ rest) ->
  exists c1 c2 c3 rs ys, run_ops_on m ops c = (Ok tt, c1) /\ s_out (c_stream c1) = s_out (c_stream c) ++ o /\
    query b c1 = (Ok (mkSet cols None), c2) /\
    collect (model_rows (text_rows debug f32 f64) m) (c2, mkSet cols None) = (Ok ys, (c3, rs)) /\
    Permutation l' ys /\ between c3 rest.
Proof.
  exists use_packets. split; [intros u H; now apply use_packets_request|].
  intros f32_text f64_text f32 f64 debug A decode caps db st m ops h' l H1 H2 Sv Md Ik KD Ct Nd Np Hc Nn Pr E Hd sel q.
  destruct (C95_history_partial f32_text f64_text f32 f64 debug db st m ops [] h' l H1 H2 Sv Md Ik KD Ct Nd Np Hc Nn Pr E) as (l' & S & Rd).
  exists l'. split; [exact S|]. intros hs i o b c cols vss rows pkts w wi qn qe rest Ex Hh Hu An Ha Hb Hr Hq Hp Hf Hcap Hw.
  destruct (carried_served _ _ _ (carried_ops db m ops) A decode caps _ _ hs i o c (wi ++ rest) E Ex Hh Hd Hcap Hw) as (c1 & R1 & R2 & R3 & R4).
  assert (Ec : c_caps c1 = caps) by (unfold c_caps in *; now rewrite R3).
  destruct (Rd b c1 cols vss rows pkts w wi qn qe rest) as (c2 & c3 & rs & ys & Q1 & Q2 & Q3 & Q4); auto; [now rewrite Ec..|].
  exists c1, c2, c3, rs, ys. splits; auto.
Qed.
Print Assumptions C96_program_partial.

(** The program of C95 on a connection.  Statements are numbered from 1; each parameter is described
    by one byte, which nobody looks at. *)
Definition c96_prepared (sid n : Z) : list bytes :=
  ([0] ++ wire_uint 4 sid ++ wire_uint 2 0 ++ wire_uint 2 n ++ [0] ++ wire_uint 2 0) :: repeat [0] (Z.to_nat n).
Definition c96_done (id : Z) : list bytes := [[0; 1; id; 2; 0; 0; 0]].
Fixpoint frame_all (q : Z) (ps : list bytes) : bytes :=
  match ps with [] => [] | p :: ps => frame q p ++ frame_all (next_seq q) ps end.
Fixpoint c96_uses (sid : Z) (tr : list statement) : list (use * seen bytes) :=
  match tr with
  | [] => []
  | (text, params, r) :: tr =>
    (UPrepare text, SPrepared sid (Z.of_nat (length params))) ::
    (UStmtExecute sid (Z.of_nat (length params)) params, SDone 1 (match r with Ok id => id | _ => 0 end) 2 0 None None) ::
    c96_uses (sid + 1) tr
  end.
Fixpoint c96_input (sid : Z) (tr : list statement) : bytes :=
  match tr with
  | [] => []
  | (text, params, r) :: tr => frame_all 1 (c96_prepared sid (Z.of_nat (length params))) ++
    frame_all 1 (c96_done (match r with Ok id => id | _ => 0 end)) ++ c96_input (sid + 1) tr
  end.
Fixpoint c96_output (sid : Z) (tr : list statement) : bytes :=
  match tr with
  | [] => []
  | (text, params, r) :: tr => frame 0 (22 :: text) ++
    concat (map (frame 0) (use_packets (UStmtExecute sid (Z.of_nat (length params)) params))) ++ c96_output (sid + 1) tr
  end.

Definition c96_simple (sid : Z) (s : statement) : Prop :=
  let '(text, params, r) := s in
  Forall (fun c => 0 <= c < 128) text /\ Z.of_nat (length text) < 1000 /\ Forall value_ok params /\ Z.of_nat (length params) < 100 /\
  (exists id, r = Ok id /\ 0 <= id < 251) /\
  exists p, use_packets (UStmtExecute sid (Z.of_nat (length params)) params) = [p] /\ Z.of_nat (length p) < 1000.
Inductive c96_all : Z -> list statement -> Prop :=
| c96_none : forall sid, c96_all sid []
| c96_more : forall sid s tr, c96_simple sid s -> c96_all (sid + 1) tr -> c96_all sid (s :: tr).

Lemma frame_all_framed : forall ps q, Forall (fun p => Z.of_nat (length p) < 1000) ps -> exists q', framed q ps (frame_all q ps) q'.
Proof.
  induction ps as [|p ps IH]; intros q H; inversion_clear H; cbn [frame_all]; [eexists; constructor|].
  destruct (IH (next_seq q)) as (q' & F); [assumption|]. exists q'. econstructor; [|exact F]. apply frame_frames. lia.
Qed.

Lemma c96_served : forall sid tr, c96_all sid tr -> 0 <= sid -> sid + Z.of_nat (length tr) < 1000 ->
  exchanged tr (c96_uses sid tr) /\
  history (fun _ p => Ok p) some_caps use_packets (c96_uses sid tr) (c96_input sid tr) (c96_output sid tr).
Proof.
  intros sid tr H. induction H as [sid|sid [[text params] r] tr (T1 & T2 & V & L & (id & -> & Hid) & p & Ep & Lp) _ IH]; intros H0 H1;
    [split; constructor|]. cbn [length] in H1. destruct (IH ltac:(lia) ltac:(lia)) as (I1 & I2).
  split.
  - apply (xc_done text text params id sid 1 2 0 None None tr (c96_uses (sid + 1) tr)); [now apply utf8_text_ascii|exact I1].
  - cbn [c96_uses c96_input c96_output].
    destruct (frame_all_framed (c96_prepared sid (Z.of_nat (length params))) 1) as (q1 & F1).
    { constructor; [cbn; lia|]. apply Forall_forall. intros x Hx. apply repeat_spec in Hx. subst x. cbn. lia. }
    destruct (frame_all_framed (c96_done id) 1) as (q2 & F2). { constructor; [cbn; lia|constructor]. }
    eapply history_cons; [exact I|constructor; apply frame_frames; cbn [length]; lia| |exact F1|constructor|].
    + apply (ap_prepared some_caps sid (Z.of_nat (length params)) 0 0 (wire_uint 4 sid ++ wire_uint 2 0 ++ wire_uint 2 (Z.of_nat (length params)) ++ [0] ++ wire_uint 2 0)).
      * unfold stmt_layout. splits; try lia. exists 0, 0, []. reflexivity.
      * rewrite repeat_length. lia.
    + eapply history_cons; [| | |exact F2|exact (ex_stmt_execute _ sid _ params 1 id 2 0 [] [])|exact I2].
      * cbn [use_ok]. splits; try lia; auto.
      * rewrite Ep. cbn [map concat]. rewrite app_nil_r. constructor. apply frame_frames. lia.
      * apply (ap_ok some_caps InfoAbsent 1 id 2 0 [] []); [discriminate| |split; [lia|intros K; discriminate]|reflexivity].
        exists [1; id; 2; 0; 0; 0]. split; [|reflexivity]. exists [1], [id], []. splits; try lia; try reflexivity; constructor; lia.
Qed.

Definition c96_trace : list statement := snd (run_ops (engine world) entity_types program []).
Ltac small_values := repeat match goal with
  | |- Forall value_ok (_ :: _) => apply Forall_cons
  | |- Forall value_ok [] => apply Forall_nil
  end; cbn [value_ok]; unfold unsigned_ok;
  try match goal with |- bytes_ok _ /\ _ => split; [repeat first [apply Forall_cons; [unfold byte_ok; lia|]|apply Forall_nil]|vm_compute; split; congruence] end;
  cbn; try lia.

Example C96_case :
  run_ops (engine world) entity_types program [] = (Ok tt, c96_trace) /\
  exchanged c96_trace (c96_uses 1 c96_trace) /\
  history (fun _ p => Ok p) some_caps use_packets (c96_uses 1 c96_trace) (c96_input 1 c96_trace) (c96_output 1 c96_trace) /\
  between (idle (c96_input 1 c96_trace)) (c96_input 1 c96_trace ++ []) /\
  let '(r, c) := run_ops_on entity_types program (idle (c96_input 1 c96_trace)) in
  r = Ok tt /\ s_in (c_stream c) = [] /\ s_out (c_stream c) = c96_output 1 c96_trace /\
  firstn 59 (s_out (c_stream c)) = [55; 0; 0; 0; 22] ++ s2l "insert into `map` (`name`, `difficulty`) values (?, ?)".
Proof.
  assert (S : c96_all 1 c96_trace).
  { assert (E : c96_trace = ltac:(let t := eval vm_compute in c96_trace in exact t)) by (vm_compute; reflexivity).
    rewrite E. clear E.
    repeat (constructor; [unfold c96_simple; splits; [repeat constructor; lia|vm_compute; reflexivity|small_values|vm_compute; reflexivity|
      eexists; split; [reflexivity|lia]|eexists; split; [vm_compute; reflexivity|vm_compute; reflexivity]]|]). constructor. }
  destruct (c96_served 1 c96_trace S) as (H1 & H2); [lia|vm_compute; reflexivity|].
  splits; [vm_compute; reflexivity|exact H1|exact H2| |].
  - rewrite app_nil_r. split; [vm_compute; split; congruence|]. split; [reflexivity|]. left. split; reflexivity.
  - vm_compute. repeat split.
Qed.

(** What C95 refutes, on a connection: a model with a reference whose key is zero is inserted without
    error, and of the models that the generated query is answered with, none is left. *)
Theorem C96_program_refuted : exists T m x a id tr hs i o c c1,
  serves (engine T) (engine_tables T) /\ made_for T m /\ integer_keys m /\ keys_differ T /\ contents T m [] /\
  everywhere names_distinct (untyped m) /\ everywhere names_plain (untyped m) /\ ~ In (m_table (untyped m)) (referred m) /\
  all_exact m x /\ all_set x a /\ insert (engine T) (active_of m a) [] = (Ok id, tr) /\
  exchanged tr hs /\ history (fun _ p => Ok p) some_caps use_packets hs i o /\
  Z.testbit some_caps DEPRECATE_EOF_BIT = true /\ c_caps c = some_caps /\ between c i /\
  insert_on (active_of m a) c = (Ok id, c1) /\ s_in (c_stream c1) = [] /\ s_out (c_stream c1) = o /\
  forall vss, answers (engine_tables T tr) (build_query (m_table (untyped m)) (model_columns (untyped m))) vss -> vss = [].
Proof.
  destruct C95_case as (H1 & H2 & H3 & H4 & H5 & H6 & H7 & H8 & _ & _).
  pose (tr := snd (insert (engine world) (active_of entity_types zero_orc) [])).
  assert (S : c96_all 1 tr).
  { assert (E : tr = ltac:(let t := eval vm_compute in tr in exact t)) by (vm_compute; reflexivity).
    rewrite E. clear E.
    repeat (constructor; [unfold c96_simple; splits; [repeat constructor; lia|vm_compute; reflexivity|small_values|vm_compute; reflexivity|
      eexists; split; [reflexivity|lia]|eexists; split; [vm_compute; reflexivity|vm_compute; reflexivity]]|]). constructor. }
  destruct (c96_served 1 tr S) as (S1 & S2); [lia|vm_compute; reflexivity|].
  exists world, entity_types, (orc 0), zero_orc, 1, tr, (c96_uses 1 tr), (c96_input 1 tr), (c96_output 1 tr), (idle (c96_input 1 tr)),
    (snd (insert_on (active_of entity_types zero_orc) (idle (c96_input 1 tr)))).
  do 8 (split; [assumption|]). splits; try assumption.
  - apply orc_exact. lia.
  - apply (all_set_intro [_; _; _; _; _] [_] [_] [_]). constructor; [|constructor]. eexists. split; [reflexivity|].
    apply (all_set_intro [_; _; _; _] [] [] []). constructor.
  - vm_compute. reflexivity.
  - vm_compute. reflexivity.
  - vm_compute. reflexivity.
  - split; [vm_compute; split; congruence|]. split; [reflexivity|]. left. split; reflexivity.
  - vm_compute. reflexivity.
  - vm_compute. reflexivity.
  - vm_compute. reflexivity.
  - intros vss (cols & t & js & tb & es & P & Et & Pm & F). vm_compute in P. injection P as <- <- <-. vm_compute in Et. injection Et as <-.
    vm_compute in Pm. apply Permutation_nil in Pm. subst es. now inversion F.
Qed.
Print Assumptions C96_program_refuted.
