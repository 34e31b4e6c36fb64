(** Active models that are inserted and models that are updated: C95. *)
From Coq Require Import String ZArith List Bool Lia Permutation.
From Verif Require Import Base BaseFacts Types Framing Spec_Wire Packets Spec_Packets Auth Spec_Stmt Spec_Text Rows Conn Spec_Conn Conn_proofs
  Conversion Spec_Conv Conversion_proofs Models Spec_Model Spec_Mapping Mapping_proofs Model_proofs TypedModel Spec_Typed Typed_proofs
  Spec_Engine Engine_proofs Spec_Engine_run Spec_Active Active_proofs Properties_Model Properties_Mapping Properties_Typed Properties_Engine.
Import ListNotations.
Open Scope Z_scope.

(** ** C95: inserting active models and updating models *)

(** An active model of which some fields are set, inserted without error: afterwards there is one
    model more, with the fields that were set, the key the server has assigned, nothing in the others,
    and the models it was given as references. *)
Theorem C95_insert_partial : forall db st m a h id h' l, serves db st -> made_for (st h) m -> integer_keys m -> keys_differ (st h) ->
  everywhere names_distinct (untyped m) -> everywhere names_plain (untyped m) -> proper (st h) m a ->
  ~ In (m_table (untyped m)) (referred m) -> contents (st h) m l ->
  insert db (active_of m a) h = (Ok id, h') ->
  made_for (st h') m /\ keys_differ (st h') /\ (forall t, t <> m_table (untyped m) -> ~ In t (referred m) -> st h' t = st h t) /\
  exists x, becomes (refers (st h)) m None a id x /\ contents (st h') m (x :: l).
Proof.
  intros db st m a h id h' l Sv Md Ik KD Nd Np Pr Nn Ct E.
  destruct (insert_puts db st m a h id h' Sv Md Ik Pr Nd Np E) as ((r & x & tb & tb' & kv & S1 & S2 & S3 & S4 & S5 & S6 & S7 & S8 & S9) & G & K).
  splits; [eapply made_grows; eauto|auto| |].
  - intros t N1 N2. apply S8. intros [X|X]; [now apply N1|contradiction].
  - exists x. split; [exact S1|]. destruct (S9 Nn) as (before & after & R1 & R2). eapply contents_grow; eauto.
Qed.
Print Assumptions C95_insert_partial.

(** The model with the key has afterwards the fields that were set; its other fields, all other
    models of the table and all tables it has nothing to do with are as before. *)
Theorem C95_update_partial : forall db st m key a h h' l x l0, serves db st -> made_for (st h) m -> integer_keys m -> keys_differ (st h) ->
  everywhere names_distinct (untyped m) -> everywhere names_plain (untyped m) -> proper (st h) m a ->
  ~ In (m_table (untyped m)) (referred m) -> contents (st h) m l -> Permutation l (x :: l0) -> has_key m x key ->
  update_typed db m key a h = (Ok tt, h') ->
  made_for (st h') m /\ keys_differ (st h') /\ (forall t, t <> m_table (untyped m) -> ~ In t (referred m) -> st h' t = st h t) /\
  exists x', becomes (refers (st h)) m (Some x) a 0 x' /\ contents (st h') m (x' :: l0).
Proof.
  intros db st m key a h h' l x l0 Sv Md Ik KD Nd Np Pr Nn Ct P Hk E.
  destruct (update_changes db st m key a h h' l Sv Md Ik KD Nd Np Pr Nn Ct E) as (H1 & H2 & H3 & H4 & _). splits; auto.
Qed.
Print Assumptions C95_update_partial.

(** With a key that no model has, no model changes. *)
Theorem C95_update_missing_partial : forall db st m n a h h' l, serves db st -> made_for (st h) m -> integer_keys m -> keys_differ (st h) ->
  everywhere names_distinct (untyped m) -> everywhere names_plain (untyped m) -> proper (st h) m a ->
  ~ In (m_table (untyped m)) (referred m) -> contents (st h) m l -> (forall x, In x l -> ~ has_key m x (RNum n)) ->
  update_typed db m (RNum n) a h = (Ok tt, h') ->
  made_for (st h') m /\ keys_differ (st h') /\ (forall t, t <> m_table (untyped m) -> ~ In t (referred m) -> st h' t = st h t) /\
  contents (st h') m l.
Proof.
  intros db st m n a h h' l Sv Md Ik KD Nd Np Pr Nn Ct Hk E.
  destruct (update_changes db st m (RNum n) a h h' l Sv Md Ik KD Nd Np Pr Nn Ct E) as (H1 & H2 & H3 & _ & H5). splits; eauto.
Qed.
Print Assumptions C95_update_missing_partial.

(** The generated [primary] gives the key of a model. *)
Theorem C95_primary : forall T m l x, made_for T m -> contents T m l -> In x l -> has_key m x (primary_of m x).
Proof.
  intros T [t p a simples structs refs] l x Md (tb & rows & _ & _ & F) Hin. assert (Hp : In p (map fst simples)) by (inversion Md; assumption).
  apply In_nth_error in Hin as (i & Hi).
  assert (R : exists r, row_is T (TModel t p a simples structs refs) r x).
  { clear - F Hi. revert i Hi. induction F as [|r y rows l H _ IH]; intros [|i] Hi; try discriminate; [injection Hi as <-; eauto|exact (IH i Hi)]. }
  destruct R as (r & R). inversion R as [? ? ? ? ? ? ? xs ss children H1 _ _]; subst. cbn [has_key primary_of].
  clear - H1 Hp. induction H1 as [|[n ty] y simples xs _ _ IH]; [destruct Hp|]. cbn [combine find fst snd].
  destruct (list_eqb n p) eqn:E.
  - apply list_eqb_eq in E. subst n. exists 0%nat, ty. auto.
  - destruct Hp as [X|Hp]; [cbn [fst] in X; subst n; rewrite list_eqb_refl in E; discriminate|].
    destruct (IH Hp) as (j & ty' & J1 & J2). exists (S j), ty'. auto.
Qed.
Print Assumptions C95_primary.

(** A program that inserts and updates, and stops at an error. *)
Inductive op : Type :=
| OInsert (a : tactive)
| OUpdate (key : rust_value) (a : tactive).
Definition run_op (db : database) (m : tmodel) (o : op) (h : list statement) : res error unit * list statement :=
  match o with
  | OInsert a =>
    match insert db (active_of m a) h with
    | (Ok _, h') => (Ok tt, h')
    | (Err e, h') => (Err e, h')
    | (Panic, h') => (Panic, h')
    end
  | OUpdate key a => update_typed db m key a h
  end.
Fixpoint run_ops (db : database) (m : tmodel) (ops : list op) (h : list statement) : res error unit * list statement :=
  match ops with
  | [] => (Ok tt, h)
  | o :: ops =>
    match run_op db m o h with
    | (Ok _, h) => run_ops db m ops h
    | r => r
    end
  end.

(** All that is set is proper for the tables at that time, all keys are numbers. *)
Definition op_proper (T : tables) (m : tmodel) (o : op) : Prop :=
  match o with OInsert a => proper T m a | OUpdate k a => proper T m a /\ exists n, k = RNum n end.
Inductive ops_proper (db : database) (st : list statement -> tables) (m : tmodel) : list op -> list statement -> Prop :=
| no_ops : forall h, ops_proper db st m [] h
| more_ops : forall o ops h, op_proper (st h) m o ->
    (forall h1, run_op db m o h = (Ok tt, h1) -> ops_proper db st m ops h1) -> ops_proper db st m (o :: ops) h.

(** The models before and after an operation. *)
Definition changed (T : tables) (m : tmodel) (o : op) (l l' : list tinstance) : Prop :=
  match o with
  | OInsert a => exists id x, becomes (refers T) m None a id x /\ l' = x :: l
  | OUpdate k a =>
    (exists x l0 x', Permutation l (x :: l0) /\ has_key m x k /\ becomes (refers T) m (Some x) a 0 x' /\ l' = x' :: l0) \/
    ((forall x, In x l -> ~ has_key m x k) /\ l' = l)
  end.
Inductive all_changed (db : database) (st : list statement -> tables) (m : tmodel)
  : list op -> list statement -> list tinstance -> list tinstance -> Prop :=
| changed_none : forall h l, all_changed db st m [] h l l
| changed_more : forall o ops h h1 l l1 l2, changed (st h) m o l l1 -> run_op db m o h = (Ok tt, h1) ->
    all_changed db st m ops h1 l1 l2 -> all_changed db st m (o :: ops) h l l2.

Lemma key_found : forall T m l n, made_for T m -> integer_keys m -> contents T m l ->
  (exists x l0, Permutation l (x :: l0) /\ has_key m x (RNum n)) \/ (forall x, In x l -> ~ has_key m x (RNum n)).
Proof.
  intros T m l n Md Ik (tb & rows & _ & _ & F). destruct (has_key_prim _ _ Md Ik) as (q & Qk).
  induction F as [|r x rows l H _ [(y & l0 & P & K)|IH]]; [right; intros x []| |].
  - left. exists y, (x :: l0). split; [|exact K]. rewrite P. apply perm_swap.
  - destruct (key_cell T m q r x Qk H) as (k & K1 & K2 & _). destruct (Z.eq_dec k n) as [->|N].
    + left. eauto.
    + right. intros y [<-|Hy]; [|auto]. intros X. apply K2 in X. congruence.
Qed.

Lemma ops_change : forall db st m, serves db st -> integer_keys m ->
  everywhere names_distinct (untyped m) -> everywhere names_plain (untyped m) -> ~ In (m_table (untyped m)) (referred m) ->
  forall ops h h' l, made_for (st h) m -> keys_differ (st h) -> contents (st h) m l -> ops_proper db st m ops h ->
  run_ops db m ops h = (Ok tt, h') ->
  made_for (st h') m /\ keys_differ (st h') /\ exists l', all_changed db st m ops h l l' /\ contents (st h') m l'.
Proof.
  intros db st m Sv Ik Nd Np Nn. induction ops as [|o ops IH]; intros h h' l Md KD Ct Pr E; cbn [run_ops] in E.
  - injection E as <-. splits; auto. exists l. split; [constructor|exact Ct].
  - inversion Pr as [|? ? ? P1 P2]; subst. destruct (run_op db m o h) as [[[]|e|] h1] eqn:E1; [|discriminate..].
    assert (Step : made_for (st h1) m /\ keys_differ (st h1) /\ exists l1, changed (st h) m o l l1 /\ contents (st h1) m l1).
    { destruct o as [a|k a]; cbn [run_op op_proper changed] in *.
      - destruct (insert db (active_of m a) h) as [[id|e|] h2] eqn:Ei; [|discriminate..]. injection E1 as ->.
        destruct (C95_insert_partial db st m a h id h1 l Sv Md Ik KD Nd Np P1 Nn Ct Ei) as (A1 & A2 & _ & x & A3 & A4). splits; eauto 6.
      - destruct P1 as (P1 & n & ->). destruct (key_found _ m l n Md Ik Ct) as [(x & l0 & Pl & Hk)|No].
        + destruct (C95_update_partial db st m (RNum n) a h h1 l x l0 Sv Md Ik KD Nd Np P1 Nn Ct Pl Hk E1) as (A1 & A2 & _ & x' & A3 & A4).
          splits; auto. exists (x' :: l0). split; [left; exists x, l0, x'; auto|exact A4].
        + destruct (C95_update_missing_partial db st m n a h h1 l Sv Md Ik KD Nd Np P1 Nn Ct No E1) as (A1 & A2 & _ & A3). splits; auto.
          exists l. split; [right; auto|exact A3]. }
    destruct Step as (A1 & A2 & l1 & A3 & A4). destruct (IH h1 h' l1 A1 A2 A4 (P2 h1 eq_refl) E) as (B1 & B2 & l2 & B3 & B4).
    splits; auto. exists l2. split; [econstructor; eauto|exact B4].
Qed.

(** Inserts and updates one after the other, then the generated query over the wire: read are exactly
    the models that the operations lead to, in some order. *)
Theorem C95_history_partial :
  forall (f32_text f64_text : Z -> list Z -> Prop) (f32 f64 : str -> option Z) debug db st m ops h h' l,
  (forall x l, f32_text x l -> Forall (fun c => 0 <= c < 128) l /\ f32 l = Some x) ->
  (forall x l, f64_text x l -> Forall (fun c => 0 <= c < 128) l /\ f64 l = Some x) ->
  serves db st -> made_for (st h) m -> integer_keys m -> keys_differ (st h) -> contents (st h) m l ->
  everywhere names_distinct (untyped m) -> everywhere names_plain (untyped m) -> everywhere has_column (untyped m) ->
  ~ In (m_table (untyped m)) (referred m) -> ops_proper db st m ops h ->
  run_ops db m ops h = (Ok tt, h') ->
  let sel := selected (m_table (untyped m)) (untyped m) in
  let q := build_query (m_table (untyped m)) (model_columns (untyped m)) in
  exists l', all_changed db st m ops h l l' /\
  forall b c cols vss rows pkts w wi qn qe rest,
  utf8_text q b -> answers (st h') q vss ->
  asks_for m sel cols -> Forall (fun c => col_type c <> CLongBlob) cols ->
  Forall2 (text_row f32_text f64_text (map (fun c => (col_type c, has_flag (col_flags c) UNSIGNED_FLAG)) cols)) vss rows ->
  Z.testbit (c_caps c) DEPRECATE_EOF_BIT = true ->
  requests [3 :: b] w qn -> answer_packets (c_caps c) (ARows cols rows) pkts -> framed qn pkts wi qe ->
  between c (wi ++ rest) ->
  exists c1 c2 rs ys, query b c = (Ok (mkSet cols None), c1) /\
    collect (model_rows (text_rows debug f32 f64) m) (c1, mkSet cols None) = (Ok ys, (c2, rs)) /\
    Permutation l' ys /\ between c2 rest.
Proof.
  intros f32_text f64_text f32 f64 debug db st m ops h h' l H1 H2 Sv Md Ik KD Ct Nd Np Hc Nn Pr E sel q.
  destruct (ops_change db st m Sv Ik Nd Np Nn ops h h' l Md KD Ct Pr E) as (Md' & KD' & l' & S & Ct').
  exists l'. split; [exact S|]. intros b c cols vss rows pkts w wi qn qe rest _ An Ha Hb Hr Hcap Hq Hp Hf Hw.
  destruct (C94_select_partial (st h') m l' vss Md' KD' Nd Np Hc Ct' An) as (ys & P & R & V).
  destruct (C93_query_partial f32_text f64_text f32 f64 debug m sel b c cols vss rows pkts w wi qn qe rest H1 H2 Ha Hb Hr V Hcap Hq Hp Hf Hw)
    as (c1 & r & c2 & rs & Q1 & Q2 & Q3 & _ & _ & Q4).
  exists c1, c2, rs, ys. splits; auto. rewrite (proj2 (Q3 ys) R) in Q2. exact Q2.
Qed.
Print Assumptions C95_history_partial.

(** An entity with a map, both partly set; then its name and its map are set, and the same is done for
    an entity that is not there. *)
Definition goblin : tactive :=
  TActive [None; Some (RString (s2l "goblin")); Some (RNum 0); Some (RNum 3); Some (RDuration (mkDuration 30 500000000))]
    [Some [RNum 1; RNum 2; RNum 3]] [TInsert (TActive [None; Some (RString (s2l "cave")); Some (RNum 2); None] [] [])].
Definition moved : tactive := TActive [None; Some (RString (s2l "orc")); None; None; None] [None] [TSet (RNum 4)].
Definition well : tinstance := TInstance [RNum 4; RString (s2l "well"); RNum 9; RNone] [] [].
Definition program : list op := [OInsert goblin; OUpdate (RNum 1) moved; OUpdate (RNum 9) moved].

Lemma ascii_texts : utf8_text (s2l "orc") (s2l "orc") /\ utf8_text (s2l "cave") (s2l "cave") /\ utf8_text (s2l "goblin") (s2l "goblin") /\
  utf8_text (s2l "well") (s2l "well").
Proof. splits; cbn; repeat (apply (utf8_cons _ _ [_] _); [constructor; lia|]); constructor. Qed.

Ltac exactly := 
  match goal with
  | |- exact (TyPrim _) _ => eapply exact_num; [constructor|cbn; unfold unsigned_ok; lia]
  | |- exact TyString _ => eapply exact_string; [apply ascii_texts|reflexivity]
  | |- exact TyDuration _ => apply exact_duration; vm_compute; intuition congruence
  end.
Ltac set_field := let x := fresh in let H := fresh in intros x H; first [discriminate|injection H as <-].

Lemma goblin_proper : forall T, proper T entity_types goblin.
Proof.
  intros T. unfold goblin, entity_types, map_types.
  repeat match goal with
  | |- proper _ _ _ => constructor
  | |- proper_ref _ _ (TInsert _) => constructor
  | |- Forall2 _ [] [] => constructor
  | |- Forall2 _ (_ :: _) (_ :: _) => constructor; cbn [fst snd]
  end; try exactly.
  all: try (set_field; split; [exactly|intros _; discriminate]).
  all: set_field; repeat (constructor; cbn [fst snd]; try exactly).
Qed.

Lemma moved_proper : forall T, (exists c, refers T map_types (RNum 4) c) -> proper T entity_types moved.
Proof.
  intros T (c & Hc). unfold moved, entity_types.
  repeat match goal with
  | |- proper _ _ _ => constructor
  | |- proper_ref _ _ (TSet _) => econstructor; exact Hc
  | |- Forall2 _ [] [] => constructor
  | |- Forall2 _ (_ :: _) (_ :: _) => constructor; cbn [fst snd]
  end.
  all: set_field; try (split; [exactly|intros _; discriminate]).
Qed.

Lemma well_there : forall T tb, T (s2l "map") = Some tb -> In old_map (t_rows tb) -> refers T map_types (RNum 4) well.
Proof.
  intros T tb E Hin. split; [exists 0%nat, (TyPrim U32); split; reflexivity|]. exists tb, old_map. splits; [exact E|exact Hin|].
  constructor; [|constructor|constructor].
  repeat (constructor; cbn [fst snd]); try constructor.
  - exists (VUInt 4). splits; [reflexivity|cbn; unfold unsigned_ok; lia|]. eapply (rd_prim U32 VUInt). constructor.
  - exists (VBytes (s2l "well")). splits; [reflexivity| |constructor; apply ascii_texts]. split; [cbn; repeat first [apply Forall_cons; [unfold byte_ok; lia|]|apply Forall_nil]|vm_compute; split; congruence].
  - exists (VUTiny 9). splits; [reflexivity|cbn; unfold unsigned_ok; lia|]. eapply (rd_prim U8 VUTiny). constructor.
  - exists VNull. splits; [reflexivity|exact I|constructor].
Qed.

Example C95_case :
  serves (engine world) (engine_tables world) /\ made_for world entity_types /\ integer_keys entity_types /\ keys_differ world /\
  contents world entity_types [] /\ ~ In (m_table (untyped entity_types)) (referred entity_types) /\
  everywhere names_distinct (untyped entity_types) /\ everywhere names_plain (untyped entity_types) /\ everywhere has_column (untyped entity_types) /\
  ops_proper (engine world) (engine_tables world) entity_types program [] /\
  exists h', run_ops (engine world) entity_types program [] = (Ok tt, h') /\ length h' = 4%nat /\
    answers (engine_tables world h') (build_query (m_table (untyped entity_types)) (model_columns (untyped entity_types)))
      [[VUInt 1; VBytes (s2l "orc"); VFloat 0; VUInt 3; VTime false 0 0 0 30 500000; VFloat 1; VFloat 2; VFloat 3;
        VUInt 4; VBytes (s2l "well"); VUTiny 9; VNull]].
Proof.
  destruct C94_case as (H1 & H2 & H3 & H4 & H5 & H6 & H7 & _ & _ & H8 & _). splits; auto.
  - assert (M : integer_keys map_types).
    { constructor; [|constructor]. intros ty H. cbn in H. repeat (destruct H as [H|H]; [try discriminate; injection H as <-|]); [|destruct H].
      exists U32. split; [reflexivity|discriminate]. }
    constructor; [|constructor; [exact M|constructor]]. intros ty H. cbn in H. repeat (destruct H as [H|H]; [try discriminate; injection H as <-|]); [|destruct H].
    exists U32. split; [reflexivity|discriminate].
  - constructor; [apply goblin_proper|]. intros h1 E1. vm_compute in E1. injection E1 as <-.
    constructor.
    { split; [|exists 1; reflexivity]. apply moved_proper. exists well. eapply well_there; [vm_compute; reflexivity|left; reflexivity]. }
    intros h2 E2. vm_compute in E2. injection E2 as <-.
    constructor; [|intros; constructor].
    split; [|exists 9; reflexivity]. apply moved_proper. exists well. eapply well_there; [vm_compute; reflexivity|left; reflexivity].
  - exists (snd (run_ops (engine world) entity_types program [])). splits; [vm_compute; reflexivity..|].
    apply select_answers. vm_compute. reflexivity.
Qed.

(** ** A key set to zero *)

(** The active model that sets everything and inserts all it refers to. *)
Inductive all_set : tinstance -> tactive -> Prop :=
| all_set_intro : forall xs ss cs rs, Forall2 (fun c r => exists a, r = TInsert a /\ all_set c a) cs rs ->
    all_set (TInstance xs ss cs) (TActive (map Some xs) (map Some ss) rs).

Definition zero_orc : tactive :=
  TActive [Some (RNum 0); Some (RString (s2l "orc")); Some (RNum 0); Some (RNum 3); Some (RDuration (mkDuration 30 500000000))]
    [Some [RNum 1; RNum 2; RNum 3]]
    [TInsert (TActive [Some (RNum 0); Some (RString (s2l "cave")); Some (RNum 2); Some (RSome (RDatetime (mkDate 2024 2 29) (mkTime 20 15 0 0)))] [] [])].

(** The server assigns a number in place of a key of zero, but the reference is set to zero: the model
    is inserted without error and refers to nothing. *)
Theorem C95_refuted : exists T m x a id h',
  serves (engine T) (engine_tables T) /\ made_for T m /\ integer_keys m /\ keys_differ T /\ contents T m [] /\
  everywhere names_distinct (untyped m) /\ everywhere names_plain (untyped m) /\ ~ In (m_table (untyped m)) (referred m) /\
  all_exact m x /\ all_set x a /\ insert (engine T) (active_of m a) [] = (Ok id, h') /\
  forall l, ~ contents (engine_tables T h') m l.
Proof.
  destruct C95_case as (H1 & H2 & H3 & H4 & H5 & H6 & H7 & H8 & _ & _).
  exists world, entity_types, (orc 0), zero_orc, 1, (snd (insert (engine world) (active_of entity_types zero_orc) [])).
  splits; auto.
  - apply orc_exact. lia.
  - apply (all_set_intro [_; _; _; _; _] [_] [_] [_]). constructor; [|constructor]. eexists. split; [reflexivity|].
    apply (all_set_intro [_; _; _; _] [] [] []). constructor.
  - intros l (tb & rows & E & P & F). vm_compute in E. injection E as <-. cbn [t_rows] in P.
    apply Permutation_length_1_inv in P. subst rows. inversion F as [|? y ? ? R _]; subst.
    inversion R as [? ? ? ? ? ? ? ? ? ? _ _ Rf]; subst. inversion Rf as [|? c ? ? (k & tb & r & K1 & K2 & K3 & K4 & _) _]; subst.
    vm_compute in K1. injection K1 as <-. vm_compute in K2. injection K2 as <-. cbn [t_rows In] in K3.
    destruct K3 as [<-|[<-|[]]]; vm_compute in K4; discriminate.
Qed.
Print Assumptions C95_refuted.
