(** Models that are updated with a whole other model: C95. *)
From Coq Require Import String ZArith List Bool Lia Permutation.
From Verif Require Import Base BaseFacts Types Conversion Spec_Conv Models Spec_Model TypedModel Spec_Typed Spec_Mapping
  Spec_Engine Engine_proofs Spec_Engine_run Spec_Active Active_proofs Spec_Replace Replace_proofs Properties_Model Properties_Mapping Properties_Typed
  Properties_Engine Properties_Active.
Import ListNotations.
Open Scope Z_scope.

(** The model with the key is updated with [into_active_model] of another: it has that one's values, keeps
    a key the server has assigned, and refers to new rows; all other models are as before. *)
Theorem C95_replace_partial : forall db st m key y h h' l x l0, serves db st -> made_for (st h) m -> integer_keys m -> keys_differ (st h) ->
  everywhere names_distinct (untyped m) -> everywhere names_plain (untyped m) -> all_exact m y ->
  ~ In (m_table (untyped m)) (referred m) -> contents (st h) m l -> Permutation l (x :: l0) -> has_key m x key ->
  update_model db (key_value m key) (m_primary (untyped m)) (into_active_model (untyped m) (instance_of m y)) h = (Ok tt, h') ->
  made_for (st h') m /\ keys_differ (st h') /\ (forall t, t <> m_table (untyped m) -> ~ In t (referred m) -> st h' t = st h t) /\
  exists z, replaced m x y z /\ contents (st h') m (z :: l0).
Proof.
  intros db st m key y h h' l x l0 Sv Md Ik KD Nd Np Ex Nn Ct Pm Hk E. rewrite <- whole_active in E.
  destruct (C95_update_partial db st m key (whole m y) h h' l x l0 Sv Md Ik KD Nd Np (whole_proper (st h) m y Ex) Nn Ct Pm Hk E)
    as (R1 & R2 & R3 & z & B & C).
  splits; auto. exists z. split; [|exact C]. pose proof (whole_becomes _ m y (Some x) 0 z Ex B) as W.
  destruct x as [xs xss xc]. apply W. destruct Ct as (tb & rows & _ & _ & F).
  assert (Hin : In (TInstance xs xss xc) l) by (apply Permutation_in with (1 := Permutation_sym Pm); now left).
  clear - F Hin. induction F as [|r x rows l H _ IH]; [destruct Hin|]. destruct Hin as [->|Hin]; [|auto].
  inversion H as [? ? ? simples ? ? ? ? ? ? S _ _]; subst. clear - S. induction S; cbn; congruence.
Qed.
Print Assumptions C95_replace_partial.

(** The goblin of C95, then with the values of an orc on a map: the key stays 1, the orc's map
    is inserted. *)
Example C95_replace_case : exists h1 x h2,
  insert (engine world) (active_of entity_types goblin) [] = (Ok 1, h1) /\
  contents (engine_tables world h1) entity_types [x] /\ has_key entity_types x (RNum 1) /\ all_exact entity_types (orc 1) /\
  update_model (engine world) (key_value entity_types (RNum 1)) (m_primary (untyped entity_types))
    (into_active_model (untyped entity_types) (instance_of entity_types (orc 1))) h1 = (Ok tt, h2) /\ length h2 = 4%nat /\
  answers (engine_tables world h2) (build_query (m_table (untyped entity_types)) (model_columns (untyped entity_types))) [orc_row 1 1 6].
Proof.
  destruct C95_case as (H1 & H2 & H3 & H4 & H5 & H6 & H7 & H8 & _ & _).
  pose (h1 := snd (insert (engine world) (active_of entity_types goblin) [])).
  assert (E : insert (engine world) (active_of entity_types goblin) [] = (Ok 1, h1)) by (vm_compute; reflexivity).
  destruct (C95_insert_partial _ _ entity_types goblin [] 1 h1 [] H1 H2 H3 H4 H7 H8 (goblin_proper _) H6 H5 E) as (_ & _ & _ & x & B & C).
  exists h1, x, (snd (update_model (engine world) (key_value entity_types (RNum 1)) (m_primary (untyped entity_types))
    (into_active_model (untyped entity_types) (instance_of entity_types (orc 1))) h1)).
  split; [exact E|]. split; [exact C|]. split.
  { inversion B as [? ? ? ? ? ? ? ? ? ? ? xs ? ? _ L F _ _ _ _]; subst. destruct xs as [|v xs]; [discriminate|].
    exists 0%nat, (TyPrim U32). split; [reflexivity|]. cbn [nth_error]. f_equal. exact (F 0%nat _ _ _ v eq_refl eq_refl eq_refl). }
  split; [apply orc_exact; lia|]. split; [vm_compute; reflexivity|]. split; [vm_compute; reflexivity|]. apply select_answers. vm_compute. reflexivity.
Qed.
