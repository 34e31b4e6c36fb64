(** Property C87: where the attributes do not mean what is written, for all attributes. *)
From Coq Require Import String ZArith List Bool Lia.
From Verif Require Import Base BaseFacts Types FieldTypes DeriveAttr Spec_DeriveAttr DeriveAttr_proofs DeriveAll_proofs.
Import ListNotations.

(** Nothing behind the first attribute of its own has any effect, whatever it says and whether or not
    it is well-formed. *)
Theorem C87_second_ignored_refuted : forall is_ident before a after ferrs fields,
  Forall (fun x => at_ours x = false) before -> at_ours a = true ->
  derive_model_data (before ++ a :: after) = derive_model_data [a] /\
  derive_active_primary is_ident (before ++ a :: after) ferrs = derive_active_primary is_ident [a] ferrs /\
  derive_model is_ident (before ++ a :: after) ferrs fields = derive_model is_ident [a] ferrs fields.
Proof.
  intros is_ident before a after ferrs fields F Ha. unfold derive_model_data, derive_active_primary, derive_model.
  rewrite (first_only before a after F Ha). repeat split.
Qed.
Print Assumptions C87_second_ignored_refuted.

(** Of several entries with the same name the last one is used, and nothing is reported. *)
Theorem C87_last_wins_refuted : forall a l l1 l2 t,
  at_ours a = true -> at_entries a = Some l -> Forall entry_form l ->
  l = l1 ++ (Some (s2l "table"), VStr t) :: l2 -> ~ In (s2l "table") (string_keys l2) ->
  derive_model_data [a] = Generated t.
Proof.
  intros a l l1 l2 t Ha El F E N. destruct (last_wins a l l1 l2 (s2l "table") t Ha El F E N) as (m & ts & P & G).
  unfold derive_model_data. rewrite P, G. reflexivity.
Qed.
Print Assumptions C87_last_wins_refuted.

(** A tuple index anywhere in a type of the first own attribute: all three macros panic, whatever else
    is written. *)
Theorem C87_index_refuted : forall is_ident before a after l p fs e ferrs fields,
  Forall (fun x => at_ours x = false) before -> at_ours a = true -> at_entries a = Some l ->
  In (Some (s2l "ty"), VStruct p fs) l -> In (None, e) fs ->
  derive_model_data (before ++ a :: after) = Panicked /\
  derive_active_primary is_ident (before ++ a :: after) ferrs = Panicked /\
  derive_model is_ident (before ++ a :: after) ferrs fields = Panicked.
Proof.
  intros is_ident before a after l p fs e ferrs fields F Ha El Hi He.
  assert (P : parse_attr (before ++ a :: after) = None).
  { rewrite parse_attr_skip by exact F. cbn [parse_attr]. rewrite Ha, El. now rewrite (index_breaks l p fs e) by assumption. }
  unfold derive_model_data, derive_active_primary, derive_model. rewrite P. repeat split.
Qed.
Print Assumptions C87_index_refuted.

(** A primary key that is no identifier makes the macro panic, whatever else is well-formed. *)
Theorem C87_no_identifier_refuted : forall is_ident attrs ferrs p ai, plain attrs -> well_formed attrs ->
  says attrs (s2l "primary") p -> says attrs (s2l "auto_increment") ai -> is_ident p = false ->
  derive_active_primary is_ident attrs ferrs = Panicked.
Proof.
  intros is_ident attrs ferrs p ai Hp Hw S1 S2 Hi. destruct (parse_plain attrs Hp) as (errs & m & ts & P & _ & G).
  destruct (G Hw) as (G1 & _). apply G1 in S1. apply G1 in S2. unfold derive_active_primary. now rewrite P, S1, S2, Hi.
Qed.
Print Assumptions C87_no_identifier_refuted.

(** Two own attributes, of which the second names another table; two tables in one attribute; a type with
    an index behind other entries; a key with a space. *)
Example C87_all_case :
  let table t := (Some (s2l "table"), VStr (s2l t)) in
  let key k := (Some (s2l "primary"), VStr (s2l k)) in
  let auto := (Some (s2l "auto_increment"), VStr (s2l "true")) in
  let index := (Some (s2l "ty"), VStruct (Path [(s2l "T", AOther)]) [(Some (s2l "a"), None); (None, Some (FPath [s2l "b"]))]) in
  derive_model_data [mkAttribute false None; mkAttribute true (Some [table "a"%string]); mkAttribute true (Some [table "b"%string])]
    = Generated (s2l "a") /\
  derive_model_data [mkAttribute true (Some [table "a"%string; auto; table "b"%string])] = Generated (s2l "b") /\
  derive_model_data [mkAttribute true (Some [table "a"%string; index])] = Panicked /\
  derive_active_primary (fun p => negb (existsb (Z.eqb 32) p)) [mkAttribute true (Some [key "the id"%string; auto])] [] = Panicked.
Proof. vm_compute. repeat split. Qed.
