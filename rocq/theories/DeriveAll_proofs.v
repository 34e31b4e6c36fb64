(** Proofs about attributes that say more than the macros use. *)
From Coq Require Import String ZArith List Bool Lia.
From Verif Require Import Base BaseFacts Types FieldTypes DeriveAttr Spec_DeriveAttr DeriveAttr_proofs.
Import ListNotations.

Lemma first_only : forall before a after, Forall (fun x => at_ours x = false) before -> at_ours a = true ->
  parse_attr (before ++ a :: after) = parse_attr [a].
Proof. intros before a after F Ha. rewrite parse_attr_skip by exact F. cbn [parse_attr]. rewrite Ha. reflexivity. Qed.

Lemma index_fields : forall fs e, In (None, e) fs -> struct_fields fs = None.
Proof.
  induction fs as [|(m & x) fs IH]; intros e H; [destruct H|]. cbn [struct_fields]. destruct m as [m|]; [|reflexivity].
  destruct H as [H|H]; [discriminate|]. now rewrite (IH e H).
Qed.

Lemma index_breaks : forall l p fs e, In (Some (s2l "ty"), VStruct p fs) l -> In (None, e) fs -> forall m, attr_entries l m = None.
Proof.
  induction l as [|(k & v) l IH]; intros p fs e Hi He m; [destruct Hi|]. destruct Hi as [E|Hi].
  - injection E as -> ->. cbn [attr_entries]. rewrite list_eqb_refl, (index_fields fs e He). reflexivity.
  - cbn [attr_entries]. destruct k as [k|]; [|now rewrite (IH p fs e Hi He)].
    destruct v as [s|p' fs'|]; [now apply (IH p fs e)|..]; destruct (list_eqb k (s2l "ty")); rewrite (IH p fs e Hi He); try reflexivity.
    destruct (struct_fields fs') as [[? ?]|]; reflexivity.
Qed.

Lemma attr_get_skip : forall m1 k v m2, ~ In k (map fst m1) -> attr_get (m1 ++ (k, v) :: m2) k = Some v.
Proof.
  induction m1 as [|(k' & v') m1 IH]; intros k v m2 N; cbn [app attr_get].
  - now rewrite list_eqb_refl.
  - destruct (list_eqb k' k) eqn:E; [apply list_eqb_eq in E; subst; exfalso; apply N; now left|].
    apply IH. intros H. apply N. now right.
Qed.

Lemma entry_form_named : forall l p fs e, Forall entry_form l -> In (Some (s2l "ty"), VStruct p fs) l -> ~ In (None, e) fs.
Proof.
  intros l p fs e F Hi He. rewrite Forall_forall in F. specialize (F _ Hi). inversion F as [|? ? gs G]; subst.
  apply struct_fields_ok in G. now rewrite (index_fields fs e He) in G.
Qed.

Lemma last_wins : forall a l l1 l2 k t,
  at_ours a = true -> at_entries a = Some l -> Forall entry_form l ->
  l = l1 ++ (Some k, VStr t) :: l2 -> ~ In k (string_keys l2) ->
  exists m ts, parse_attr [a] = Some ([], true, m, ts) /\ attr_get m k = Some t.
Proof.
  intros a l l1 l2 k t Ha El F E N. cbn [parse_attr]. rewrite Ha, El.
  destruct (attr_entries_total l []) as (errs & m & ts & -> & E1 & E2).
  { intros p fs e Hi. now apply (entry_form_named l p). }
  destruct (E2 F) as (-> & _). rewrite (proj2 E1 F). eexists _, ts. split; [reflexivity|].
  rewrite E, flat_map_app. cbn [flat_map]. rewrite !app_nil_r, rev_app_distr. cbn [app rev]. rewrite <- !app_assoc. cbn [app].
  apply attr_get_skip. rewrite map_rev, <- in_rev, <- string_keys_map. exact N.
Qed.
