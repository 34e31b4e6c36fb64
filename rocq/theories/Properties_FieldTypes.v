(** Kinds of fields: C84. *)
From Coq Require Import String ZArith List Bool Lia.
From Verif Require Import Base BaseFacts Types FieldTypes Spec_FieldTypes FieldTypes_proofs.
Import ListNotations.
Open Scope Z_scope.

(** ** C84: which fields are columns *)

(** A type written in one of the usual ways makes a column exactly if it is one of the supported
    ones. *)
Theorem C84_columns_partial : forall p types, no_lookalike p -> (forall q, applied_to p q -> no_lookalike q) ->
  (forall q r, applied_to p q -> applied_to q r -> no_lookalike r) ->
  from_path p types = Simple <-> column p.
Proof.
  intros p types Hp Hq Hr. rewrite <- simple_spec by assumption. unfold from_path.
  destruct (is_simple p); [tauto|]. destruct (find (fun x => path_eq (fst x) p) types); split; discriminate.
Qed.
Print Assumptions C84_columns_partial.

(** Supported types are always recognised. *)
Theorem C84_supported : forall p full types, In full scalar_types -> written full p -> from_path p types = Simple.
Proof.
  intros p full types Hin W. unfold from_path, is_simple.
  replace (existsb (path_matches p) SIMPLE) with true; [reflexivity|]. symmetry. apply existsb_exists.
  exists full. split; [now apply scalars_same|now apply written_matches].
Qed.
Print Assumptions C84_supported.

(** Any other type makes a group of columns if it is declared with [ty], by the first such
    declaration, and a reference otherwise. *)
Theorem C84_structs : forall p types s, from_path p types = Struct s ->
  exists before after, types = before ++ s :: after /\ idents (fst s) = idents p /\
    Forall (fun x => idents (fst x) <> idents p) before.
Proof.
  intros p types s H. unfold from_path in H. destruct (is_simple p); [discriminate|].
  induction types as [|x types IH]; cbn [find] in H; [discriminate|]. destruct (path_eq (fst x) p) eqn:E.
  - injection H as ->. exists [], types. apply idents_eq_spec in E. auto.
  - destruct (IH H) as (before & after & -> & E1 & E2). exists (x :: before), after. splits; [reflexivity|exact E1|].
    constructor; [|exact E2]. intros E'. apply idents_eq_spec in E'. unfold path_eq in E. congruence.
Qed.
Print Assumptions C84_structs.

Theorem C84_references : forall p types, from_path p types = Complex -> Forall (fun x => idents (fst x) <> idents p) types.
Proof.
  intros p types H. unfold from_path in H. destruct (is_simple p); [discriminate|].
  induction types as [|x types IH]; [constructor|]. cbn [find] in H. destruct (path_eq (fst x) p) eqn:E; [discriminate|].
  constructor; [|auto]. intros E'. apply idents_eq_spec in E'. unfold path_eq in E. congruence.
Qed.
Print Assumptions C84_references.

Definition named (l : list string) : path := Path (map (fun s => (s2l s, AOther)) l).

(** A type of another module that only ends like a supported one is taken for it. *)
Theorem C84_lookalike_refuted : exists p, ~ column p /\ from_path p [] = Simple.
Proof.
  exists (named ["money"; "u64"]%string). split; [|reflexivity]. intros H.
  assert (N : forall full, written full (named ["money"; "u64"]%string) -> In (s2l "money") full).
  { intros full (o & -> & _). apply in_or_app. right. now left. }
  destruct H as [[(full & Hin & W)|(W & _)]|(W & _)]; apply N in W.
  - unfold scalar_types in Hin. cbn [map app In] in Hin.
    repeat (destruct Hin as [<-|Hin]; [cbn [In] in W; intuition discriminate|]). destruct Hin.
  - cbn [vec_type In] in W. intuition discriminate.
  - cbn [option_type In] in W. intuition discriminate.
Qed.
Print Assumptions C84_lookalike_refuted.

(** [Option<Vec<u8>>] and [chrono::NaiveDate] are columns; [Vec<u16>], [Option<Option<u8>>] and [User] are not. *)
Definition of (f : string) (p : path) : path := Path [(s2l f, AAngle [GType p])].
Example C84_case :
  from_path (of "Option"%string (of "Vec"%string (named ["u8"]%string))) [] = Simple /\
  from_path (named ["chrono"; "NaiveDate"]%string) [] = Simple /\
  from_path (of "Vec"%string (named ["u16"]%string)) [] = Complex /\
  from_path (of "Option"%string (of "Option"%string (named ["u8"]%string))) [] = Complex /\
  from_path (named ["User"]%string) [] = Complex /\
  from_path (named ["Vec3"]%string) [(named ["Vec3"]%string, [(s2l "x", s2l "x")])] = Struct (named ["Vec3"]%string, [(s2l "x", s2l "x")]).
Proof. vm_compute. auto 10. Qed.

Example C84_plain_case : no_lookalike (named ["chrono"; "NaiveDate"]%string) /\ column (named ["chrono"; "NaiveDate"]%string).
Proof.
  split.
  - split; [discriminate|]. repeat constructor; intros [|x [|y [|z outer]]] Ho; try congruence; discriminate.
  - left. left. exists [s2l "chrono"; s2l "NaiveDate"]. split; [vm_compute; tauto|]. exists []. split; [reflexivity|discriminate].
Qed.

(** For every path: it makes a column exactly if it is a supported one up to names that end alike; a group
    exactly if it is not and is declared; a reference exactly if neither. *)
Theorem C84_exactly : forall p types,
  (from_path p types = Simple <-> column_like p) /\
  (forall s, from_path p types = Struct s <-> ~ column_like p /\
     exists before after, types = before ++ s :: after /\ idents (fst s) = idents p /\
       Forall (fun x => idents (fst x) <> idents p) before) /\
  (from_path p types = Complex <-> ~ column_like p /\ Forall (fun x => idents (fst x) <> idents p) types).
Proof.
  intros p types. pose proof (simple_like p) as L. split; [rewrite <- L|split; [intros s|]; rewrite <- L].
  - unfold from_path. destruct (is_simple p); [tauto|]. destruct (find (fun x => path_eq (fst x) p) types); split; discriminate.
  - split.
    + intros H. split; [|now apply C84_structs]. intros S. unfold from_path in H. rewrite S in H. discriminate.
    + intros (S & before & after & -> & E & F). unfold from_path. destruct (is_simple p); [now destruct S|].
      induction F as [|x before Hx F IH]; cbn [app find].
      * replace (path_eq (fst s) p) with true; [reflexivity|]. symmetry. now apply idents_eq_spec.
      * replace (path_eq (fst x) p) with false; [exact IH|]. symmetry. destruct (path_eq (fst x) p) eqn:Q; [|reflexivity].
        apply idents_eq_spec in Q. contradiction.
  - split.
    + intros H. split; [|now apply (C84_references p)]. intros S. unfold from_path in H. rewrite S in H. discriminate.
    + intros (S & F). unfold from_path. destruct (is_simple p); [now destruct S|].
      induction F as [|x types Hx F IH]; cbn [find]; [reflexivity|].
      replace (path_eq (fst x) p) with false; [exact IH|]. symmetry. destruct (path_eq (fst x) p) eqn:Q; [|reflexivity].
      apply idents_eq_spec in Q. contradiction.
Qed.
Print Assumptions C84_exactly.

(** [money::u64] is taken for a column, [Money] is a reference. *)
Example C84_exactly_case : column_like (named ["money"; "u64"]%string) /\ ~ column_like (named ["Money"]%string).
Proof.
  split.
  - left. left. exists [s2l "u64"]. split; [unfold scalar_types; cbn [map app In]; tauto|]. exists [s2l "money"]. now right.
  - intros H. apply simple_like in H. vm_compute in H. discriminate.
Qed.
