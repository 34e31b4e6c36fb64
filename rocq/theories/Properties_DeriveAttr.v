(** C87: what the attribute of a derived struct says is what is generated. *)
From Coq Require Import String ZArith List Bool Lia.
From Verif Require Import Base BaseFacts Types FieldTypes DeriveAttr Spec_DeriveAttr DeriveAttr_proofs.
Import ListNotations.

(** C87: with one attribute that says nothing twice and has no tuple index, an ill-formed entry is
    reported, and otherwise exactly the written types are used. *)
Theorem C87_attribute_read_partial : forall attrs, plain attrs ->
  exists errs m ts, parse_attr attrs = Some (errs, true, m, ts) /\
    (errs = [] <-> well_formed attrs) /\
    (well_formed attrs -> (forall k v, attr_get m k = Some v <-> says attrs k v) /\ says_types attrs ts).
Proof. exact parse_plain. Qed.
Print Assumptions C87_attribute_read_partial.

(** C87: without an attribute of its own, nothing is generated for a struct; this is reported, and
    besides it only what is wrong with the fields. *)
Theorem C87_no_attribute : forall is_ident attrs ferrs fields, Forall (fun a => at_ours a = false) attrs ->
  derive_model_data attrs = Reported [NoAttribute] /\
  derive_active_primary is_ident attrs ferrs = Reported (NoAttribute :: ferrs) /\
  derive_model is_ident attrs ferrs fields = Reported (NoAttribute :: ferrs).
Proof.
  intros is_ident attrs ferrs fields H.
  assert (E : parse_attr attrs = Some ([NoAttribute], false, [], [])).
  { induction H as [|a attrs Ha _ IH]; [reflexivity|]. cbn [parse_attr]. rewrite Ha. exact IH. }
  unfold derive_model_data, derive_active_primary, derive_model. rewrite E. cbn [app attr_get].
  splits; try reflexivity. now rewrite ?app_nil_r.
Qed.
Print Assumptions C87_no_attribute.

(** C87: the table is the one written. *)
Theorem C87_table_partial : forall attrs, plain attrs ->
  derive_model_data attrs <> Panicked /\
  forall t, derive_model_data attrs = Generated t <-> well_formed attrs /\ says attrs (s2l "table") t.
Proof.
  intros attrs P. destruct (parse_plain attrs P) as (errs & m & ts & E & E1 & E2). unfold derive_model_data. rewrite E. cbn match.
  destruct errs as [|x errs].
  - destruct E2 as (G & _); [now apply E1|]. destruct (attr_get m (s2l "table")) as [t|] eqn:Et; cbn [app]; (split; [discriminate|]); intros t'.
    + rewrite <- G, Et. split; [intros [= <-]; split; [now apply E1|reflexivity]|]. intros (_ & [= <-]). reflexivity.
    + rewrite <- G, Et. split; [discriminate|]. intros (_ & H). discriminate.
  - cbn [app]. split; [discriminate|]. intros t. split; [discriminate|]. intros (W & _). apply E1 in W. discriminate.
Qed.
Print Assumptions C87_table_partial.

(** C87: a model's primary key is the one written, a field of the struct, and is generated by the
    server exactly if the attribute says so. *)
Theorem C87_model_primary_partial : forall is_ident attrs ferrs fields, plain attrs ->
  (forall f, In f fields -> is_ident f = true) ->
  derive_model is_ident attrs ferrs fields <> Panicked /\
  forall p b, derive_model is_ident attrs ferrs fields = Generated (p, b) <->
    well_formed attrs /\ ferrs = [] /\ says attrs (s2l "primary") p /\ In p fields /\ says_auto attrs b.
Proof.
  intros is_ident attrs ferrs fields P I. destruct (parse_plain attrs P) as (errs & m & ts & E & E1 & E2).
  unfold derive_model. rewrite E. cbn match.
  destruct errs as [|x errs].
  2:{ cbn [app]. split; [discriminate|]. intros p b. split; [discriminate|]. intros (W & _). apply E1 in W. discriminate. }
  assert (W : well_formed attrs) by now apply E1. destruct (E2 W) as (G & _). cbn [app].
  destruct ferrs as [|x ferrs].
  2:{ cbn [app]. split; [discriminate|]. intros p b. split; [discriminate|]. intros (_ & H & _). discriminate. }
  cbn [app]. destruct (attr_get m (s2l "primary")) as [q|] eqn:Ep.
  2:{ cbn [app]. split; [discriminate|]. intros p b. split; [discriminate|]. intros (_ & _ & H & _). apply G in H. congruence. }
  assert (Hin : existsb (fun f => list_eqb f q) fields = true <-> In q fields).
  { rewrite existsb_exists. split.
    - intros (f & Hf & H). apply list_eqb_eq in H. now subst f.
    - intros H. exists q. split; [exact H|apply list_eqb_refl]. }
  destruct (existsb (fun f => list_eqb f q) fields).
  2:{ cbn [app]. split; [discriminate|]. intros p b. split; [discriminate|]. intros (_ & _ & H & Hi & _).
      apply G in H. rewrite Ep in H. injection H as <-. apply Hin in Hi. discriminate. }
  destruct (attr_get m (s2l "auto_increment")) as [ai|] eqn:Ea; cbn [app].
  2:{ split; [discriminate|]. intros p b. split; [discriminate|]. intros (_ & _ & _ & _ & ai & H & _). apply G in H. congruence. }
  rewrite I by now apply Hin. split; [discriminate|]. intros p b. split.
  - intros [= <- <-]. split; [exact W|]. split; [reflexivity|]. split; [now apply G|]. split; [now apply Hin|].
    exists ai. split; [now apply G|]. apply list_eqb_eq.
  - intros (_ & _ & H & _ & ai' & H' & Hb). apply G in H, H'. rewrite Ep in H. rewrite Ea in H'. injection H as <-. injection H' as <-.
    do 2 f_equal. rewrite <- list_eqb_eq in Hb. destruct (list_eqb ai (s2l "true")), b; intuition congruence.
Qed.
Print Assumptions C87_model_primary_partial.

(** C87: the same for the struct of values to insert, whose primary key may be missing. *)
Theorem C87_active_primary_partial : forall is_ident attrs ferrs, plain attrs ->
  (forall p, says attrs (s2l "primary") p -> is_ident p = true) ->
  (well_formed attrs -> derive_active_primary is_ident attrs ferrs <> Panicked) /\
  (derive_active_primary is_ident attrs ferrs = Generated None <->
    well_formed attrs /\ ferrs = [] /\ forall p, ~ says attrs (s2l "primary") p) /\
  forall p b, derive_active_primary is_ident attrs ferrs = Generated (Some (p, b)) <->
    well_formed attrs /\ ferrs = [] /\ says attrs (s2l "primary") p /\ says_auto attrs b.
Proof.
  intros is_ident attrs ferrs P I. destruct (parse_plain attrs P) as (errs & m & ts & E & E1 & E2).
  unfold derive_active_primary. rewrite E. cbn match. destruct errs as [|e errs].
  2:{ assert (N : ~ well_formed attrs) by (intros W; apply E1 in W; discriminate). split; [contradiction|]. cbn [app].
      split; [|intros p b]; (split; [|intros (W & _); contradiction]);
        (destruct (attr_get m (s2l "primary")); [destruct (attr_get m (s2l "auto_increment")); [destruct (is_ident _)|]|]); discriminate. }
  assert (W : well_formed attrs) by now apply E1. destruct (E2 W) as (G & _).
  destruct (attr_get m (s2l "primary")) as [q|] eqn:Ep.
  - destruct (attr_get m (s2l "auto_increment")) as [ai|] eqn:Ea.
    + rewrite I by now apply G. cbn [app]. destruct ferrs as [|x ferrs].
      * split; [discriminate|]. split.
        { split; [discriminate|]. intros (_ & _ & H). exfalso. apply (H q). now apply G. }
        intros p b. split.
        -- intros [= <- <-]. split; [exact W|]. split; [reflexivity|]. split; [now apply G|]. exists ai. split; [now apply G|]. apply list_eqb_eq.
        -- intros (_ & _ & H & ai' & H' & Hb). apply G in H, H'. rewrite Ep in H. rewrite Ea in H'. injection H as <-. injection H' as <-.
           do 3 f_equal. rewrite <- list_eqb_eq in Hb. destruct (list_eqb ai (s2l "true")), b; intuition congruence.
      * split; [discriminate|]. split; [|intros p b]; (split; [discriminate|]); intros (_ & H & _); discriminate.
    + split; [discriminate|]. split.
      { split; [discriminate|]. intros (_ & _ & H). exfalso. apply (H q). now apply G. }
      intros p b. split; [discriminate|]. intros (_ & _ & _ & ai & H & _). apply G in H. congruence.
  - cbn [app]. destruct ferrs as [|x ferrs].
    + split; [discriminate|]. split.
      { split; [|reflexivity]. intros _. split; [exact W|]. split; [reflexivity|]. intros p H. apply G in H. congruence. }
      intros p b. split; [discriminate|]. intros (_ & _ & H & _). apply G in H. congruence.
    + split; [discriminate|]. split; [|intros p b]; (split; [discriminate|]); intros (_ & H & _); discriminate.
Qed.
Print Assumptions C87_active_primary_partial.

(** C87: exactly what is wrong is reported: with the attribute, with the fields ([ferrs]), and what
    is needed but not written. *)
Theorem C87_reported_partial : forall is_ident attrs ferrs fields, plain attrs ->
  (forall e, derive_model_data attrs = Reported e -> forall x,
    In x e <-> wrong attrs x \/ (x = NeedTable /\ silent attrs (s2l "table"))) /\
  (forall e, derive_active_primary is_ident attrs ferrs = Reported e -> forall x,
    In x e <-> wrong attrs x \/ In x ferrs \/
      (x = NeedAutoIncrement /\ ~ silent attrs (s2l "primary") /\ silent attrs (s2l "auto_increment"))) /\
  (forall e, derive_model is_ident attrs ferrs fields = Reported e -> forall x,
    In x e <-> wrong attrs x \/ In x ferrs \/
      (x = NeedPrimary /\ silent attrs (s2l "primary")) \/
      (x = PrimaryNotFound /\ exists p, says attrs (s2l "primary") p /\ ~ In p fields) \/
      (x = NeedAutoIncrement /\ silent attrs (s2l "auto_increment"))).
Proof.
  intros is_ident attrs ferrs fields P. destruct (parse_plain_full attrs P) as (errs & m & ts & E & G & R).
  assert (S : forall k, silent attrs k <-> attr_get m k = None).
  { intros k. unfold silent. split.
    - intros H. destruct (attr_get m k) as [v|] eqn:Ev; [|reflexivity]. exfalso. apply (H v). now apply G.
    - intros H v K. apply G in K. congruence. }
  assert (K : forall A (f : derived A) l e, match l with [] => f | y :: r => Reported (y :: r) end = Reported e ->
    (forall e', f <> Reported e') -> e = l).
  { intros A f [|y r] e H N; [now apply N in H|congruence]. }
  unfold derive_model_data, derive_active_primary, derive_model. rewrite E. cbn match. splits; intros e H x.
  - apply K in H; [|destruct (attr_get m (s2l "table")); discriminate]. subst e. rewrite in_app_iff, R, S.
    destruct (attr_get m (s2l "table")); cbn [In]; intuition (congruence || discriminate).
  - rewrite !S. destruct (attr_get m (s2l "primary")) as [p|].
    + destruct (attr_get m (s2l "auto_increment")) as [ai|].
      * destruct (is_ident p); [|discriminate]. apply K in H; [|discriminate]. subst e. rewrite in_app_iff, R. intuition discriminate.
      * injection H as <-. rewrite !in_app_iff, R. cbn [In]. intuition (congruence || discriminate).
    + apply K in H; [|discriminate]. subst e. rewrite in_app_iff, R. intuition discriminate.
  - assert (Hp : (exists p, says attrs (s2l "primary") p /\ ~ In p fields) <->
       match attr_get m (s2l "primary") with Some p => existsb (fun f => list_eqb f p) fields = false | None => False end).
    { destruct (attr_get m (s2l "primary")) as [p|] eqn:Ep.
      - split.
        + intros (q & Hq & Hn). apply G in Hq. assert (q = p) as -> by congruence.
          apply not_true_is_false. intros Hx. apply existsb_exists in Hx as (f & Hf & Hx). apply list_eqb_eq in Hx. now subst f.
        + intros Hx. exists p. split; [now apply G|]. intros Hi. apply not_true_iff_false in Hx. apply Hx. apply existsb_exists.
          exists p. split; [exact Hi|apply list_eqb_refl].
      - split; [|intros []]. intros (q & Hq & _). apply G in Hq. congruence. }
    rewrite Hp, !S. cbn zeta in H. apply K in H; [|destruct (attr_get m (s2l "primary")) as [s|]; [destruct (is_ident s)|]; discriminate].
    subst e. rewrite !in_app_iff, R.
    destruct (attr_get m (s2l "primary")) as [p|]; [destruct (existsb (fun f => list_eqb f p) fields)|]; (destruct (attr_get m (s2l "auto_increment"))); cbn [In];
      intuition (congruence || discriminate).
Qed.
Print Assumptions C87_reported_partial.

(** Everything wrong at once: [#[mysql_connector(a::b = "x", table = 1, ty = T { x: y::z })]] *)
Example C87_reported_case :
  let attrs := [mkAttribute true (Some [(None, VStr (s2l "x")); (Some (s2l "table"), VElse);
                 (Some (s2l "ty"), VStruct (Path [(s2l "T", AOther)]) [(Some (s2l "x"), Some (FPath [s2l "y"; s2l "z"]))])])] in
  plain attrs /\ derive_model_data attrs = Reported [ExpectedIdent; ExpectedString; ExpectedSingleIdent; NeedTable].
Proof.
  cbv zeta. split; [|reflexivity]. eexists [], _, []. split; [reflexivity|]. split; [reflexivity|]. split; [constructor|].
  cbn. split; [constructor|]. intros p fs e [H|[H|[H|[]]]]; try discriminate. injection H as <- <-. cbn. intuition discriminate.
Qed.

(** [ty = Point { x, y: b }] *)
Definition point_entry : entry :=
  (Some (s2l "ty"), VStruct (Path [(s2l "Point", AOther)]) [(Some (s2l "x"), None); (Some (s2l "y"), Some (FPath [s2l "b"]))]).

(** [#[mysql_connector(table = "users", primary = "id", auto_increment = "true", ty = Point { x, y: b })]]
    below another attribute *)
Definition user_attrs : list attribute :=
  [mkAttribute false None;
   mkAttribute true (Some [(Some (s2l "table"), VStr (s2l "users")); (Some (s2l "primary"), VStr (s2l "id"));
                           (Some (s2l "auto_increment"), VStr (s2l "true")); point_entry])].

Example C87_case :
  plain user_attrs /\ well_formed user_attrs /\
  derive_model_data user_attrs = Generated (s2l "users") /\
  derive_model (fun _ => true) user_attrs [] [s2l "name"; s2l "id"] = Generated (s2l "id", true) /\
  derive_active_primary (fun _ => true) user_attrs [] = Generated (Some (s2l "id", true)) /\
  says_types user_attrs [(Path [(s2l "Point", AOther)], [(s2l "x", s2l "x"); (s2l "y", s2l "b")])].
Proof.
  split.
  { exists [mkAttribute false None], (nth 1 user_attrs (mkAttribute false None)), []. split; [reflexivity|]. split; [reflexivity|].
    split; [repeat constructor|]. cbn. split.
    - repeat constructor; cbn; intuition discriminate.
    - intros p fs e H. repeat (destruct H as [H|H]; [try discriminate; injection H as <- <-; cbn; intuition discriminate|]). contradiction. }
  split.
  { intros a [<-|[<-|[]]] Ha; [discriminate|]. eexists. split; [reflexivity|]. repeat constructor.
    apply ef_ty with [(s2l "x", s2l "x"); (s2l "y", s2l "b")]. repeat constructor. }
  split; [reflexivity|]. split; [reflexivity|]. split; [reflexivity|].
  unfold says_types. cbn. constructor; [|constructor]. constructor. repeat constructor.
Qed.

(** A second attribute is dropped without a word: the model gets no primary key though one is written. *)
Definition two_attrs : list attribute :=
  [mkAttribute true (Some [(Some (s2l "table"), VStr (s2l "users"))]);
   mkAttribute true (Some [(Some (s2l "primary"), VStr (s2l "id")); (Some (s2l "auto_increment"), VStr (s2l "true"))])].

(** C87 is false in general: with two attributes the second is ignored silently; an entry given
    twice counts once; [ty = T { 0: a }] and a primary key that is no identifier make the macro panic. *)
Theorem C87_attributes_refuted :
  (exists attrs, well_formed attrs /\ says attrs (s2l "primary") (s2l "id") /\
     forall is_ident, derive_active_primary is_ident attrs [] = Generated None) /\
  (exists attrs t u, t <> u /\ well_formed attrs /\ says attrs (s2l "table") t /\ says attrs (s2l "table") u /\
     derive_model_data attrs = Generated u) /\
  (exists attrs, length attrs = 1%nat /\ derive_model_data attrs = Panicked) /\
  (forall is_ident p, is_ident p = false -> exists attrs, plain attrs /\ well_formed attrs /\
     derive_active_primary is_ident attrs [] = Panicked).
Proof.
  split; [|split; [|split]].
  - exists two_attrs. split; [|split; [|reflexivity]].
    + intros a [<-|[<-|[]]] _; eexists; (split; [reflexivity|]); repeat constructor.
    + exists (nth 1 two_attrs (mkAttribute false None)). eexists. split; [now right; left|]. split; [reflexivity|]. split; [reflexivity|]. now left.
  - exists [mkAttribute true (Some [(Some (s2l "table"), VStr (s2l "a")); (Some (s2l "table"), VStr (s2l "b"))])], (s2l "a"), (s2l "b").
    split; [discriminate|]. split; [|split; [|split; [|reflexivity]]].
    + intros a [<-|[]] _; eexists; (split; [reflexivity|]); repeat constructor.
    + eexists. eexists. split; [now left|]. split; [reflexivity|]. split; [reflexivity|]. now left.
    + eexists. eexists. split; [now left|]. split; [reflexivity|]. split; [reflexivity|]. now right; left.
  - exists [mkAttribute true (Some [(Some (s2l "table"), VStr (s2l "a"));
      (Some (s2l "ty"), VStruct (Path [(s2l "T", AOther)]) [(None, Some (FPath [s2l "a"]))])])].
    split; reflexivity.
  - intros is_ident p H. exists [mkAttribute true (Some [(Some (s2l "primary"), VStr p); (Some (s2l "auto_increment"), VStr (s2l "true"))])].
    split; [|split].
    + exists [], (mkAttribute true (Some [(Some (s2l "primary"), VStr p); (Some (s2l "auto_increment"), VStr (s2l "true"))])), [].
      split; [reflexivity|]. split; [reflexivity|]. split; [constructor|]. split; [repeat constructor; cbn; intuition discriminate|].
      intros q fs e [K|[K|[]]]; discriminate.
    + intros a [<-|[]] _; eexists; (split; [reflexivity|]); repeat constructor.
    + unfold derive_active_primary. cbn [parse_attr at_ours at_entries attr_entries].
      change (attr_get [(s2l "auto_increment", s2l "true"); (s2l "primary", p)] (s2l "primary")) with (Some p).
      change (attr_get [(s2l "auto_increment", s2l "true"); (s2l "primary", p)] (s2l "auto_increment")) with (Some (s2l "true")).
      cbn match. now rewrite H.
Qed.
Print Assumptions C87_attributes_refuted.
