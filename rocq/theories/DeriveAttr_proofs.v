(** Proofs about the attribute of the derive macros. *)
From Coq Require Import String ZArith List Bool Lia.
From Verif Require Import Base BaseFacts Types FieldTypes DeriveAttr Spec_DeriveAttr.
Import ListNotations.

Lemma struct_fields_total : forall fs, (forall e, ~ In (None, e) fs) -> exists r, struct_fields fs = Some r.
Proof.
  induction fs as [|(m & e) fs IH]; intros H; [now eexists|].
  destruct IH as ((errs & gs) & E). { intros e' Hi. apply (H e'). now right. }
  destruct m as [m|]; [|exfalso; apply (H e); now left].
  cbn [struct_fields]. rewrite E. destruct e as [[[|x [|? ?]]|]|]; now eexists.
Qed.

Lemma struct_fields_ok : forall fs gs, struct_fields fs = Some ([], gs) <-> Forall2 declares_field fs gs.
Proof.
  induction fs as [|(m & e) fs IH]; intros gs; cbn [struct_fields].
  - split; intros H. { injection H as <-. constructor. } inversion H. reflexivity.
  - split; intros H.
    + destruct m as [m|]; [|discriminate]. destruct (struct_fields fs) as [(errs & gs')|]; [|discriminate].
      destruct e as [[[|x [|? ?]]|]|]; try discriminate; injection H as -> <-; (constructor; [constructor|]); now apply IH.
    + inversion H as [|a b l1 l2 H1 H2]; subst. apply IH in H2. inversion H1; subst; rewrite H2; reflexivity.
Qed.

Lemma attr_entries_total : forall l m,
  (forall p fs e, In (Some (s2l "ty"), VStruct p fs) l -> ~ In (None, e) fs) ->
  exists errs m' ts, attr_entries l m = Some (errs, m', ts) /\
    (errs = [] <-> Forall entry_form l) /\
    (Forall entry_form l -> m' = rev (flat_map (fun e => match e with (Some k, VStr s) => [(k, s)] | _ => [] end) l) ++ m /\
                            Forall2 declares_type (type_entries l) ts).
Proof.
  induction l as [|(k & v) l IH]; intros m H; cbn [attr_entries].
  - exists [], m, []. split; [reflexivity|]. split; [split; intros; constructor|]. intros _. split; [reflexivity|constructor].
  - assert (H' : forall p fs e, In (Some (s2l "ty"), VStruct p fs) l -> ~ In (None, e) fs).
    { intros p fs e Hi. apply (H p). now right. }
    assert (bad : forall e, (forall m, exists errs m' ts, attr_entries l m = Some (errs, m', ts)) -> ~ entry_form (k, v) ->
       exists errs m' ts,
         match attr_entries l m with Some (errs, m', ts) => Some (e :: errs, m', ts) | None => None end = Some (errs, m', ts) /\
         (errs = [] <-> Forall entry_form ((k, v) :: l)) /\
         (Forall entry_form ((k, v) :: l) -> m' = rev (flat_map (fun e => match e with (Some k, VStr s) => [(k, s)] | _ => [] end) ((k, v) :: l)) ++ m /\
                            Forall2 declares_type (type_entries ((k, v) :: l)) ts)).
    { intros e T N. destruct (T m) as (errs & m' & ts & ->). exists (e :: errs), m', ts. split; [reflexivity|].
      split; [split; [discriminate|]|]; intros F; inversion F; contradiction. }
    assert (T : forall m, exists errs m' ts, attr_entries l m = Some (errs, m', ts)).
    { intros m0. destruct (IH m0 H') as (a & b & c & E & _). now exists a, b, c. }
    destruct k as [k|].
    2:{ apply bad; [exact T|]. intros F. inversion F. }
    destruct v as [s|p fs|].
    + destruct (IH ((k, s) :: m) H') as (errs & m' & ts & E & E1 & E2). exists errs, m', ts. split; [exact E|]. split.
      * rewrite E1. split; intros F; [constructor; [constructor|exact F]|now inversion F].
      * intros F. inversion F as [|x y _ F']; subst. destruct (E2 F') as (-> & E3). split; [|exact E3].
        cbn [flat_map]. cbn [app rev]. now rewrite <- app_assoc.
    + destruct (list_eqb k (s2l "ty")) eqn:Ek.
      * apply list_eqb_eq in Ek. subst k.
        destruct (struct_fields_total fs) as ((errs1 & gs) & Es). { intros e. apply (H p). now left. }
        rewrite Es. destruct (IH m H') as (errs & m' & ts & E & E1 & E2). rewrite E.
        exists (errs1 ++ errs), m', ((p, gs) :: ts). split; [reflexivity|].
        assert (Hf : entry_form (Some (s2l "ty"), VStruct p fs) -> errs1 = [] /\ Forall2 declares_field fs gs).
        { intros F. inversion F as [|p' fs' gs' F2]; subst. apply struct_fields_ok in F2 as F3. rewrite Es in F3.
          injection F3 as -> ->. now split. }
        split.
        -- split.
           ++ intros A. apply app_eq_nil in A as (-> & ->). constructor; [|now apply E1].
              apply ef_ty with gs. now apply struct_fields_ok.
           ++ intros F. inversion F as [|x y F1 F2]; subst. destruct (Hf F1) as (-> & _). now apply E1.
        -- intros F. inversion F as [|x y F1 F2]; subst. destruct (E2 F2) as (-> & E3). split; [reflexivity|].
           unfold type_entries. cbn [filter snd]. constructor; [|exact E3]. constructor. now apply Hf.
      * apply bad; [exact T|]. intros F. inversion F; subst. now rewrite list_eqb_refl in Ek.
    + destruct (list_eqb k (s2l "ty")); (apply bad; [exact T|]; intros F; inversion F).
Qed.

Lemma attr_get_in : forall m k v, NoDup (map fst m) -> attr_get m k = Some v <-> In (k, v) m.
Proof.
  induction m as [|(k' & v') m IH]; intros k v N; cbn [attr_get]; [split; [discriminate|intros []]|].
  inversion N as [|x y N1 N2]; subst. destruct (list_eqb k' k) eqn:E.
  - apply list_eqb_eq in E. subst k'. split; [intros [= ->]; now left|]. intros [[= ->]|Hi]; [reflexivity|].
    exfalso. apply N1. now apply (in_map fst) in Hi.
  - apply list_eqb_neq in E. rewrite IH by exact N2. split; [now right|]. intros [[= -> ->]|Hi]; [contradiction|exact Hi].
Qed.

Lemma string_keys_map : forall l, string_keys l = map fst (flat_map (fun e => match e with (Some k, VStr s) => [(k, s)] | _ => [] end) l : list (str * str)).
Proof.
  induction l as [|(k & v) l IH]; [reflexivity|]. unfold string_keys in *. cbn [flat_map]. rewrite map_app, <- IH.
  destruct k; [destruct v|]; reflexivity.
Qed.

Lemma pairs_in : forall k v l, In (k, v) (flat_map (fun e => match e with (Some k, VStr s) => [(k, s)] | _ => [] end) l : list (str * str)) <-> In (Some k, VStr v) l.
Proof.
  intros k v l. rewrite in_flat_map. split.
  - intros ((k' & w) & Hi & Hx). destruct k' as [k'|]; [|contradiction]. destruct w; try contradiction.
    destruct Hx as [[= -> ->]|[]]. exact Hi.
  - intros Hi. exists (Some k, VStr v). split; [exact Hi|now left].
Qed.

Lemma parse_attr_skip : forall before r, Forall (fun x => at_ours x = false) before -> parse_attr (before ++ r) = parse_attr r.
Proof. induction before as [|a l IH]; intros r F; [reflexivity|]. inversion F; subst. cbn [app parse_attr]. rewrite H1. now apply IH. Qed.

Lemma only_own : forall before a after b, Forall (fun x => at_ours x = false) (before ++ after) -> In b (before ++ a :: after) -> at_ours b = true -> b = a.
Proof.
  intros before a after b F Hi Hb. rewrite Forall_forall in F. apply in_app_iff in Hi as [Hi|[Hi|Hi]]; [|auto|];
    (rewrite (F b) in Hb; [discriminate|apply in_app_iff; auto]).
Qed.

Lemma flat_map_none : forall {A B} (f : A -> list B) l, (forall x, In x l -> f x = []) -> flat_map f l = [].
Proof. induction l as [|a l IH]; intros H; [reflexivity|]. cbn [flat_map]. rewrite H by now left. apply IH. intros; apply H; now right. Qed.

(** A plain attribute is read as written, or reported. *)
Lemma parse_plain : forall attrs, plain attrs ->
  exists errs m ts, parse_attr attrs = Some (errs, true, m, ts) /\
    (errs = [] <-> well_formed attrs) /\
    (well_formed attrs -> (forall k v, attr_get m k = Some v <-> says attrs k v) /\ says_types attrs ts).
Proof.
  intros attrs (before & a & after & -> & Ha & F & Hl).
  rewrite parse_attr_skip by (apply Forall_app in F; tauto). cbn [parse_attr]. rewrite Ha.
  assert (W : well_formed (before ++ a :: after) <-> exists l, at_entries a = Some l /\ Forall entry_form l).
  { split; [intros H; apply H; [apply in_elt|exact Ha]|]. intros H b Hb Ob.
    now rewrite (only_own before a after b F Hb Ob). }
  destruct (at_entries a) as [l|] eqn:El.
  - destruct Hl as (N & T). destruct (attr_entries_total l [] T) as (errs & m & ts & -> & E1 & E2).
    exists errs, m, ts. split; [reflexivity|]. split.
    + rewrite W, E1. split; [intros; now exists l|]. intros (l' & [= <-] & H). exact H.
    + intros H. apply W in H as (l' & [= <-] & H). destruct (E2 H) as (-> & E3). split.
      * intros k v. rewrite app_nil_r, attr_get_in.
        -- rewrite <- in_rev, pairs_in. split.
           ++ intros Hi. exists a, l. split; [apply in_elt|]. now repeat split.
           ++ intros (b & l' & Hb & Ob & E & Hi). rewrite (only_own before a after b F Hb Ob) in E. congruence.
        -- rewrite map_rev. apply NoDup_rev. now rewrite <- string_keys_map.
      * unfold says_types. rewrite flat_map_app. cbn [flat_map]. rewrite Ha, El.
        apply Forall_app in F as (F1 & F2). rewrite Forall_forall in F1, F2.
        rewrite (flat_map_none _ before) by (intros x Hx; now rewrite F1).
        rewrite (flat_map_none _ after), app_nil_r by (intros x Hx; now rewrite F2).
        exact E3.
  - exists [NotEntries], [], []. split; [reflexivity|]. split; [split; [discriminate|]|]; intros H; apply W in H as (l & H & _); discriminate.
Qed.

Lemma says_one : forall attrs k v w, plain attrs -> well_formed attrs -> says attrs k v -> says attrs k w -> v = w.
Proof.
  intros attrs k v w P W H1 H2. destruct (parse_plain attrs P) as (e & m & ts & _ & _ & E). destruct (E W) as (G & _).
  apply G in H1, H2. congruence.
Qed.

Lemma struct_fields_wrong : forall fs errs gs, struct_fields fs = Some (errs, gs) ->
  forall x, In x errs <-> exists f, In f fs /\ wrong_field f x.
Proof.
  induction fs as [|(m & e) fs IH]; intros errs gs E x; cbn [struct_fields] in E.
  - injection E as <- <-. split; [intros []|intros (f & [] & _)].
  - destruct m as [m|]; [|discriminate]. destruct (struct_fields fs) as [(errs' & gs')|]; [|discriminate].
    specialize (IH errs' gs' eq_refl x).
    assert (same : (forall y, ~ wrong_field (Some m, e) y) -> In x errs' <-> exists f, In f ((Some m, e) :: fs) /\ wrong_field f x).
    { intros N. rewrite IH. split; intros (f & Hf & Hw); [exists f; split; [now right|exact Hw]|].
      destruct Hf as [<-|Hf]; [now apply N in Hw|]. now exists f. }
    assert (more : forall y, wrong_field (Some m, e) y -> (forall z, wrong_field (Some m, e) z -> z = y) ->
       In x (y :: errs') <-> exists f, In f ((Some m, e) :: fs) /\ wrong_field f x).
    { intros y Hy Hz. cbn [In]. rewrite IH. split.
      - intros [->|(f & Hf & Hw)]; [exists (Some m, e); split; [now left|exact Hy]|exists f; split; [now right|exact Hw]].
      - intros (f & [<-|Hf] & Hw); [left; symmetry; now apply Hz|right; now exists f]. }
    destruct e as [[[|y [|? ?]]|]|]; injection E as <- <-.
    + apply more; [constructor; discriminate|]. intros z H. now inversion H.
    + apply same. intros z H. inversion H as [m' l K|]. now apply K.
    + apply more; [constructor; discriminate|]. intros z H. now inversion H.
    + apply more; [constructor|]. intros z H. now inversion H.
    + apply same. intros z H. inversion H.
Qed.

Lemma attr_entries_wrong : forall l m errs m' ts, attr_entries l m = Some (errs, m', ts) ->
  m' = rev (flat_map (fun e => match e with (Some k, VStr s) => [(k, s)] | _ => [] end) l) ++ m /\
  forall x, In x errs <-> exists e, In e l /\ wrong_entry e x.
Proof.
  induction l as [|(k & v) l IH]; intros m errs m' ts E; cbn [attr_entries] in E.
  - injection E as <- <- <-. split; [reflexivity|]. intros x. split; [intros []|intros (f & [] & _)].
  - assert (more : forall ys errs', (forall z, wrong_entry (k, v) z <-> In z ys) ->
       (forall x, In x errs' <-> exists e, In e l /\ wrong_entry e x) ->
       forall x, In x (ys ++ errs') <-> exists e, In e ((k, v) :: l) /\ wrong_entry e x).
    { intros ys errs' H1 H2 x. rewrite in_app_iff, H2, <- H1. split.
      - intros [H|(e & He & Hw)]; [exists (k, v); split; [now left|exact H]|exists e; split; [now right|exact Hw]].
      - intros (e & [<-|He] & Hw); [now left|right; now exists e]. }
    destruct k as [k|].
    + destruct v as [s|p fs|].
      * apply IH in E as (-> & E). split. { cbn [flat_map app rev]. now rewrite <- app_assoc. }
        intros x. apply (more []); [|exact E]. intros z. split; [|intros []]. intros H. inversion H as [| |k' v' K1 K2|]. now destruct (K2 s).
      * destruct (list_eqb k (s2l "ty")) eqn:Ek.
        -- apply list_eqb_eq in Ek. subst k. destruct (struct_fields fs) as [(errs1 & gs)|] eqn:Es; [|discriminate].
           destruct (attr_entries l m) as [((errs' & m1) & ts')|] eqn:E'; [|discriminate]. injection E as <- <- <-.
           apply IH in E' as (-> & E'). split; [reflexivity|]. apply more; [|exact E'].
           intros z. rewrite (struct_fields_wrong _ _ _ Es). split.
           ++ intros H. inversion H as [| |k' v' K1 K2|p' fs' f x K1 K2]; [now contradiction K1|]. now exists f.
           ++ intros (f & Hf & Hw). now apply we_field with f.
        -- apply list_eqb_neq in Ek. destruct (attr_entries l m) as [((errs' & m1) & ts')|] eqn:E'; [|discriminate]. injection E as <- <- <-.
           apply IH in E' as (-> & E'). split; [reflexivity|]. apply (more [ExpectedString]); [|exact E'].
           intros z. split; [intros H; inversion H; subst; [now left|contradiction]|].
           intros [<-|[]]. constructor; [exact Ek|discriminate].
      * destruct (list_eqb k (s2l "ty")) eqn:Ek.
        -- apply list_eqb_eq in Ek. subst k.
           destruct (attr_entries l m) as [((errs' & m1) & ts')|] eqn:E'; [|discriminate]. injection E as <- <- <-.
           apply IH in E' as (-> & E'). split; [reflexivity|]. apply (more [ExpectedStruct]); [|exact E'].
           intros z. split; [intros H; inversion H as [| |k' v' K1 K2|]; subst; [now left|now contradiction K1]|].
           intros [<-|[]]. constructor.
        -- apply list_eqb_neq in Ek. destruct (attr_entries l m) as [((errs' & m1) & ts')|] eqn:E'; [|discriminate]. injection E as <- <- <-.
           apply IH in E' as (-> & E'). split; [reflexivity|]. apply (more [ExpectedString]); [|exact E'].
           intros z. split; [intros H; inversion H; subst; [contradiction|now left]|].
           intros [<-|[]]. constructor; [exact Ek|discriminate].
    + destruct (attr_entries l m) as [((errs' & m1) & ts')|] eqn:E'; [|discriminate]. injection E as <- <- <-.
      apply IH in E' as (-> & E'). split; [reflexivity|]. apply (more [ExpectedIdent]); [|exact E'].
      intros z. split; [intros H; inversion H; subst; now left|]. intros [<-|[]]. constructor.
Qed.

(** What is read and what is reported, also of an attribute with ill-formed entries. *)
Lemma parse_plain_full : forall attrs, plain attrs ->
  exists errs m ts, parse_attr attrs = Some (errs, true, m, ts) /\
    (forall k v, attr_get m k = Some v <-> says attrs k v) /\ (forall x, In x errs <-> wrong attrs x).
Proof.
  intros attrs (before & a & after & -> & Ha & F & Hl).
  rewrite parse_attr_skip by (apply Forall_app in F; tauto). cbn [parse_attr]. rewrite Ha.
  assert (W : forall x, wrong (before ++ a :: after) x <->
    (at_entries a = None /\ x = NotEntries) \/ exists l e, at_entries a = Some l /\ In e l /\ wrong_entry e x).
  { intros x. split.
    - intros (b & Hb & Ob & H). now rewrite (only_own before a after b F Hb Ob) in H.
    - intros H. exists a. split; [apply in_elt|]. now split. }
  destruct (at_entries a) as [l|] eqn:El.
  - destruct Hl as (N & T). destruct (attr_entries_total l [] T) as (errs & m & ts & E & _). rewrite E.
    apply attr_entries_wrong in E as (-> & E). eexists errs, _, ts. split; [reflexivity|]. split.
    + intros k v. rewrite app_nil_r, attr_get_in.
      * rewrite <- in_rev, pairs_in. split.
        -- intros Hi. exists a, l. split; [apply in_elt|]. now repeat split.
        -- intros (b & l' & Hb & Ob & E' & Hi). rewrite (only_own before a after b F Hb Ob) in E'. congruence.
      * rewrite map_rev. apply NoDup_rev. now rewrite <- string_keys_map.
    + intros x. rewrite W, E. split.
      * intros (e & He & Hw). right. now exists l, e.
      * intros [(H & _)|(l' & e & [= <-] & H)]; [discriminate|now exists e].
  - exists [NotEntries], [], []. split; [reflexivity|]. split.
    + intros k v. split; [discriminate|]. intros (b & l' & Hb & Ob & E' & Hi). rewrite (only_own before a after b F Hb Ob) in E'. congruence.
    + intros x. rewrite W. split; [intros [<-|[]]; now left|]. intros [(_ & ->)|(l & e & H & _)]; [now left|discriminate].
Qed.
