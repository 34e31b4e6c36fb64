(** Proofs about models in a database server: what is inserted is what is selected. *)
From Coq Require Import String ZArith List Bool Lia Permutation.
From Verif Require Import Base BaseFacts Types Framing Utf8 Conversion Spec_Conv Conversion_proofs Models Spec_Model Spec_Mapping Model_proofs
  Mapping_proofs TypedModel Spec_Typed Typed_proofs Spec_Engine.
Import ListNotations.
Open Scope Z_scope.

(** ** Values *)
Lemma int_range_ok : forall p ctor ty lo hi n, prim_spec p ctor ty -> int_range p = Some (lo, hi) -> lo <= n < hi -> value_ok (ctor n).
Proof. intros p ctor ty lo hi n H. destruct H; intros E; cbn in E; try discriminate; injection E as <- <-; cbn [value_ok]; unfold signed_ok, unsigned_ok; cbn; lia. Qed.

Lemma keeps_num_back : forall p ctor ty x w, prim_spec p ctor ty -> value_ok (ctor x) -> keeps (KNum p) (ctor x) w -> w = ctor x.
Proof.
  intros p ctor ty x w Hp Hv Hk. inversion Hk as [p' ctor' ty' v n lo hi P1 R I B|y|y| | | | | | |]; subst.
  - destruct Hp; inversion P1; subst; cbn in I; try discriminate; injection I as <-; reflexivity.
  - inversion Hp; subst. reflexivity.
  - inversion Hp; subst. reflexivity.
Qed.

Lemma keeps_assigned : forall q id w, keeps (KNum q) (VULong id) w -> reads (TyPrim q) w (RNum id) /\ value_ok w.
Proof.
  intros q id w Hk. inversion Hk as [p' ctor' ty' v n lo hi P1 R I B|y|y| | | | | | |]; subst.
  cbn in I. injection I as <-. split; [econstructor; eauto|]. eapply int_range_ok; eauto.
Qed.

Lemma keeps_fun : forall k v w, keeps k v w -> forall w', keeps k v w' -> w = w'.
Proof.
  induction 1 as [p ctor ty v n lo hi P R I B|x|x|b|y m d|y m d h mi s u|neg d h m s u D C L N|neg|k|k v w Hn H IH]; intros w' H'.
  - inversion H' as [p' ctor' ty' v' n' lo' hi' P' R' I' B'| | | | | | | | |]; subst; try discriminate.
    assert (n' = n) by congruence. subst. destruct P; inversion P'; reflexivity.
  - inversion H' as [? ? ? ? ? ? ? ? R| | | | | | | | |]; subst; [discriminate|reflexivity].
  - inversion H' as [? ? ? ? ? ? ? ? R| | | | | | | | |]; subst; [discriminate|reflexivity].
  - inversion H'. reflexivity.
  - inversion H'. reflexivity.
  - inversion H'. reflexivity.
  - inversion H'; subst; [reflexivity|]. elim N. unfold time_micros. destruct neg; reflexivity.
  - inversion H' as [| | | | | |? ? ? ? ? ? ? ? ? N| | |]; subst; [|reflexivity]. elim N. unfold time_micros. destruct neg; reflexivity.
  - inversion H'; [reflexivity|contradiction].
  - inversion H'; subst; [contradiction|]. now apply IH.
Qed.

Lemma utf8_length_ok : forall s b, utf8_text s b -> bytes_ok b.
Proof.
  induction 1 as [|c s w l Hc Hs IH]; [constructor|]. apply Forall_app. split; [|exact IH].
  destruct Hc; repeat constructor; unfold byte_ok; lia.
Qed.

Lemma exact_not_null : forall t x, exact t x -> x <> RNone -> field_into t x <> Ok VNull.
Proof.
  induction 1 as [p ctor ty x P V|b|s b U L|b B L|d D|d t D T N|d D M G L|t|t x Hn H IH]; intros Hx E; cbn [field_into] in E; try discriminate E.
  - destruct P; discriminate E.
  - unfold date_try_from in E. destruct (_ && _); discriminate.
  - unfold datetime_try_from in E. destruct (_ && _); discriminate.
  - contradiction.
  - now apply IH.
Qed.

Lemma keeps_not_null_result : forall k v, v <> VNull -> ~ keeps k v VNull.
Proof.
  intros k v Hv H. remember VNull as w eqn:Ew. induction H; try discriminate; try contradiction.
  - destruct H; discriminate.
  - auto.
Qed.

Lemma exact_kept : forall t x, exact t x -> forall v w, field_into t x = Ok v -> keeps (kind_of t) v w -> reads t w x /\ value_ok w.
Proof.
  induction 1 as [p ctor ty x P V|b|s b U L|b B L|d D|d t D T N|d D M G L|t|t x Hn H IH]; intros v w E K; cbn [field_into kind_of] in E, K.
  - injection E as <-. rewrite (proj1 (proj1 (prim_exact_spec p ctor ty P) x)) in K.
    rewrite (keeps_num_back _ _ _ _ _ P V K). split; [econstructor; eauto|exact V].
  - injection E as <-. unfold bool_from in K.
    assert (w = VTiny (if b then 1 else 0)) as ->.
    { apply (keeps_num_back I8 VTiny TTiny); [constructor| |exact K]. destruct b; cbn [value_ok]; unfold signed_ok; cbn; lia. }
    split; [|destruct b; cbn [value_ok]; unfold signed_ok; cbn; lia].
    replace b with (0 <? (if b then 1 else 0)) at 2 by (destruct b; reflexivity). now constructor.
  - injection E as <-. unfold string_from in K. pose proof (proj1 (utf8_text_iff s b) U) as (_ & Es). rewrite Es in K.
    inversion K; subst. split; [now constructor|]. cbn [value_ok]. split; [eapply utf8_length_ok; eauto|].
    unfold unsigned_ok, lenZ. cbn. lia.
  - injection E as <-. unfold vec_from in K. inversion K; subst. split; [constructor|]. cbn [value_ok]. split; [exact B|].
    unfold unsigned_ok, lenZ. cbn. lia.
  - unfold date_try_from in E. destruct (_ && _) eqn:Y; [|discriminate]. injection E as <-. apply andb_true_iff in Y.
    destruct D as (_ & D). destruct (date_small _ _ _ D) as (D1 & D2). rewrite !Z.mod_small in K by lia.
    inversion K; subst. split.
    + destruct d as [y m dd]. cbn [nd_year nd_month nd_day] in *. now constructor.
    + cbn [value_ok]. unfold unsigned_ok. cbn. lia.
  - unfold datetime_try_from in E. destruct (_ && _) eqn:Y; [|discriminate]. injection E as <-. apply andb_true_iff in Y.
    destruct D as (_ & D). destruct (date_small _ _ _ D) as (D1 & D2). destruct T as (T1 & T2 & T3 & T4). rewrite !Z.mod_small in K by lia.
    inversion K as [| | | | |? ? ? ? ? ? ? C Yr Cl| | | |]; subst. split.
    + destruct d as [y m dd], t as [h mi s n]. cbn [nd_year nd_month nd_day nt_hour nt_minute nt_second nt_nano] in *.
      replace n with (n / 1000 * 1000) at 2 by lia. constructor; [exact C|now left].
    + cbn [value_ok]. unfold unsigned_ok. unfold clock_time in Cl. cbn. lia.
  - injection E as <-.
    assert (Q : Z.abs (Z.quot (total_nanos d) 86400000000000) < 4294967296).
    { change (2 ^ 32) with 4294967296 in L. rewrite <- Z.quot_abs by lia. rewrite Z.quot_div_nonneg by lia.
      apply Z.div_lt_upper_bound; lia. }
    destruct (duration_from_micros d D Q) as (neg & a & b & c & e & f & E & V & F & Mi). rewrite E in K.
    replace ((-1000000000 <? total_nanos d) && (total_nanos d <? 0)) with false in Mi by (symmetry; apply andb_false_iff; lia).
    assert (Tn : total_nanos d = trunc_micros (total_nanos d) * 1000).
    { unfold trunc_micros. apply Z.mod_divide in M as (k & ->); [|lia]. rewrite Z.quot_mul by lia. reflexivity. }
    rewrite <- Mi in Tn. inversion K; subst.
    + split; [|exact V]. now constructor.
    + split; [|cbn [value_ok]; unfold unsigned_ok; cbn; lia]. constructor; [lia|exact D|]. rewrite Tn. unfold time_micros. destruct neg; reflexivity.
  - injection E as <-. inversion K; subst; [|contradiction]. split; [constructor|exact I].
  - inversion K; subst.
    + elim (exact_not_null _ _ H Hn). exact E.
    + destruct (IH v w E) as (R & V); [assumption|]. split; [|exact V]. constructor; [|exact R].
      intros ->. eapply keeps_not_null_result; eauto.
Qed.

(** ** The statements of an insert *)
Fixpoint follows (db : database) (h trace : list statement) : Prop :=
  match trace with
  | [] => True
  | (text, params, r) :: tr => r = db h text params /\ follows db (h ++ [(text, params, r)]) tr
  end.

Lemma follows_app : forall db t1 t2 h, follows db h t1 -> follows db (h ++ t1) t2 -> follows db h (t1 ++ t2).
Proof.
  induction t1 as [|[[text params] r] t1 IH]; intros t2 h H1 H2; cbn [app follows] in *; [now rewrite app_nil_r in H2|].
  destruct H1 as (E & H1). split; [exact E|]. apply IH; [exact H1|]. rewrite <- app_assoc. exact H2.
Qed.

(** Statements that begin like an INSERT. *)
Definition is_insert (s : statement) : Prop := exists rest, fst (fst s) = s2l "insert into " ++ rest.

Lemma insert_is_insert : forall vs t params r, is_insert (into_insert vs t, params, r).
Proof. intros. unfold into_insert. eexists. cbn [fst]. rewrite <- ?app_assoc. reflexivity. Qed.

Lemma not_update : forall text rest, text = s2l "insert into " ++ rest -> parse_update text = None.
Proof. intros text rest ->. reflexivity. Qed.

Lemma references_follow : forall db refs, Forall (fun r => forall a, snd r = RInsert a -> forall h, exists trace,
    snd (insert db a h) = h ++ trace /\ follows db h trace /\ Forall is_insert trace) refs ->
  forall h, exists trace, snd (reference_values db refs h) = h ++ trace /\ follows db h trace /\ Forall is_insert trace.
Proof.
  intros db refs H. induction H as [|[n x] refs Hx _ IH]; intros h; cbn [reference_values].
  - exists []. rewrite app_nil_r. splits; [reflexivity|exact I|constructor].
  - cbn [snd] in Hx. destruct x as [k|a|].
    + destruct (IH h) as (tr & E & F). exists tr. unfold iobind. destruct (reference_values db refs h) as [[us|e|] h']; cbn [snd] in *; auto.
    + destruct (Hx a eq_refl h) as (t1 & E1 & F1 & G1). unfold iobind. destruct (insert db a h) as [[id|e|] h1]; cbn [snd] in *; subst h1; [|eauto|eauto].
      destruct (IH (h ++ t1)) as (t2 & E2 & F2 & G2). exists (t1 ++ t2). rewrite app_assoc.
      splits; [|now apply follows_app|now apply Forall_app]. destruct (reference_values db refs (h ++ t1)) as [[us|e|] h']; exact E2.
    + apply IH.
Qed.

Lemma insert_follows : forall db a h, exists trace, snd (insert db a h) = h ++ trace /\ follows db h trace /\ Forall is_insert trace.
Proof.
  intros db. induction a as [t p simples structs refs IH] using active_ind'. intros h. rewrite insert_eq. unfold iobind.
  destruct (simple_values simples) as [vs|e|]; [|exists []; rewrite app_nil_r; splits; [reflexivity|exact I|constructor]..].
  destruct (struct_values structs) as [ws|e|]; [|exists []; rewrite app_nil_r; splits; [reflexivity|exact I|constructor]..].
  destruct (references_follow db refs IH h) as (tr & E & F & G).
  destruct (reference_values db refs h) as [[us|e|] h']; cbn [snd] in *; subst h'; [|eauto|eauto].
  unfold run_statement. eexists (tr ++ [_]). cbn [snd]. splits; [symmetry; apply app_assoc| |].
  - apply follows_app; [exact F|]. cbn [follows]. auto.
  - apply Forall_app. split; [exact G|]. constructor; [apply insert_is_insert|constructor].
Qed.

(** The tables along INSERTs. *)
Inductive evolves : tables -> list statement -> tables -> Prop :=
| ev_nil : forall T, evolves T [] T
| ev_ok : forall T T1 text params id tr T', is_insert (text, params, Ok id) -> executes T text params T1 id -> evolves T1 tr T' ->
    evolves T ((text, params, Ok id) :: tr) T'
| ev_failed : forall T T1 text params r tr T', (forall id, r <> Ok id) -> (forall t, T1 t = T t) -> evolves T1 tr T' ->
    evolves T ((text, params, r) :: tr) T'.

Lemma evolves_follows : forall db st trace h, serves db st -> follows db h trace -> Forall is_insert trace -> evolves (st h) trace (st (h ++ trace)).
Proof.
  intros db st trace h S. revert h. induction trace as [|[[text params] r] tr IH]; intros h F G; cbn [follows] in F.
  - rewrite app_nil_r. constructor.
  - inversion G as [|? ? G1 G2]; subst. destruct F as (E & F). specialize (IH _ F G2). rewrite <- app_assoc in IH. cbn [app] in IH.
    specialize (S h text params). rewrite <- E in S. destruct r as [id|e|].
    + eapply ev_ok; eauto.
    + eapply ev_failed; [discriminate|exact S|exact IH].
    + eapply ev_failed; [discriminate|exact S|exact IH].
Qed.

Lemma evolves_app : forall t1 t2 T T', evolves T (t1 ++ t2) T' -> exists T1, evolves T t1 T1 /\ evolves T1 t2 T'.
Proof.
  induction t1 as [|s t1 IH]; intros t2 T T' H; cbn [app] in H.
  - exists T. split; [constructor|exact H].
  - inversion H as [|? Tm ? ? ? ? ? H1 H2 H3|? Tm ? ? ? ? ? H1 H2 H3]; subst.
    + destruct (IH _ _ _ H3) as (T2 & A & B). exists T2. split; [|exact B]. eapply ev_ok; eauto.
    + destruct (IH _ _ _ H3) as (T2 & A & B). exists T2. split; [|exact B]. eapply ev_failed; eauto.
Qed.

(** ** Growing tables *)
Definition grows (T T' : tables) : Prop := forall t tb, T t = Some tb ->
  exists tb', T' t = Some tb' /\ t_cols tb' = t_cols tb /\ t_key tb' = t_key tb /\ incl (t_rows tb) (t_rows tb').

Lemma grows_refl : forall T, grows T T.
Proof. intros T t tb E. exists tb. splits; auto. apply incl_refl. Qed.
Lemma grows_trans : forall T T1 T', grows T T1 -> grows T1 T' -> grows T T'.
Proof.
  intros T T1 T' A B t tb E. destruct (A t tb E) as (tb1 & E1 & C1 & K1 & I1). destruct (B t tb1 E1) as (tb2 & E2 & C2 & K2 & I2).
  exists tb2. splits; [exact E2|congruence|congruence|]. eapply incl_tran; eauto.
Qed.

Lemma executes_grows : forall T text params T' id, is_insert (text, params, Ok id) -> executes T text params T' id -> grows T T'.
Proof.
  intros T text params T' id (rest & Hi) H. cbn [fst] in Hi. pose proof (not_update _ rest Hi) as Nu. clear Hi.
  inversion H as [? ? ? t names tb before after r key ? ? P L N E In_ Cells K Nn R U E' O|? ? ? ? ? ? ? ? ? ? ? P]; subst;
    [|rewrite Nu in P; discriminate].
  intros t' tb' Et'. destruct (list_eq_dec Z.eq_dec t' t) as [->|Ne].
  - rewrite E in Et'. injection Et' as <-. eexists. splits; [exact E'|reflexivity|reflexivity|]. cbn [t_rows]. rewrite R.
    intros x Hx. apply in_app_or in Hx as [Hx|Hx]; apply in_or_app; [now left|right; now right].
  - exists tb'. rewrite (O t' Ne). splits; auto. apply incl_refl.
Qed.

Lemma executes_keys : forall T text params T' id, executes T text params T' id -> keys_differ T -> keys_differ T'.
Proof.
  intros T text params T' id H D.
  inversion H as [? ? ? t names tb before after r key ? ? P L N E In_ Cells K Nn R U E' O|? ? ? ? t ? ? tb rows ? ? P L N E In_ Rows Keys E' O]; subst;
    intros t' tb' Et'; (destruct (list_eq_dec Z.eq_dec t' t) as [->|Ne]; [|rewrite (O t' Ne) in Et'; now apply (D t')]).
  2:{ rewrite E' in Et'. injection Et' as <-. exact Keys. }
  rewrite E' in Et'. injection Et' as <-. cbn [t_key t_rows]. destruct (D t tb E) as (D1 & D2). rewrite R in *. split.
  - rewrite map_app in *. cbn [map]. apply (Permutation_NoDup (l := assoc (t_key tb) r :: map (assoc (t_key tb)) before ++ map (assoc (t_key tb)) after)).
    + apply Permutation_middle.
    + constructor; [|exact D1]. rewrite <- map_app. intros Hin. apply in_map_iff in Hin as (o & Eo & Ho). apply (U o Ho). congruence.
  - apply Forall_app in D2 as (A & B). apply Forall_app. split; [exact A|]. constructor; [|exact B]. eauto.
Qed.

Lemma evolves_grows : forall T trace T', evolves T trace T' -> grows T T' /\ (keys_differ T -> keys_differ T').
Proof.
  induction 1 as [T|T T1 text params id tr T' Hi E _ (G & D)|T T1 text params r tr T' _ Q _ (G & D)].
  - split; [apply grows_refl|auto].
  - split; [eapply grows_trans; [eapply executes_grows; eauto|exact G]|]. intros K. apply D. eapply executes_keys; eauto.
  - split.
    + intros t tb Et. apply G. now rewrite Q.
    + intros K. apply D. intros t tb Et. apply (K t). now rewrite <- Q.
Qed.

Lemma row_is_grows : forall T T' m, grows T T' -> forall r x, row_is T m r x -> row_is T' m r x.
Proof.
  intros T T' m G. induction m as [t p a simples structs refs IH] using tmodel_ind'. intros r x H.
  inversion H as [? ? ? ? ? ? ? xs ss children H1 H2 H3]; subst. constructor; [exact H1|exact H2|].
  clear - G IH H3. induction H3 as [|f c refs children (k & tb & r' & E1 & E2 & E3 & E4 & E5) _ IHr]; constructor.
  - inversion IH as [|? ? I1 _]; subst. destruct (G _ _ E2) as (tb' & G1 & _ & G3 & G4). exists k, tb', r'. rewrite G3. splits; auto.
  - apply IHr. now inversion IH.
Qed.

Lemma made_grows : forall T T' m, grows T T' -> made_for T m -> made_for T' m.
Proof.
  intros T T' m G. induction m as [t p a simples structs refs IH] using tmodel_ind'. intros H.
  inversion H as [? ? ? ? ? ? tb E K N Ip Ia Nd H1 H2 H3]; subst. destruct (G _ _ E) as (tb' & G1 & G2 & G3 & _).
  rewrite <- G3 in *. rewrite <- G2 in *. econstructor; eauto.
  clear - IH H3. induction H3 as [|f refs (A & B) _ IHr]; constructor; inversion IH; subst; auto.
Qed.

(** ** One row *)
Lemma assoc_in : forall A n (l : list (str * A)) x, assoc n l = Some x -> In (n, x) l.
Proof.
  induction l as [|[m y] l IH]; intros x E; cbn [assoc] in E; [discriminate|].
  destruct (list_eq_dec Z.eq_dec n m) as [->|N]; [injection E as <-; now left|right; auto].
Qed.

Lemma cells : forall given id cols r, Forall2 (new_cell given id) cols r -> NoDup (map d_name cols) ->
  forall d, In d cols -> exists w, assoc (d_name d) r = Some w /\ new_cell given id d (d_name d, w).
Proof.
  intros given id cols r H. induction H as [|d0 [n w] cols r Hc _ IH]; intros N d Hd; [destruct Hd|].
  assert (En : n = d_name d0) by (inversion Hc; reflexivity). subst n. cbn [map] in N. apply NoDup_cons_iff in N as (N1 & N2).
  cbn [assoc]. destruct Hd as [->|Hd].
  - destruct (list_eq_dec Z.eq_dec (d_name d) (d_name d)) as [_|X]; [eauto|contradiction].
  - destruct (list_eq_dec Z.eq_dec (d_name d) (d_name d0)) as [E|_]; [|auto].
    destruct N1. rewrite <- E. now apply in_map.
Qed.

Lemma combine_split : forall A B (l : list (A * B)), combine (map fst l) (map snd l) = l.
Proof. induction l as [|[a b] l IH]; [reflexivity|]. cbn [map combine fst snd]. now rewrite IH. Qed.

Lemma nodup_fst : forall A (l : list (str * A)) n x y, NoDup (map fst l) -> In (n, x) l -> In (n, y) l -> x = y.
Proof.
  induction l as [|[m z] l IH]; intros n x y N Hx Hy; [destruct Hx|]. cbn [map fst] in N. apply NoDup_cons_iff in N as (N1 & N2).
  destruct Hx as [Ex|Hx], Hy as [Ey|Hy].
  - congruence.
  - injection Ex as -> ->. destruct N1. now apply (in_map fst) in Hy.
  - injection Ey as -> ->. destruct N1. now apply (in_map fst) in Hx.
  - eauto.
Qed.

Lemma cell_of_given : forall given id d v w, NoDup (map fst given) -> d_auto d = false -> In (d_name d, v) given ->
  new_cell given id d (d_name d, w) -> keeps (d_kind d) v w.
Proof.
  intros given id d v w N A Hv C. inversion C as [v' w' Hv' _ K|w' A' _ _|w' _ Nn _]; subst.
  - now rewrite (nodup_fst _ _ _ _ _ N Hv Hv').
  - congruence.
  - destruct Nn. now apply (in_map fst) in Hv.
Qed.

Lemma cell_of_auto : forall given id d w, d_auto d = true -> ~ In (d_name d) (map fst given) ->
  new_cell given id d (d_name d, w) -> keeps (d_kind d) (VULong id) w.
Proof.
  intros given id d w A Nn C. inversion C as [v' w' Hv' _ K|w' _ _ K|w' A' _ _]; subst.
  - destruct Nn. now apply (in_map fst) in Hv'.
  - exact K.
  - congruence.
Qed.

(** ** The values handed on *)
Definition converted (c : str * res serialize_error value) (v : str * value) : Prop := fst c = fst v /\ snd c = Ok (snd v).

Lemma converted_names : forall l vs, Forall2 converted l vs -> map fst l = map fst vs.
Proof. induction 1 as [|c v l vs (E & _) _ IH]; [reflexivity|]. cbn [map]. now rewrite E, IH. Qed.

Lemma converted_in : forall l vs n rv, Forall2 converted l vs -> In (n, rv) l -> exists v, rv = Ok v /\ In (n, v) vs.
Proof.
  induction 1 as [|c [n' v] l vs (E1 & E2) _ IH]; intros Hin; [destruct Hin|]. cbn [fst snd] in *. destruct Hin as [->|Hin].
  - cbn [fst snd] in *. subst. exists v. split; [reflexivity|now left].
  - destruct (IH Hin) as (v' & A & B). exists v'. split; [exact A|now right].
Qed.

Lemma combine_map_l : forall A B C D (f : A -> C) (g : A * B -> D) (l : list A) (xs : list B),
  combine (map f l) (map g (combine l xs)) = map (fun z => (f (fst z), g z)) (combine l xs).
Proof. induction l as [|a l IH]; intros [|x xs]; [reflexivity..|]. cbn [map combine fst]. now rewrite IH. Qed.

Definition simple_items (simples : list (str * rust_type)) (xs : list rust_value) : list (str * res serialize_error value) :=
  map (fun z => (fst (fst z), field_into (snd (fst z)) (snd z))) (combine simples xs).
Definition struct_items (structs : list (str * list (str * rust_type))) (ss : list (list rust_value)) : list (str * res serialize_error value) :=
  flat_map (fun z => map (fun y => (fst (fst z) ++ [95] ++ fst (fst y), field_into (snd (fst y)) (snd y))) (combine (snd (fst z)) (snd z)))
    (combine structs ss).

Lemma simple_items_eq : forall simples xs,
  combine (map fst simples) (map (fun '(f, v) => field_into (snd f) v) (combine simples xs)) = simple_items simples xs.
Proof. intros. rewrite combine_map_l. apply map_ext. intros [[n ty] x]. reflexivity. Qed.

Lemma combine_app_eq : forall A B (a a' : list A) (b b' : list B), length a = length b ->
  combine (a ++ a') (b ++ b') = combine a b ++ combine a' b'.
Proof. induction a as [|x a IH]; intros a' [|y b] b' H; try discriminate; [reflexivity|]. cbn [app combine]. rewrite IH by (now injection H). reflexivity. Qed.

Lemma struct_items_eq : forall structs ss, Forall2 (fun s l => length (snd s) = length l) structs ss ->
  combine (columns_of [] (map (fun s => (fst s, map fst (snd s))) structs))
    (concat (map (fun '(s, l) => map (fun '(f, v) => field_into (snd f) v) (combine (snd s) l)) (combine structs ss)))
  = struct_items structs ss.
Proof.
  unfold columns_of, struct_items. cbn [app]. induction 1 as [|[n parts] l structs ss E _ IH]; [reflexivity|]. cbn [map flat_map combine concat fst snd] in *.
  rewrite combine_app_eq; [|rewrite !map_length, combine_length; lia]. f_equal; [|exact IH].
  clear -E. revert l E. induction parts as [|[f ty] parts IH]; intros [|x l] E; try discriminate; [reflexivity|].
  cbn [map combine fst snd]. f_equal. apply IH. now injection E.
Qed.

Lemma simple_items_names : forall simples xs, length xs = length simples -> map fst (simple_items simples xs) = map fst simples.
Proof.
  unfold simple_items. induction simples as [|f simples IH]; intros [|x xs] E; try discriminate; [reflexivity|].
  cbn [combine map fst]. f_equal. apply IH. now injection E.
Qed.

Lemma struct_items_names : forall structs ss, Forall2 (fun s l => length (snd s) = length l) structs ss ->
  map fst (struct_items structs ss) = map fst (struct_columns structs).
Proof.
  unfold struct_items, struct_columns. induction 1 as [|[n parts] l structs ss E _ IH]; [reflexivity|]. cbn [flat_map combine fst snd] in *.
  rewrite !map_app. f_equal; [|exact IH]. rewrite !map_map. cbn [fst]. clear -E. revert l E.
  induction parts as [|[f ty] parts IH]; intros [|x l] E; try discriminate; [reflexivity|]. cbn [combine map fst]. f_equal. apply IH. now injection E.
Qed.

Lemma forall2_build : forall A B C (P : A -> C -> Prop) (g : A * B -> C) (l : list A) (xs : list B), length xs = length l ->
  (forall a x, In (a, x) (combine l xs) -> P a (g (a, x))) -> Forall2 P l (map g (combine l xs)).
Proof.
  induction l as [|a l IH]; intros [|x xs] E H; try discriminate; constructor.
  - apply H. now left.
  - apply IH; [now injection E|]. intros b y Hin. apply H. now right.
Qed.

Lemma forall2_same : forall A B (P : A -> B -> Prop) (l : list A) (xs : list B), length xs = length l ->
  (forall a x, In (a, x) (combine l xs) -> P a x) -> Forall2 P l xs.
Proof.
  induction l as [|a l IH]; intros [|x xs] E H; try discriminate; constructor.
  - apply H. now left.
  - apply IH; [now injection E|]. intros b y Hin. apply H. now right.
Qed.

Lemma forall2_combine : forall A B (P : A -> B -> Prop) (l : list A) (xs : list B), Forall2 P l xs -> forall a x, In (a, x) (combine l xs) -> P a x.
Proof. induction 1 as [|a x l xs H _ IH]; intros b y Hin; [destruct Hin|]. destruct Hin as [E|Hin]; [injection E as <- <-; exact H|auto]. Qed.

(** ** What an insert leaves in the tables *)
Lemma Forall2_impl : forall A B (P Q : A -> B -> Prop), (forall a b, P a b -> Q a b) -> forall l xs, Forall2 P l xs -> Forall2 Q l xs.
Proof. intros A B P Q H l xs F. induction F; constructor; auto. Qed.

Lemma Forall2_length : forall A B (P : A -> B -> Prop) l xs, Forall2 P l xs -> length l = length xs.
Proof. induction 1; [reflexivity|]. cbn [length]. congruence. Qed.

Lemma app_cong : forall A (a b c d : list A), a = b -> c = d -> a ++ c = b ++ d.
Proof. congruence. Qed.

Lemma nodup_apart : forall A (l1 l2 : list A), NoDup (l1 ++ l2) -> forall x, In x l1 -> In x l2 -> False.
Proof.
  induction l1 as [|a l1 IH]; intros l2 N x H1 H2; [destruct H1|]. cbn [app] in N. apply NoDup_cons_iff in N as (N1 & N2).
  destruct H1 as [->|H1]; [apply N1, in_or_app; now right|eauto].
Qed.

Lemma nth_error_combine : forall A B (l : list A) (xs : list B) i a x, nth_error l i = Some a -> nth_error xs i = Some x ->
  nth_error (combine l xs) i = Some (a, x).
Proof.
  induction l as [|b l IH]; intros [|y xs] [|i] a x Ha Hx; try discriminate; cbn [nth_error combine] in *; [congruence|auto].
Qed.

Lemma in_combine_some : forall A B (l : list A) (xs : list B) a, length xs = length l -> In a l -> exists x, In (a, x) (combine l xs).
Proof.
  induction l as [|b l IH]; intros [|y xs] a E H; try discriminate; [destruct H|]. destruct H as [->|H].
  - exists y. now left.
  - destruct (IH xs a) as (x & Hx); [now injection E|exact H|]. exists x. now right.
Qed.

Fixpoint children_of (refs : list (str * tmodel)) (children : list tinstance) : list instance :=
  match refs, children with
  | (_, sub) :: refs', c :: children' => instance_of sub c :: children_of refs' children'
  | _, _ => []
  end.

Lemma instance_of_eq : forall t p a simples structs refs xs ss children,
  instance_of (TModel t p a simples structs refs) (TInstance xs ss children) =
  Instance (map (fun '(f, v) => field_into (snd f) v) (combine simples xs))
    (map (fun '(s, l) => map (fun '(f, v) => field_into (snd f) v) (combine (snd s) l)) (combine structs ss))
    (children_of refs children).
Proof. reflexivity. Qed.

Definition untyped_refs (refs : list (str * tmodel)) : list (str * model) := map (fun r => match r with (f, sub) => (f, untyped sub) end) refs.
Definition nested_refs (refs : list (str * tmodel)) : list str :=
  flat_map (fun r => match r with (_, (TModel t _ _ _ _ _ as sub)) => t :: referred sub end) refs.
Definition tname (m : tmodel) : str := m_table (untyped m).
Lemma tname_eq : forall t p a simples structs refs, tname (TModel t p a simples structs refs) = t.
Proof. reflexivity. Qed.
Lemma nested_cons : forall f sub refs, nested_refs ((f, sub) :: refs) = (tname sub :: referred sub) ++ nested_refs refs.
Proof. intros f [t p a simples structs rs] refs. reflexivity. Qed.

Definition key_kept (m : tmodel) (k kv : value) : Prop :=
  match m with TModel _ p _ simples _ _ => forall ty, In (p, ty) simples -> keeps (kind_of ty) k kv end.

Definition saving (T : tables) (m : tmodel) (x : tinstance) (id : Z) (T' : tables) : Prop :=
  exists r x' tb tb' kv, saved m x id x' /\ row_is T' m r x' /\ T (tname m) = Some tb /\ T' (tname m) = Some tb' /\
    In r (t_rows tb') /\ assoc (t_key tb') r = Some kv /\
    (forall k, model_key (untyped m) (instance_of m x) id k -> key_kept m k kv) /\
    (forall t', ~ In t' (tname m :: referred m) -> T' t' = T t') /\
    (~ In (tname m) (referred m) -> exists before after, t_rows tb = before ++ after /\ t_rows tb' = before ++ r :: after).

Lemma save_refs : forall refs, Forall (fun f => forall x trace id T T', stored (untyped (snd f)) (instance_of (snd f) x) trace id ->
    all_exact (snd f) x -> made_for T (snd f) -> evolves T trace T' -> saving T (snd f) x id T') refs ->
  forall children trace us T T1, stored_refs (untyped_refs refs) (children_of refs children) trace us ->
  Forall2 (fun f c => all_exact (snd f) c) refs children -> Forall (fun f => made_for T (snd f)) refs -> evolves T trace T1 ->
  exists children', saved_children refs children children' /\
    Forall2 (fun f c => exists k kv tb r', In (fst f, k) us /\ T1 (tname (snd f)) = Some tb /\ In r' (t_rows tb) /\
      assoc (t_key tb) r' = Some kv /\ row_is T1 (snd f) r' c /\ key_kept (snd f) k kv) refs children' /\
    map fst us = map fst refs /\ (forall t', ~ In t' (nested_refs refs) -> T1 t' = T t').
Proof.
  intros refs IH. induction IH as [|[f sub] refs Hs _ IHr]; intros children trace us T T1 St Ex Md Ev.
  - inversion Ex; subst. cbn in St. inversion St; subst. inversion Ev; subst. exists []. splits; auto; constructor.
  - inversion Ex as [|? c ? children0 Ex1 Ex2]; subst. inversion Md as [|? ? Md1 Md2]; subst. cbn [snd fst] in *.
    cbn [untyped_refs map children_of] in St. inversion St as [|f' m' x' k id refs' ch' tr1 tr2 us' S1 K1 S2]; subst.
    apply evolves_app in Ev as (Tm & Ev1 & Ev2).
    destruct (Hs c tr1 id T Tm S1 Ex1 Md1 Ev1) as (r & c' & tb & tb' & kv & A1 & A2 & A3 & A4 & A5 & A6 & A7 & A8 & A9).
    destruct (evolves_grows _ _ _ Ev1) as (G1 & _). destruct (evolves_grows _ _ _ Ev2) as (G2 & _).
    destruct (IHr children0 tr2 us' Tm T1 S2 Ex2) as (children' & B1 & B2 & B3 & B4);
      [eapply Forall_impl; [|exact Md2]; intros; eapply made_grows; eauto|exact Ev2|].
    exists (c' :: children'). splits.
    + econstructor; eauto.
    + constructor; cbn [fst snd].
      * destruct (G2 _ _ A4) as (tb2 & C1 & C2 & C3 & C4). exists k, kv, tb2, r. splits.
        -- now left.
        -- exact C1.
        -- now apply C4.
        -- now rewrite C3.
        -- eapply row_is_grows; eauto.
        -- now apply A7.
      * eapply Forall2_impl; [|exact B2]. intros g y (k' & kv' & tb2 & r' & D). exists k', kv', tb2, r'. decompose [and] D. splits; auto. now right.
    + cbn [map fst]. now rewrite B3.
    + intros t' Hn. rewrite nested_cons in Hn. rewrite B4, A8; [reflexivity| |]; intros X; apply Hn; apply in_or_app; auto.
Qed.

Lemma filter_items_names : forall a p (l : list (str * res serialize_error value)),
  incl (map fst (filter (fun c => negb (a && list_eqb (fst c) p)) l)) (map fst l).
Proof. intros a p l n H. apply in_map_iff in H as (c & <- & Hc). apply filter_In in Hc as (Hc & _). now apply in_map. Qed.

Lemma save : forall m x trace id T T', stored (untyped m) (instance_of m x) trace id ->
  all_exact m x -> made_for T m -> evolves T trace T' -> saving T m x id T'.
Proof.
  induction m as [t p a simples structs refs IH] using tmodel_ind'. intros x trace id T T' St Ex Md Ev.
  inversion Ex as [? ? ? ? ? ? xs ss children Ex1 Ex2 Ex3]; subst.
  inversion Md as [? ? ? ? ? ? tb Mt Mk Mn Mp Ma Mnd Ms Mst Mr]; subst.
  cbn [untyped] in St. rewrite instance_of_eq in St. fold (untyped_refs refs) in St.
  inversion St as [? ? ? ? ? ? ? ? ? own parts us tr s ? S1 S2 S3 S4 S5]; subst.
  apply evolves_app in Ev as (T1 & Ev1 & Ev2).
  destruct (save_refs refs IH children tr us T T1 S3 Ex3) as (children' & B1 & B2 & B3 & B4).
  { eapply Forall_impl; [|exact Mr]. intros f (H & _). exact H. }
  { exact Ev1. }
  rewrite simple_items_eq in S1.
  assert (Ls : Forall2 (fun (s : str * list (str * rust_type)) (l : list rust_value) => length (snd s) = length l) structs ss).
  { eapply Forall2_impl; [|exact Ex2]. intros s0 l H. eapply Forall2_length. exact H. }
  rewrite struct_items_eq in S2 by exact Ls.
  assert (Lx : length xs = length simples) by (symmetry; eapply Forall2_length; exact Ex1).
  set (p := t_key tb) in *.
  destruct s as [[text params] res]. cbn [snd] in S5. subst res. destruct S4 as (P1 & P2).
  assert (X : executes T1 text params T' id).
  { inversion Ev2 as [|? T2 ? ? ? ? ? Xi X Ev3|? ? ? ? ? ? ? Bad]; subst; [|exfalso; eapply Bad; reflexivity]. inversion Ev3; subst. exact X. }
  assert (Xi : is_insert (text, params, Ok id)).
  { inversion Ev2 as [|? T2 ? ? ? ? ? Xi _ Ev3|? ? ? ? ? ? ? Bad]; subst; [exact Xi|exfalso; eapply Bad; reflexivity]. }
  destruct (evolves_grows _ _ _ Ev1) as (G1 & _). pose proof (executes_grows _ _ _ _ _ Xi X) as G2.
  inversion X as [? ? ? t' names tb1 before after r key ? ? Q1 Q2 Q3 Q4 Q5 Q6 Q7 Q8 Q9 Q10 Q11 Q12|? ? ? ? ? ? ? ? ? ? ? P]; subst T0 text0 T'0 id0;
    [subst params0|destruct Xi as (rest & Hi); cbn [fst] in Hi; rewrite (not_update _ rest Hi) in P; discriminate].
  rewrite P1 in Q1. injection Q1 as Et En. subst t' names.
  destruct (G1 t tb Mt) as (tb1' & F1 & F2 & F3 & F4). rewrite Q4 in F1. injection F1 as <-.
  set (given := own ++ parts ++ us) in *.
  assert (Eg : combine (map fst given) params = given) by (rewrite P2; apply combine_split).
  assert (Q6' : Forall2 (new_cell given id) (t_cols tb) r) by (rewrite <- Eg, <- F2; exact Q6).
  pose proof (cells _ _ _ _ Q6' Mn) as Cell.
  (* names *)
  pose proof (converted_names _ _ S1) as N1. pose proof (converted_names _ _ S2) as N2. rewrite (struct_items_names _ _ Ls) in N2.
  assert (Ng : map fst given = map fst (filter (fun c => negb (a && list_eqb (fst c) p)) (simple_items simples xs)) ++
    map fst (struct_columns structs) ++ map fst refs).
  { unfold given. transitivity (map fst own ++ map fst parts ++ map fst us); [rewrite !map_app; reflexivity|].
    apply app_cong; [symmetry; exact N1|apply app_cong; [symmetry; exact N2|exact B3]]. }
  (* a simple field *)
  assert (Simple : forall f y, In (f, y) (combine simples xs) -> exists w, assoc (fst f) r = Some w /\
      (if a && list_eqb (fst f) p then keeps (kind_of (snd f)) (VULong id) w
       else exists v, field_into (snd f) y = Ok v /\ keeps (kind_of (snd f)) v w)).
  { intros [n ty] y Hin. pose proof (in_combine_l _ _ _ _ Hin) as Hf. destruct (Ms n ty Hf) as (auto & D1 & D2).
    destruct (Cell _ D1) as (w & W1 & W2). cbn [d_name fst snd] in *. exists w. split; [exact W1|].
    destruct (a && list_eqb n p) eqn:Ea.
    - apply andb_true_iff in Ea as (-> & Ep). apply list_eqb_eq in Ep. subst n.
      apply (cell_of_auto given id (mkDef p (kind_of ty) auto) w); [apply D2; auto| |exact W2]. cbn [d_name].
      intros Hn. pose proof (eq_ind _ (fun l => In p l) Hn _ Ng) as Hn'. clear Hn. rename Hn' into Hn. cbn beta in Hn. apply in_app_or in Hn as [Hn|Hn].
      + apply in_map_iff in Hn as (c & Ec & Hc). apply filter_In in Hc as (_ & Hc). rewrite Ec, list_eqb_refl in Hc. discriminate.
      + apply (nodup_apart _ _ _ Mnd p Mp Hn).
    - assert (Hi : In (n, field_into ty y) (filter (fun c => negb (a && list_eqb (fst c) p)) (simple_items simples xs))).
      { apply filter_In. cbn [fst]. rewrite Ea. split; [|reflexivity]. unfold simple_items.
        apply (in_map (fun z => (fst (fst z), field_into (snd (fst z)) (snd z)))) in Hin. exact Hin. }
      destruct (converted_in _ _ _ _ S1 Hi) as (v & V1 & V2). exists v. split; [exact V1|].
      apply (cell_of_given given id (mkDef n (kind_of ty) auto) v w); [exact Q3| |apply in_or_app; now left|exact W2]. cbn [d_auto].
      destruct auto; [|reflexivity]. destruct (proj1 D2 eq_refl) as (-> & ->). rewrite list_eqb_refl in Ea. discriminate. }
  exists r, (TInstance (map (fun z => if a && list_eqb (fst (fst z)) p then RNum id else snd z) (combine simples xs)) ss children').
  exists tb, (mkTable (t_cols tb1) (t_key tb1) (before ++ r :: after)), key. rewrite tname_eq. cbn [t_key t_rows]. splits.
  - constructor; [exact Lx|rewrite map_length, combine_length, Lx; apply Nat.min_id| |exact B1].
    intros i n ty y z Hn Hy Hz. rewrite nth_error_map in Hz. pose proof (eq_trans (eq_sym (f_equal (option_map _) (nth_error_combine _ _ _ _ _ _ _ Hn Hy))) Hz) as Hq.
    cbn [option_map fst snd] in Hq. congruence.
  - constructor.
    + apply forall2_build; [exact Lx|]. intros f y Hin. destruct f as [n ty]. destruct (Simple (n, ty) y Hin) as (w & W1 & W2). cbn [fst snd] in *. exists w.
      split; [exact W1|]. destruct (a && list_eqb n p) eqn:Ea.
      * apply andb_true_iff in Ea as (-> & Ep). apply list_eqb_eq in Ep. destruct (Ma eq_refl) as (q & Hq).
        pose proof (in_combine_l _ _ _ _ Hin) as Hf. subst n.
        assert (ty = TyPrim q) as ->. { eapply nodup_fst; [|exact Hf|exact Hq]. eapply NoDup_app_l. exact Mnd. }
        cbn [kind_of] in W2. apply keeps_assigned in W2 as (R & V). split; [exact V|exact R].
      * destruct W2 as (v & V1 & V2). pose proof (forall2_combine _ _ _ _ _ Ex1 _ _ Hin) as E. cbn beta in E.
        destruct (exact_kept _ _ E _ _ V1 V2). auto.
    + apply forall2_same; [symmetry; eapply Forall2_length; exact Ls|]. intros s0 l Hin.
      pose proof (forall2_combine _ _ _ _ _ Ex2 _ _ Hin) as E0. cbn beta in E0.
      apply forall2_same; [symmetry; eapply Forall2_length; exact E0|]. intros f y Hf.
      assert (Hi : In (fst s0 ++ [95] ++ fst f, field_into (snd f) y) (struct_items structs ss)).
      { unfold struct_items. apply in_flat_map. exists (s0, l). split; [exact Hin|]. cbn [fst snd].
        apply (in_map (fun y => (fst s0 ++ [95] ++ fst (fst y), field_into (snd (fst y)) (snd y)))) in Hf. exact Hf. }
      destruct (converted_in _ _ _ _ S2 Hi) as (v & V1 & V2).
      assert (Hd : In (mkDef (fst s0 ++ [95] ++ fst f) (kind_of (snd f)) false) (t_cols tb)).
      { apply Mst. unfold struct_columns. apply in_flat_map. exists s0. split; [eapply in_combine_l; exact Hin|].
        apply in_combine_l in Hf. apply (in_map (fun p => (fst s0 ++ [95] ++ fst p, snd p))) in Hf. exact Hf. }
      destruct (Cell _ Hd) as (w & W1 & W2). cbn [d_name] in *. exists w. split; [exact W1|].
      assert (K : keeps (kind_of (snd f)) v w).
      { apply (cell_of_given given id (mkDef (fst s0 ++ [95] ++ fst f) (kind_of (snd f)) false) v w Q3 eq_refl); [|exact W2].
        cbn [d_name]. apply in_or_app. right. apply in_or_app. now left. }
      pose proof (forall2_combine _ _ _ _ _ E0 _ _ Hf) as E. cbn beta in E. destruct (exact_kept _ _ E _ _ V1 K). auto.
    + apply forall2_same; [symmetry; eapply Forall2_length; exact B2|]. intros [f sub] c Hin.
      pose proof (forall2_combine _ _ _ _ _ B2 _ _ Hin) as (k & kv & tb2 & r' & K1 & K2 & K3 & K4 & K5 & K6). cbn [fst snd] in *.
      pose proof (in_combine_l _ _ _ _ Hin) as Hf. rewrite Forall_forall in Mr. destruct (Mr _ Hf) as (M1 & M2). cbn [fst snd] in *.
      destruct (G2 _ _ K2) as (tb3 & H1 & H2 & H3 & H4).
      exists kv, tb3, r'. splits; [|exact H1|now apply H4|now rewrite H3|eapply row_is_grows; eauto].
      destruct sub as [t2 q a2 subs structs2 refs2]. inversion M1 as [? ? ? ? ? ? ? _ _ _ Hq _ _ _ _ _]; subst.
      apply in_map_iff in Hq as ([q' ty] & Eq & Hq). cbn [fst] in Eq. subst q'. pose proof (M2 ty Hq) as Hd.
      destruct (Cell _ Hd) as (w & W1 & W2). cbn [d_name] in *. rewrite W1. f_equal.
      eapply keeps_fun; [|exact (K6 ty Hq)].
      apply (cell_of_given given id (mkDef f (kind_of ty) false) k w Q3 eq_refl); [|exact W2].
      cbn [d_name]. apply in_or_app. right. apply in_or_app. now right.
  - exact Mt.
  - exact Q11.
  - apply in_or_app. right. now left.
  - exact Q7.
  - intros k Hk. rewrite F3 in Q7. fold p in Q7. cbn [key_kept]. intros ty Hty.
    assert (exists y, In ((p, ty), y) (combine simples xs)) as (y & Hy) by (eapply in_combine_some; eauto).
    destruct (Simple _ _ Hy) as (w & W1 & W2). cbn [fst snd] in *. rewrite Q7 in W1. injection W1 as <-. rewrite list_eqb_refl in W2.
    cbn [untyped] in Hk. rewrite instance_of_eq in Hk. inversion Hk as [|? ? ? ? ? ? ? ? ? ? Hin]; subst; cbn [andb] in W2; [exact W2|].
    rewrite simple_items_eq in Hin. destruct W2 as (v & V1 & V2).
    assert (Ok k = field_into ty y).
    { eapply nodup_fst; [rewrite simple_items_names by exact Lx; eapply NoDup_app_l; exact Mnd|exact Hin|].
      unfold simple_items. apply (in_map (fun z => (fst (fst z), field_into (snd (fst z)) (snd z)))) in Hy. exact Hy. }
    congruence.
  - intros t' Hn. change (referred (TModel t p a simples structs refs)) with (nested_refs refs) in Hn.
    rewrite Q12 by (intros ->; apply Hn; now left). apply B4. intros Hx. apply Hn. now right.
  - intros Hn. exists before, after. split; [|reflexivity]. rewrite (B4 t Hn) in Q4. rewrite Mt in Q4. injection Q4 as <-. exact Q9.
Qed.

(** ** Joins *)
Lemma join_one : forall T es j, join T es j = flat_map (fun e => join T [e] j) es.
Proof.
  intros T es j. unfold join. induction es as [|e es IH]; [reflexivity|]. cbn [flat_map]. rewrite IH, app_nil_r. reflexivity.
Qed.

Lemma flat_map_flat_map : forall A B C (f : A -> list B) (g : B -> list C) l, flat_map g (flat_map f l) = flat_map (fun x => flat_map g (f x)) l.
Proof. induction l as [|a l IH]; [reflexivity|]. cbn [flat_map]. rewrite flat_map_app, IH. reflexivity. Qed.

Lemma joins_each : forall T js es, fold_left (join T) js es = flat_map (fun e => fold_left (join T) js [e]) es.
Proof.
  intros T. induction js as [|j js IH]; intros es; cbn [fold_left].
  - induction es as [|e es IH]; [reflexivity|]. cbn [flat_map app]. now rewrite <- IH.
  - rewrite IH, (join_one T es j), flat_map_flat_map. apply flat_map_ext. intros e. symmetry. apply IH.
Qed.

Lemma joins_on_eq : forall k v, k <> VNull -> joins_on (Some k) v = true <-> v = Some k.
Proof.
  intros k [v|] Hk; cbn [joins_on]; [|split; discriminate].
  destruct (value_eq_dec k v) as [<-|N]; [destruct (value_eq_dec k VNull); [contradiction|tauto]|]. split; [discriminate|congruence].
Qed.

Lemma one_row : forall q k rows r, k <> VNull -> NoDup (map (assoc q) rows) -> In r rows -> assoc q r = Some k ->
  filter (fun r => joins_on (Some k) (assoc q r)) rows = [r].
Proof.
  intros q k rows r Hk. induction rows as [|o rows IH]; intros N Hin E; [destruct Hin|]. cbn [map] in N. apply NoDup_cons_iff in N as (N1 & N2).
  cbn [filter]. destruct Hin as [->|Hin].
  - rewrite (proj2 (joins_on_eq k _ Hk) E). f_equal. clear IH N2. induction rows as [|o rows IH]; [reflexivity|]. cbn [filter].
    destruct (joins_on (Some k) (assoc q o)) eqn:J.
    + apply joins_on_eq in J; [|exact Hk]. destruct N1. left. congruence.
    + apply IH. intros X. apply N1. now right.
  - destruct (joins_on (Some k) (assoc q o)) eqn:J; [|auto].
    apply joins_on_eq in J; [|exact Hk]. destruct N1. rewrite J, <- E. now apply in_map.
Qed.

Lemma assoc_app_skip : forall A b (l l' : list (str * A)), Forall (fun y => fst y <> b) l -> assoc b (l ++ l') = assoc b l'.
Proof.
  induction l as [|[n y] l IH]; intros l' H; [reflexivity|]. inversion H; subst. cbn [app assoc fst] in *.
  destruct (list_eq_dec Z.eq_dec b n) as [->|_]; [contradiction|auto].
Qed.

Lemma assoc_head : forall A b (x : A) l, assoc b ((b, x) :: l) = Some x.
Proof. intros. cbn [assoc]. destruct (list_eq_dec Z.eq_dec b b) as [_|N]; [reflexivity|contradiction]. Qed.

Lemma value_in_eq : forall (e : env) a f (r : row), @assoc row a e = Some r -> value_in e (a, f) = assoc f r.
Proof. intros e a f r E. unfold value_in. cbn [fst snd]. rewrite E. reflexivity. Qed.

Lemma join_row : forall T e t a l fk q r k tb r', value_in e (l, fk) = Some k -> assoc l e = Some r -> T t = Some tb -> t_key tb = q ->
  NoDup (map (assoc (t_key tb)) (t_rows tb)) -> k <> VNull -> In r' (t_rows tb) -> assoc q r' = Some k ->
  join T [e] (mkJoined t a (l, fk) (a, q)) = [(a, r') :: e].
Proof.
  intros T e t a l fk q r k tb r' V _ Et <- N Hk Hin Ea. unfold join. cbn [flat_map j_table j_alias j_left j_right].
  rewrite Et, V, app_nil_r. rewrite (filter_ext _ (fun r => joins_on (Some k) (assoc (t_key tb) r))).
  - rewrite (one_row _ k _ r' Hk N Hin Ea). reflexivity.
  - intros o. unfold value_in. cbn [fst snd]. rewrite assoc_head. reflexivity.
Qed.

Definition joins_refs (alias : str) (refs : list (str * tmodel)) : list joined :=
  flat_map (fun r => match r with (f, (Model t p _ _ _ _ as sub)) =>
    mkJoined t (alias ++ s2l "." ++ f) (alias, f) (alias ++ s2l "." ++ f, p) :: joins (alias ++ s2l "." ++ f) sub end) (untyped_refs refs).
Definition selected_refs (alias : str) (refs : list (str * tmodel)) : list (str * str) :=
  flat_map (fun r => match r with (f, sub) => selected (alias ++ s2l "." ++ f) sub end) (untyped_refs refs).
Definition types_refs (refs : list (str * tmodel)) : list rust_type := flat_map (fun r => match r with (_, sub) => types_of sub end) refs.

Definition selects (T : tables) (m : tmodel) : Prop := forall r x alias e,
  made_for T m -> everywhere names_distinct (untyped m) -> row_is T m r x -> assoc alias e = Some r ->
  exists new vs, fold_left (join T) (joins alias (untyped m)) [e] = [new ++ e] /\
    Forall (fun b => exists s, fst b = alias ++ 46 :: s) new /\ row_of m vs x /\ Forall value_ok vs /\
    forall e', (forall s, tail_ok s -> assoc (alias ++ s) e' = assoc (alias ++ s) (new ++ e)) ->
      Forall2 (fun y v => value_in e' y = Some v) (selected alias (untyped m)) vs.

Lemma alias_longer : forall (alias : str) c s, alias ++ c :: s <> alias.
Proof. intros alias c s E. apply (f_equal (@length Z)) in E. rewrite app_length in E. cbn [length] in E. lia. Qed.

Lemma dot_app : forall (alias f s : str), (alias ++ s2l "." ++ f) ++ s = alias ++ 46 :: f ++ s.
Proof. intros. rewrite <- !app_assoc. reflexivity. Qed.

Lemma reads_all_append : forall ts vs xs ts' vs' xs', reads_all ts vs xs -> reads_all ts' vs' xs' -> reads_all (ts ++ ts') (vs ++ vs') (xs ++ xs').
Proof. induction 1; intros H'; [exact H'|]. cbn [app]. constructor; auto. Qed.

Lemma select_refs : forall T, keys_differ T -> forall alias r refs, Forall (fun f => selects T (snd f)) refs ->
  Forall (fun f => made_for T (snd f)) refs -> Forall (fun f => everywhere names_distinct (untyped (snd f))) refs ->
  NoDup (map fst refs) -> Forall (fun f => ~ In 46 (fst f)) refs ->
  forall children e, assoc alias e = Some r ->
  Forall2 (fun f c => exists k tb r', assoc (fst f) r = Some k /\ T (tname (snd f)) = Some tb /\
      In r' (t_rows tb) /\ assoc (t_key tb) r' = Some k /\ row_is T (snd f) r' c) refs children ->
  exists new vs, fold_left (join T) (joins_refs alias refs) [e] = [new ++ e] /\
    Forall (fun b => exists f s, In f (map fst refs) /\ tail_ok s /\ fst b = alias ++ 46 :: f ++ s) new /\
    Forall2 (fun f c => shaped (snd f) c) refs children /\ reads_all (types_refs refs) vs (flat_map fields_of children) /\ Forall value_ok vs /\
    forall e', (forall f s, In f (map fst refs) -> tail_ok s -> assoc (alias ++ 46 :: f ++ s) e' = assoc (alias ++ 46 :: f ++ s) (new ++ e)) ->
      Forall2 (fun y v => value_in e' y = Some v) (selected_refs alias refs) vs.
Proof.
  intros T KD alias r refs IH. induction IH as [|[f sub] refs Hs _ IHr]; intros Md Nd Dn Dt children e Ea Rs.
  - inversion Rs; subst. exists [], []. cbn [joins_refs selected_refs untyped_refs map flat_map fold_left types_refs app]. splits; try constructor.
  - inversion Rs as [|? c ? children0 (k & tb & r' & K1 & K2 & K3 & K4 & K5) Rs']; subst.
    inversion Md as [|? ? Md1 Md2]; subst. inversion Nd as [|? ? Nd1 Nd2]; subst. inversion Dt as [|? ? Dt1 Dt2]; subst.
    cbn [map fst snd] in *. apply NoDup_cons_iff in Dn as (Dn1 & Dn2).
    set (a2 := alias ++ s2l "." ++ f).
    destruct (KD _ _ K2) as (Kn & Kv). rewrite Forall_forall in Kv. destruct (Kv _ K3) as (k' & Ek & Hk).
    assert (k' = k) by congruence. subst k'.
    destruct (Hs r' c a2 ((a2, r') :: e) Md1 Nd1 K5 (assoc_head _ _ _ _)) as (new1 & vs1 & J1 & A1 & (W1 & W2) & V1 & S1).
    assert (Ea2 : assoc alias (new1 ++ (a2, r') :: e) = Some r).
    { rewrite assoc_app_skip.
      - rewrite <- Ea. apply (assoc_app_skip _ alias [(a2, r')] e). constructor; [|constructor]. cbn [fst]. apply alias_longer.
      - eapply Forall_impl; [|exact A1]. intros b (s & Eb) X. apply (alias_longer alias 46 (f ++ 46 :: s)).
        rewrite <- dot_app. exact (eq_trans (eq_sym Eb) X). }
    destruct (IHr Md2 Nd2 Dn2 Dt2 children0 (new1 ++ (a2, r') :: e) Ea2 Rs') as (new2 & vs2 & J2 & A2 & W3 & W4 & V2 & S2).
    exists (new2 ++ new1 ++ [(a2, r')]), (vs1 ++ vs2). splits.
    + unfold joins_refs, untyped_refs. cbn [map flat_map]. fold (untyped_refs refs). rewrite fold_left_app.
      match goal with |- fold_left _ _ (fold_left _ ?l _) = _ =>
        assert (El : l = mkJoined (tname sub) a2 (alias, f) (a2, t_key tb) :: joins a2 (untyped sub)) end.
      { inversion Md1 as [t p a simples structs rs tb' M1 M2 _ _ _ _ _ _ _]; subst. cbn [untyped tname m_table].
        rewrite tname_eq in K2. rewrite K2 in M1. injection M1 as <-. reflexivity. }
      rewrite El. cbn [fold_left].
      assert (V0 : value_in e (alias, f) = Some k) by exact (eq_trans (value_in_eq e alias f r Ea) K1).
      pose proof (join_row T e (tname sub) a2 alias f (t_key tb) r k tb r' V0 Ea K2 eq_refl Kn Hk K3 K4) as J0.
      refine (eq_trans (f_equal (fun es => fold_left (join T) (joins_refs alias refs) (fold_left (join T) (joins a2 (untyped sub)) es)) J0) _).
      refine (eq_trans (f_equal (fold_left (join T) (joins_refs alias refs)) J1) (eq_trans J2 _)).
      rewrite <- !app_assoc. reflexivity.
    + apply Forall_app. split; [|apply Forall_app; split].
      * eapply Forall_impl; [|exact A2]. intros b (g & s & G & Ts & Eb). exists g, s. splits; auto. now right.
      * eapply Forall_impl; [|exact A1]. intros b (s & Eb). exists f, (46 :: s). splits; [now left|right; eauto|]. exact (eq_trans Eb (dot_app _ _ _)).
      * constructor; [|constructor]. exists f, []. splits; [now left|now left|]. cbn [fst]. unfold a2. rewrite app_nil_r. reflexivity.
    + constructor; auto.
    + cbn [types_refs flat_map]. apply reads_all_append; auto.
    + apply Forall_app; auto.
    + intros e' He. unfold selected_refs, untyped_refs. cbn [map flat_map]. fold (untyped_refs refs). apply Forall2_app.
      * apply S1. intros s Ts. unfold a2 at 1 2. rewrite dot_app. refine (eq_trans (He f s (or_introl eq_refl) Ts) _).
        rewrite <- !app_assoc. rewrite assoc_app_skip; [reflexivity|].
        eapply Forall_impl; [|exact A2]. intros b (g & s2 & G & Ts2 & Eb) Y. pose proof (eq_trans (eq_sym Eb) Y) as X.
        apply app_inv_head in X. injection X as X. apply apart in X as (-> & _); auto.
        apply in_map_iff in G as (g' & <- & G). rewrite Forall_forall in Dt2. now apply Dt2.
      * fold (selected_refs alias refs). apply S2. intros g s G Ts. refine (eq_trans (He g s (or_intror G) Ts) _). rewrite <- !app_assoc. reflexivity.
Qed.

Lemma columns_typed : forall (simples : list (str * rust_type)) (structs : list (str * list (str * rust_type))),
  columns_of (map fst simples) (map (fun s => (fst s, map fst (snd s))) structs) = map fst simples ++ map fst (struct_columns structs).
Proof.
  intros. unfold columns_of, struct_columns. f_equal.
  induction structs as [|[n parts] structs IH]; [reflexivity|]. cbn [map flat_map fst snd]. rewrite map_app. apply app_cong; [|exact IH].
  rewrite !map_map. reflexivity.
Qed.

Lemma own_cells : forall (r : row) (l : list (str * rust_type)) xs, Forall2 (fun f x => exists v, assoc (fst f) r = Some v /\ value_ok v /\ reads (snd f) v x) l xs ->
  exists vs, reads_all (map snd l) vs xs /\ Forall value_ok vs /\ Forall2 (fun n v => assoc n r = Some v) (map fst l) vs.
Proof.
  intros r l xs H. induction H as [|f x l xs (v & E1 & E2 & E3) _ (vs & F1 & F2 & F3)].
  - exists []. splits; constructor.
  - exists (v :: vs). cbn [map]. splits; constructor; auto.
Qed.

Lemma select_row : forall T, keys_differ T -> forall m, selects T m.
Proof.
  intros T KD. induction m as [t p a simples structs refs IH] using tmodel_ind'. intros r x alias e Md Nd Ri Ea.
  inversion Ri as [? ? ? ? ? ? ? xs ss children R1 R2 R3]; subst.
  inversion Md as [? ? ? ? ? ? tb Mt Mk Mn Mp Ma Mnd Ms Mst Mr]; subst.
  cbn [untyped] in Nd. fold (untyped_refs refs) in Nd. apply everywhere_inv in Nd as ((_ & Nd2 & Nd3) & Nd4).
  assert (Ef : map fst (untyped_refs refs) = map fst refs).
  { unfold untyped_refs. rewrite map_map. apply map_ext. intros [f sub]. reflexivity. }
  destruct (select_refs T KD alias r refs IH) with (children := children) (e := e) as (new & vs3 & J & A & W3 & W4 & V3 & S3).
  { eapply Forall_impl; [|exact Mr]. intros f (H & _). exact H. }
  { unfold untyped_refs in Nd4. rewrite Forall_map in Nd4. eapply Forall_impl; [|exact Nd4]. intros [f sub] H. exact H. }
  { exact (eq_ind _ (@NoDup str) Nd2 _ Ef). }
  { unfold untyped_refs in Nd3. rewrite Forall_map in Nd3. eapply Forall_impl; [|exact Nd3]. intros [f sub] (_ & H). exact H. }
  { exact Ea. }
  { exact R3. }
  destruct (own_cells r simples xs R1) as (vs1 & A1 & A2 & A3).
  assert (R2' : exists vs2, reads_all (flat_map (fun s => map snd (snd s)) structs) vs2 (concat ss) /\ Forall value_ok vs2 /\
    Forall2 (fun n v => assoc n r = Some v) (map fst (struct_columns structs)) vs2 /\
    Forall2 (fun s l => length (snd s) = length l) structs ss).
  { clear - R2. induction R2 as [|[n parts] l structs ss H _ (vs & F1 & F2 & F3 & F4)].
    - exists []. splits; constructor.
    - cbn [fst snd] in H.
      destruct (own_cells r (map (fun f => (n ++ [95] ++ fst f, snd f)) parts) l) as (ws & G1 & G2 & G3).
      { clear - H. induction H; cbn [map]; constructor; auto. }
      exists (ws ++ vs). rewrite map_map in G1. cbn [snd] in G1. splits.
      + cbn [flat_map concat snd]. apply reads_all_append; auto.
      + apply Forall_app; auto.
      + unfold struct_columns. cbn [flat_map fst snd]. rewrite map_app. apply Forall2_app; auto.
      + constructor; [|exact F4]. cbn [snd]. eapply Forall2_length. exact H. }
  destruct R2' as (vs2 & B1 & B2 & B3 & B4).
  exists new, (vs1 ++ vs2 ++ vs3). splits.
  - exact J.
  - eapply Forall_impl; [|exact A]. intros b (f & s & _ & _ & E). eauto.
  - split.
    + constructor; auto. symmetry. symmetry. eapply Forall2_length. exact R1.
    + cbn [types_of fields_of]. repeat apply reads_all_append; auto.
  - repeat (apply Forall_app; split); auto.
  - intros e' He. cbn [untyped selected]. fold (untyped_refs refs). rewrite columns_typed, map_app, <- app_assoc.
    assert (E0 : assoc alias e' = Some r).
    { pose proof (He [] (or_introl eq_refl)) as H. rewrite app_nil_r in H. refine (eq_trans H _). rewrite assoc_app_skip; [exact Ea|].
      eapply Forall_impl; [|exact A]. intros b (f & s & _ & _ & E) X. exact (alias_longer _ _ _ (eq_trans (eq_sym E) X)). }
    assert (Own : forall ns vs, Forall2 (fun n v => assoc n r = Some v) ns vs -> Forall2 (fun y v => value_in e' y = Some v) (map (pair alias) ns) vs).
    { intros ns vs H. induction H; cbn [map]; constructor; auto. exact (eq_trans (value_in_eq e' alias _ r E0) H). }
    apply Forall2_app; [now apply Own|]. apply Forall2_app; [now apply Own|]. apply S3.
    intros f s _ Ts. apply (He (46 :: f ++ s)). right. eauto.
Qed.

(** ** Whole inserts and queries *)
Lemma fits_instance : forall T m x, made_for T m -> all_exact m x -> fits (untyped m) (instance_of m x).
Proof.
  intros T m. induction m as [t p a simples structs refs IH] using tmodel_ind'. intros x Md Ex.
  inversion Ex as [? ? ? ? ? ? xs ss children Ex1 Ex2 Ex3]; subst.
  inversion Md as [? ? ? ? ? ? tb Mt Mk Mn Mp Ma Mnd Ms Mst Mr]; subst.
  cbn [untyped]. rewrite instance_of_eq. fold (untyped_refs refs). constructor.
  - exact Mp.
  - apply Forall2_length in Ex1. rewrite !map_length, combine_length, <- Ex1. symmetry. apply Nat.min_id.
  - clear - Ex2. induction Ex2 as [|s l structs ss H _ IH]; cbn [map combine]; constructor; [|exact IH]. cbn [fst snd].
    apply Forall2_length in H. rewrite !map_length, combine_length, <- H. symmetry. apply Nat.min_id.
  - clear - IH Ex3 Mr. revert Mr. induction Ex3 as [|[f sub] c refs children H _ IHr]; intros Mr; [constructor|].
    inversion IH as [|? ? I1 I2]; subst. inversion Mr as [|? ? (M1 & _) M2]; subst. cbn [untyped_refs map children_of]. constructor; [|auto].
    cbn [snd] in *. auto.
Qed.

Lemma insert_saves : forall db st m x h id h', serves db st -> made_for (st h) m -> all_exact m x ->
  everywhere names_distinct (untyped m) -> everywhere names_plain (untyped m) ->
  insert db (into_active_model (untyped m) (instance_of m x)) h = (Ok id, h') ->
  saving (st h) m x id (st h') /\ grows (st h) (st h') /\ (keys_differ (st h) -> keys_differ (st h')).
Proof.
  intros db st m x h id h' Sv Md Ex Nd Np E. pose proof (fits_instance _ _ _ Md Ex) as Hf.
  destruct (insert_runs db _ (into_active_ok (untyped m) (instance_of m x) Nd Np) h) as (trace & T1 & T2). rewrite E in T1, T2. cbn [fst snd] in *. subst h'.
  destruct (insert_follows db (into_active_model (untyped m) (instance_of m x)) h) as (trace' & F1 & F2 & F3). rewrite E in F1. cbn [snd] in F1.
  apply app_inv_head in F1. subst trace'. pose proof (evolves_follows db st trace h Sv F2 F3) as Ev.
  destruct (evolves_grows _ _ _ Ev) as (G & K). splits; auto.
  eapply save; eauto. apply whole_model; assumption.
Qed.

Lemma contents_grow : forall T T' m l r x tb tb' before after, contents T m l -> grows T T' -> T (tname m) = Some tb -> T' (tname m) = Some tb' ->
  t_rows tb = before ++ after -> t_rows tb' = before ++ r :: after -> row_is T' m r x -> contents T' m (x :: l).
Proof.
  intros T T' m l r x tb tb' before after (tb0 & rows & E & P & F) G E1 E2 R1 R2 H. unfold tname in *.
  assert (tb0 = tb) by congruence. subst tb0. exists tb', (r :: rows). splits; [exact E2| |].
  - rewrite R2, <- P, R1. symmetry. apply Permutation_middle.
  - constructor; [exact H|]. eapply Forall2_impl; [|exact F]. intros. eapply row_is_grows; eauto.
Qed.

Lemma perm_cell : forall T m l l', contents T m l -> Permutation l l' -> contents T m l'.
Proof.
  intros T m l l' (tb & rows & E & P & F) Q.
  assert (F' : Forall2 (fun x r => row_is T m r x) l rows) by (clear - F; induction F; constructor; auto).
  destruct (Permutation_Forall2 Q F') as (rows' & Q1 & Q2). exists tb, rows'. splits; [exact E|now rewrite P|].
  clear - Q2. induction Q2; constructor; auto.
Qed.

Lemma selected_last : forall (sel : list (str * str)), NoDup sel -> forall row : list value, length row = length sel ->
  Forall2 (fun x v => exists i, is_last_at sel x i /\ nth_error row i = Some v) sel row.
Proof.
  intros sel N row L. apply forall2_same; [exact L|]. intros y v Hin. apply In_nth_error in Hin as (i & Hi). exists i.
  assert (A : nth_error sel i = Some y /\ nth_error row i = Some v).
  { clear - Hi. revert row i Hi. induction sel as [|a sel IH]; intros [|b row] [|i] Hi; try discriminate; cbn [combine nth_error] in *; [|auto].
    injection Hi as -> ->. auto. }
  destruct A as (A & B). split; [|exact B]. split; [exact A|]. intros j Hj E.
  assert (i = j); [|lia]. apply (proj1 (NoDup_nth_error sel) N); [|congruence]. apply nth_error_Some. congruence.
Qed.

Lemma answer_rows : forall T m l rows, made_for T m -> keys_differ T ->
  everywhere names_distinct (untyped m) -> everywhere names_plain (untyped m) -> everywhere has_column (untyped m) ->
  contents T m l -> answers T (build_query (m_table (untyped m)) (model_columns (untyped m))) rows ->
  exists l', Permutation l l' /\ Forall2 (model_row m (selected (m_table (untyped m)) (untyped m))) rows l' /\ Forall (Forall value_ok) rows.
Proof.
  intros T m l rows Md KD Nd Np Hc (tb0 & rows0 & E0 & P0 & F0) (cols & t & js & tb & es & A1 & A2 & A3 & A4).
  rewrite select_text in A1 by assumption. injection A1 as <- <- <-. rewrite E0 in A2. injection A2 as <-.
  destruct (Permutation_Forall2 (Permutation_sym P0) F0) as (l0 & Q1 & Q2).
  set (sel := selected (m_table (untyped m)) (untyped m)) in *.
  set (good := fun e x => exists vs, Forall2 (fun y v => value_in e y = Some v) sel vs /\ row_of m vs x /\ Forall value_ok vs).
  assert (G : Forall2 good (fold_left (join T) (joins (m_table (untyped m)) (untyped m)) (map (fun r => [(m_table (untyped m), r)]) (t_rows tb0))) l0).
  { rewrite joins_each. clear - Q2 Md KD Nd. induction Q2 as [|r x rs l0 H _ IH]; [constructor|]. cbn [map flat_map].
    destruct (select_row T KD m r x (m_table (untyped m)) [(m_table (untyped m), r)] Md Nd H (assoc_head _ _ _ _))
      as (new & vs & J & _ & R & V & S).
    match goal with |- Forall2 good (?a ++ ?b) _ => replace a with [new ++ [(m_table (untyped m), r)]] by (symmetry; exact J) end.
    cbn [app]. constructor; [|exact IH]. exists vs. splits; auto. }
  destruct (Permutation_Forall2 A3 G) as (l' & Q3 & Q4). exists l'. split; [now rewrite Q1|].
  clear - Q4 A4 Nd. revert l' Q4. induction A4 as [|e vs es rows H _ IH]; intros l' Q4; inversion Q4 as [|? x ? l2 (ws & W1 & W2 & W3) Q5]; subst.
  - split; constructor.
  - destruct (IH _ Q5) as (I1 & I2).
    assert (ws = vs). { clear - H W1. revert ws W1. induction H; intros ws W1; inversion W1; subst; [reflexivity|]. f_equal; [congruence|auto]. }
    subst ws. split; constructor; auto. exists vs. split; [|exact W2]. apply selected_last; [now apply selected_nodup|].
    symmetry. eapply Forall2_length. exact H.
Qed.
