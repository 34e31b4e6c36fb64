(** Lemmas about active models in the tables of a server (Spec_Active.v). *)
From Coq Require Import String ZArith List Bool Lia Permutation.
From Verif Require Import Base BaseFacts Types Framing Conversion Spec_Conv Conversion_proofs Models Spec_Model Spec_Mapping Mapping_proofs Model_proofs
  TypedModel Spec_Typed Typed_proofs Spec_Engine Engine_proofs Spec_Active.
Import ListNotations.
Open Scope Z_scope.

Lemma NoDup_app_r : forall A (l1 l2 : list A), NoDup (l1 ++ l2) -> NoDup l2.
Proof. induction l1 as [|a l1 IH]; intros l2 H; [exact H|]. cbn [app] in H. apply NoDup_cons_iff in H as (_ & H). auto. Qed.

(** ** What is set *)
Definition chosen (given : list (str * value)) (n : str) (ty : rust_type) (o : option rust_value) : Prop :=
  match o with
  | Some x => exists v, field_into ty x = Ok v /\ In (n, v) given
  | None => ~ In n (map fst given)
  end.

Lemma chosen_more : forall l l' n ty o, chosen l n ty o -> incl l l' -> (In n (map fst l') -> In n (map fst l)) -> chosen l' n ty o.
Proof. intros l l' n ty [x|] H I N; cbn [chosen] in *; [destruct H as (v & E & H); eauto|auto]. Qed.

Lemma simple_chosen : forall simples xs vs, length xs = length simples ->
  sets (map (fun '(f, o) => (fst f, option_map (field_into (snd f)) o)) (combine simples xs)) vs -> NoDup (map fst simples) ->
  (forall i n ty o, nth_error simples i = Some (n, ty) -> nth_error xs i = Some o -> chosen vs n ty o) /\ incl (map fst vs) (map fst simples).
Proof.
  induction simples as [|[n ty] simples IH]; intros [|o xs] vs L S N; try discriminate.
  - inversion S; subst. split; [intros [|i]; discriminate|apply incl_refl].
  - cbn [map combine fst snd] in *. apply NoDup_cons_iff in N as (N1 & N2). assert (L' : length xs = length simples) by now injection L.
    destruct o as [x|]; cbn [option_map] in S.
    + inversion S as [| |? v ? l S']; subst. destruct (IH xs l L' S' N2) as (A & B). split.
      * intros [|i] n' ty' o' E1 E2; cbn [nth_error] in *.
        -- injection E1 as <- <-. injection E2 as <-. exists v. split; [auto|now left].
        -- eapply chosen_more; [eapply A; eauto|apply incl_tl, incl_refl|]. cbn [map fst]. intros [<-|Hin]; [|exact Hin].
           destruct N1. apply nth_error_In in E1. now apply (in_map fst) in E1.
      * cbn [map fst]. intros y [<-|Hy]; [now left|right; now apply B].
    + inversion S as [|? ? ? S'|]; subst. destruct (IH xs vs L' S' N2) as (A & B). split.
      * intros [|i] n' ty' o' E1 E2; cbn [nth_error] in *; [|eapply A; eauto].
        injection E1 as <- <-. injection E2 as <-. cbn [chosen]. intros Hin. now apply N1, B.
      * now apply incl_tl.
Qed.

Definition struct_chosen (given : list (str * value)) (n : str) (parts : list (str * rust_type)) (o : option (list rust_value)) : Prop :=
  match o with
  | Some l => forall f x, In (f, x) (combine parts l) -> chosen given (n ++ [95] ++ fst f) (snd f) (Some x)
  | None => forall f, In f parts -> chosen given (n ++ [95] ++ fst f) (snd f) None
  end.

Lemma struct_chosen_more : forall l l' n parts o, struct_chosen l n parts o -> incl l l' ->
  (forall f, In f parts -> In (n ++ [95] ++ fst f) (map fst l') -> In (n ++ [95] ++ fst f) (map fst l)) -> struct_chosen l' n parts o.
Proof.
  intros l l' n parts [xs|] H I N; cbn [struct_chosen] in *.
  - intros f x Hf. eapply chosen_more; eauto. apply N. now apply in_combine_l in Hf.
  - intros f Hf. eapply chosen_more; eauto.
Qed.

Lemma parts_chosen : forall n (parts : list (str * rust_type)) l (vs : list (str * value)),
  Forall2 (fun p v => fst p = fst v /\ snd p = Ok (snd v)) (map (fun '(f, v) => (n ++ [95] ++ fst f, field_into (snd f) v)) (combine parts l)) vs ->
  (forall f x, In (f, x) (combine parts l) -> exists v, field_into (snd f) x = Ok v /\ In (n ++ [95] ++ fst f, v) vs) /\
  incl (map fst vs) (map (fun f : str * rust_type => n ++ [95] ++ fst f) parts).
Proof.
  intros n. induction parts as [|g parts IH]; intros [|y l] vs H; cbn [combine map] in H.
  - inversion H; subst. split; [intros f x []|intros z []].
  - inversion H; subst. split; [intros f x []|intros z []].
  - inversion H; subst. split; [intros f x []|intros z []].
  - inversion H as [|? [m v] ? vs' (E1 & E2) H']; subst. cbn [fst snd] in *. destruct (IH l vs' H') as (A & B). split.
    + intros f x [E|Hin].
      * injection E as <- <-. exists v. split; [exact E2|left]. now rewrite <- E1.
      * destruct (A f x Hin) as (w & W1 & W2). exists w. split; [exact W1|now right].
    + cbn [map fst]. intros z [<-|Hz]; [left; exact E1|right; now apply B].
Qed.

Lemma structs_chosen : forall structs ss ws, length ss = length structs ->
  struct_sets (map (fun '(s, o) => option_map (fun l => map (fun '(f, v) => (fst s ++ [95] ++ fst f, field_into (snd f) v)) (combine (snd s) l)) o)
    (combine structs ss)) ws -> NoDup (map fst (struct_columns structs)) ->
  (forall i n parts o, nth_error structs i = Some (n, parts) -> nth_error ss i = Some o -> struct_chosen ws n parts o) /\
  incl (map fst ws) (map fst (struct_columns structs)).
Proof.
  induction structs as [|[n parts] structs IH]; intros [|o ss] ws L S N; try discriminate.
  - inversion S; subst. split; [intros [|i]; discriminate|apply incl_refl].
  - assert (L' : length ss = length structs) by now injection L. unfold struct_columns in *. cbn [flat_map map combine fst snd] in *.
    rewrite map_app, map_map in N. cbn [fst] in N. rewrite map_app, map_map. cbn [fst].
    pose proof (NoDup_app_r _ _ _ N) as N2.
    assert (Later : forall m ps i, nth_error structs i = Some (m, ps) -> forall f, In f ps ->
      In (m ++ [95] ++ fst f) (map fst (flat_map (fun s => map (fun p => (fst s ++ [95] ++ fst p, snd p)) (snd s)) structs))).
    { intros m ps i E f Hf. apply nth_error_In in E. apply in_map_iff. exists (m ++ [95] ++ fst f, snd f). split; [reflexivity|].
      apply in_flat_map. exists (m, ps). split; [exact E|]. cbn [fst snd]. apply (in_map (fun p => (m ++ [95] ++ fst p, snd p))) in Hf. exact Hf. }
    destruct o as [l|]; cbn [option_map] in S.
    + inversion S as [| |? vs ? l' H S']; subst. destruct (parts_chosen _ _ _ _ H) as (P1 & P2). destruct (IH ss l' L' S' N2) as (A & B). split.
      * intros [|i] n' ps o' E1 E2; cbn [nth_error] in *.
        -- injection E1 as <- <-. injection E2 as <-. cbn [struct_chosen chosen]. intros f x Hf. destruct (P1 f x Hf) as (v & V1 & V2).
           exists v. split; [exact V1|apply in_or_app; now left].
        -- eapply struct_chosen_more; [eapply A; eauto|apply incl_appr, incl_refl|]. intros f Hf. rewrite map_app. intros Hin.
           apply in_app_or in Hin as [Hin|Hin]; [|exact Hin]. exfalso. eapply nodup_apart; [exact N|apply P2; exact Hin|eapply Later; eauto].
      * rewrite map_app. apply incl_app; [apply incl_appl; exact P2|apply incl_appr; exact B].
    + inversion S as [|? ? S'|]; subst. destruct (IH ss ws L' S' N2) as (A & B). split.
      * intros [|i] n' ps o' E1 E2; cbn [nth_error] in *; [|eapply A; eauto].
        injection E1 as <- <-. injection E2 as <-. cbn [struct_chosen chosen]. intros f Hf Hin.
        eapply nodup_apart; [exact N| |apply B; exact Hin]. apply (in_map (fun f => n ++ [95] ++ fst f)) in Hf. exact Hf.
      * now apply incl_appr.
Qed.

(** ** Keys *)
Lemma int_of_prim : forall q n, int_range q <> None -> int_of (prim_from q n) = Some n.
Proof. intros [] n H; try reflexivity; contradiction. Qed.

Lemma keeps_same : forall q n, int_range q <> None -> value_ok (prim_from q n) -> keeps (KNum q) (prim_from q n) (prim_from q n).
Proof.
  intros q n H V. destruct q; try contradiction; cbn [prim_from] in *; cbn [value_ok] in V; unfold signed_ok, unsigned_ok in V; cbn in V;
    (eapply keeps_int; [constructor|reflexivity|reflexivity|cbn; lia]).
Qed.

Lemma find_key : forall p (simples : list (str * rust_type)) ty, NoDup (map fst simples) -> In (p, ty) simples ->
  find (fun f => list_eqb (fst f) p) simples = Some (p, ty).
Proof.
  intros p simples ty. induction simples as [|[n t] simples IH]; intros N Hin; [destruct Hin|]. cbn [map fst] in N. apply NoDup_cons_iff in N as (N1 & N2).
  cbn [find fst]. destruct Hin as [E|Hin].
  - injection E as -> ->. now rewrite list_eqb_refl.
  - destruct (list_eqb n p) eqn:E; [|auto]. apply list_eqb_eq in E. subst n. destruct N1. now apply (in_map fst) in Hin.
Qed.

Definition key_prim (m : tmodel) (q : prim) : Prop :=
  match m with TModel _ p _ simples _ _ => NoDup (map fst simples) /\ In (p, TyPrim q) simples /\ int_range q <> None end.

Lemma has_key_prim : forall T m, made_for T m -> integer_keys m -> exists q, key_prim m q.
Proof.
  intros T m Md Ik. inversion Md as [t p a simples structs refs tb Mt Mk Mn Mp Ma Mnd Ms Mst Mr]; subst. inversion Ik as [? ? ? ? ? ? I1 I2]; subst.
  apply in_map_iff in Mp as ([p ty] & E & Hp). cbn [fst] in E. subst p. destruct (I1 ty Hp) as (q & -> & R). exists q. cbn [key_prim].
  splits; auto. eapply NoDup_app_l. exact Mnd.
Qed.

Lemma key_value_prim : forall m q n, key_prim m q -> key_value m (RNum n) = prim_from q n.
Proof.
  intros [t p a simples structs refs] q n (N & H & R). cbn [key_value]. rewrite (find_key p simples (TyPrim q) N H). reflexivity.
Qed.

Lemma forall2_nth : forall A B (P : A -> B -> Prop) l xs, Forall2 P l xs -> forall i a x, nth_error l i = Some a -> nth_error xs i = Some x -> P a x.
Proof. induction 1 as [|a x l xs H _ IH]; intros [|i] b y E1 E2; try discriminate; cbn [nth_error] in *; [congruence|eauto]. Qed.

Lemma forall2_nth_l : forall A B (P : A -> B -> Prop) l xs, Forall2 P l xs -> forall i a, nth_error l i = Some a -> exists x, nth_error xs i = Some x /\ P a x.
Proof. induction 1 as [|a x l xs H _ IH]; intros [|i] b E; try discriminate; cbn [nth_error] in *; [injection E as <-; eauto|eauto]. Qed.

Lemma nodup_nth : forall A (l : list (str * A)) i j n x y, NoDup (map fst l) -> nth_error l i = Some (n, x) -> nth_error l j = Some (n, y) -> i = j.
Proof.
  intros A l i j n x y N E1 E2. apply (proj1 (NoDup_nth_error (map fst l)) N).
  - apply nth_error_Some. rewrite nth_error_map, E1. discriminate.
  - rewrite !nth_error_map, E1, E2. reflexivity.
Qed.

(** The key of a row that is a model. *)
Lemma key_cell : forall T m q r x, key_prim m q -> row_is T m r x ->
  exists n, has_key m x (RNum n) /\ (forall k, has_key m x k -> k = RNum n) /\
    assoc (m_primary (untyped m)) r = Some (prim_from q n) /\ value_ok (prim_from q n).
Proof.
  intros T [t p a simples structs refs] q r x (N & H & R) Hr. inversion Hr as [? ? ? ? ? ? ? xs ss children H1 H2 H3]; subst.
  apply In_nth_error in H as (i & Hi). destruct (forall2_nth_l _ _ _ _ _ H1 i _ Hi) as (y & Hy & v & V1 & V2 & V3). cbn [fst snd] in *.
  inversion V3 as [? ctor ty n P| | | | | | | | |]; subst. exists n. cbn [has_key untyped m_primary].
  rewrite (proj1 (proj1 (prim_exact_spec _ _ _ P) n)). splits; auto.
  - eauto.
  - intros k (j & ty' & J1 & J2). assert (j = i) by (eapply nodup_nth; eauto). subst j. congruence.
Qed.

Definition points (T : tables) (m : tmodel) (k : value) (c : tinstance) : Prop :=
  exists kv tb r, T (tname m) = Some tb /\ In r (t_rows tb) /\ assoc (t_key tb) r = Some kv /\ row_is T m r c /\ key_kept m k kv.

Lemma points_grows : forall T T' m k c, grows T T' -> points T m k c -> points T' m k c.
Proof.
  intros T T' m k c G (kv & tb & r & H1 & H2 & H3 & H4 & H5). destruct (G _ _ H1) as (tb' & G1 & G2 & G3 & G4).
  exists kv, tb', r. rewrite G3. splits; auto. eapply row_is_grows; eauto.
Qed.

Lemma made_key : forall T m tb, made_for T m -> T (tname m) = Some tb -> t_key tb = m_primary (untyped m).
Proof. intros T m tb Md E. inversion Md as [t p a simples structs refs tb' Mt Mk]; subst. rewrite tname_eq in E. cbn [untyped m_primary]. congruence. Qed.

Lemma kept_prim : forall m q n, key_prim m q -> value_ok (prim_from q n) -> key_kept m (prim_from q n) (prim_from q n).
Proof.
  intros [t p a simples structs refs] q n (N & H & R) V ty Hty.
  rewrite (nodup_fst _ _ _ _ _ N Hty H). cbn [kind_of]. now apply keeps_same.
Qed.

Lemma set_points : forall T m k c, made_for T m -> integer_keys m -> refers T m k c -> points T m (key_value m k) c.
Proof.
  intros T m k c Md Ik (Hk & tb & r & E & Hr & Ri). destruct (has_key_prim T m Md Ik) as (q & Q).
  destruct (key_cell T m q r c Q Ri) as (n & K1 & K2 & K3 & K4). rewrite (K2 k Hk), (key_value_prim m q n Q).
  exists (prim_from q n), tb, r. splits; auto.
  - rewrite (made_key T m tb Md E). exact K3.
  - now apply kept_prim.
Qed.

(** ** References *)
Inductive refs_put (R : tmodel -> rust_value -> tinstance -> Prop) (T : tables) (us : list (str * value))
  : list (str * tmodel) -> list tref -> Prop :=
| rp_nil : refs_put R T us [] []
| rp_set : forall f m k c v refs rs, R m k c -> In (f, v) us -> points T m v c -> refs_put R T us refs rs -> refs_put R T us ((f, m) :: refs) (TSet k :: rs)
| rp_insert : forall f m a id c v refs rs, becomes R m None a id c -> In (f, v) us -> points T m v c -> refs_put R T us refs rs ->
    refs_put R T us ((f, m) :: refs) (TInsert a :: rs)
| rp_unset : forall f m refs rs, ~ In f (map fst us) -> refs_put R T us refs rs -> refs_put R T us ((f, m) :: refs) (TUnset :: rs).

Lemma refs_put_more : forall R T T' us us' refs rs, refs_put R T us refs rs -> grows T T' -> incl us us' ->
  (forall f, In f (map fst refs) -> In f (map fst us') -> In f (map fst us)) -> refs_put R T' us' refs rs.
Proof.
  intros R T T' us us' refs rs H G I. induction H as [|f m k c v refs rs H1 H2 H3 _ IH|f m a id c v refs rs H1 H2 H3 _ IH|f m refs rs H1 _ IH]; intros N.
  - constructor.
  - econstructor; eauto; [eapply points_grows; eauto|apply IH; intros g Hg; apply N; now right].
  - econstructor; eauto; [eapply points_grows; eauto|apply IH; intros g Hg; apply N; now right].
  - constructor; [intros Hin; apply H1, N; [now left|exact Hin]|apply IH; intros g Hg; apply N; now right].
Qed.

Fixpoint tref_refs (refs : list (str * tmodel)) (rs : list tref) : list (str * reference) :=
  match refs, rs with
  | (f, sub) :: refs', r :: rs' =>
    (f, match r with TSet k => RSet (key_value sub k) | TInsert a => RInsert (active_of sub a) | TUnset => RUnset end) :: tref_refs refs' rs'
  | _, _ => []
  end.

Lemma active_of_eq : forall t p a simples structs refs xs ss rs,
  active_of (TModel t p a simples structs refs) (TActive xs ss rs) =
  Active t (Some p)
    (map (fun '(f, o) => (fst f, option_map (field_into (snd f)) o)) (combine simples xs))
    (map (fun '(s, o) => option_map (fun l => map (fun '(f, v) => (fst s ++ [95] ++ fst f, field_into (snd f) v)) (combine (snd s) l)) o)
      (combine structs ss))
    (tref_refs refs rs).
Proof. reflexivity. Qed.

Definition putting (T0 T : tables) (m : tmodel) (a : tactive) (id : Z) (T' : tables) : Prop :=
  exists r x tb tb' kv, becomes (refers T0) m None a id x /\ row_is T' m r x /\ T (tname m) = Some tb /\ T' (tname m) = Some tb' /\
    In r (t_rows tb') /\ assoc (t_key tb') r = Some kv /\
    (forall k, key_of (active_of m a) id k -> key_kept m k kv) /\
    (forall t', ~ In t' (tname m :: referred m) -> T' t' = T t') /\
    (~ In (tname m) (referred m) -> exists before after, t_rows tb = before ++ after /\ t_rows tb' = before ++ r :: after).

Lemma put_refs : forall T0 refs, Forall (fun f => forall a trace id T T', inserted (active_of (snd f) a) trace (Ok id) -> proper T0 (snd f) a ->
    made_for T0 (snd f) -> integer_keys (snd f) -> grows T0 T -> evolves T trace T' -> putting T0 T (snd f) a id T') refs ->
  NoDup (map fst refs) -> Forall (fun f => integer_keys (snd f)) refs -> Forall (fun f => made_for T0 (snd f)) refs ->
  forall rs trace us T T1, references (tref_refs refs rs) trace (Ok us) -> Forall2 (fun f r => proper_ref T0 (snd f) r) refs rs ->
  grows T0 T -> evolves T trace T1 ->
  refs_put (refers T0) T1 us refs rs /\ incl (map fst us) (map fst refs) /\ (forall t', ~ In t' (nested_refs refs) -> T1 t' = T t').
Proof.
  intros T0 refs IH. induction IH as [|[f sub] refs Hs _ IHr]; intros N Ik Md rs trace us T T1 Rf Pr G Ev.
  - inversion Pr; subst. cbn in Rf. inversion Rf; subst. inversion Ev; subst. splits; auto; [constructor|apply incl_refl].
  - inversion Pr as [|? r ? rs0 Pr1 Pr2]; subst. inversion Ik as [|? ? Ik1 Ik2]; subst. inversion Md as [|? ? Md1 Md2]; subst.
    cbn [snd fst map] in *. apply NoDup_cons_iff in N as (N1 & N2).
    assert (Fresh : forall us' (v : value), incl (map fst us') (map fst refs) -> forall g, In g (map fst refs) -> In g (map fst ((f, v) :: us')) -> In g (map fst us')).
    { intros us' v I g Hg [E|Hin]; [cbn [fst] in E; subst g; contradiction|exact Hin]. }
    destruct r as [k|a|]; cbn [tref_refs] in Rf.
    + inversion Rf as [| |? ? ? ? us' R'| | |? ? ? ? ? ? _ _ _ _ Bad]; subst; [|exfalso; eapply Bad; reflexivity].
      destruct (IHr N2 Ik2 Md2 rs0 trace us' T T1 R' Pr2 G Ev) as (A & B & C).
      inversion Pr1 as [? ? c Rk| |]; subst. destruct (evolves_grows _ _ _ Ev) as (G1 & _). splits.
      * econstructor; [exact Rk|now left| |].
        -- apply (points_grows T0); [exact (grows_trans _ _ _ G G1)|]. now apply set_points.
        -- eapply refs_put_more; [exact A|apply grows_refl|apply incl_tl, incl_refl|apply Fresh; exact B].
      * cbn [map fst]. intros z [<-|Hz]; [now left|right; now apply B].
      * intros t' Hn. rewrite nested_cons in Hn. apply C. intros X. apply Hn, in_or_app. now right.
    + inversion Rf as [| | |? ? id k ? tr1 tr2 us' S1 K1 R'|? ? e ? ? S1 Bad Q|? ? ? ? ? ? _ _ _ _ Bad]; subst.
      2:{ destruct e; discriminate. }
      2:{ exfalso; eapply Bad; reflexivity. }
      apply evolves_app in Ev as (Tm & Ev1 & Ev2). inversion Pr1 as [|? ? Pa|]; subst.
      destruct (Hs a tr1 id T Tm S1 Pa Md1 Ik1 G Ev1) as (r & x & tb & tb' & kv & A1 & A2 & A3 & A4 & A5 & A6 & A7 & A8 & A9).
      destruct (evolves_grows _ _ _ Ev1) as (G1 & _). destruct (evolves_grows _ _ _ Ev2) as (G2 & _).
      destruct (IHr N2 Ik2 Md2 rs0 tr2 us' Tm T1 R' Pr2 (grows_trans _ _ _ G G1) Ev2) as (A & B & C). splits.
      * econstructor; [exact A1|now left| |].
        -- eapply points_grows; [exact G2|]. exists kv, tb', r. splits; auto.
        -- eapply refs_put_more; [exact A|apply grows_refl|apply incl_tl, incl_refl|apply Fresh; exact B].
      * cbn [map fst]. intros z [<-|Hz]; [now left|right; now apply B].
      * intros t' Hn. rewrite nested_cons in Hn. rewrite C, A8; [reflexivity| |]; intros X; apply Hn; apply in_or_app; auto.
    + inversion Rf as [|? ? ? ? R'| | | |? ? ? tr1 tr2 ? _ _ _ _ Bad]; subst; [|exfalso; eapply Bad; reflexivity].
      destruct (IHr N2 Ik2 Md2 rs0 trace us T T1 R' Pr2 G Ev) as (A & B & C). splits.
      * constructor; [|exact A]. intros Hin. now apply N1, B.
      * now apply incl_tl.
      * intros t' Hn. rewrite nested_cons in Hn. apply C. intros X. apply Hn, in_or_app. now right.
Qed.

Lemma refs_new : forall R T us refs rs, refs_put R T us refs rs -> (forall f m, In (f, m) refs -> ~ In f (map fst us) -> False) ->
  exists cs, ref_becomes R refs (repeat None (length refs)) rs cs /\ Forall2 (fun f c => exists k, In (fst f, k) us /\ points T (snd f) k c) refs cs.
Proof.
  intros R T us refs rs H. induction H as [|f m k c v refs rs H1 H2 H3 _ IH|f m a id c v refs rs H1 H2 H3 _ IH|f m refs rs H1 _ IH]; intros N.
  - exists []. split; constructor.
  - destruct IH as (cs & A & B); [intros g n Hg; apply (N g n); now right|]. exists (c :: cs). cbn [length repeat]. split; [now constructor|].
    constructor; [cbn [fst snd]; eauto|exact B].
  - destruct IH as (cs & A & B); [intros g n Hg; apply (N g n); now right|]. exists (c :: cs). cbn [length repeat]. split; [econstructor; eauto|].
    constructor; [cbn [fst snd]; eauto|exact B].
  - destruct (N f m); [now left|exact H1].
Qed.

Lemma refs_changed : forall R T us refs rs, refs_put R T us refs rs -> forall olds, length olds = length refs ->
  exists cs, ref_becomes R refs (map Some olds) rs cs /\ length cs = length refs /\
    forall i f o c, nth_error refs i = Some f -> nth_error olds i = Some o -> nth_error cs i = Some c ->
      (exists k, In (fst f, k) us /\ points T (snd f) k c) \/ (~ In (fst f) (map fst us) /\ c = o).
Proof.
  intros R T us refs rs H.
  induction H as [|f m k c v refs rs H1 H2 H3 _ IH|f m a id c v refs rs H1 H2 H3 _ IH|f m refs rs H1 _ IH]; intros [|o olds] L; try discriminate.
  - exists []. splits; [constructor|reflexivity|]. intros [|i]; discriminate.
  - destruct (IH olds) as (cs & A & B & C); [now injection L|]. exists (c :: cs). splits; [cbn [map]; now constructor|cbn [length]; congruence|].
    intros [|i] g o' c' E1 E2 E3; cbn [nth_error] in *; [|eauto]. injection E1 as <-. injection E3 as <-. left. cbn [fst snd]. eauto.
  - destruct (IH olds) as (cs & A & B & C); [now injection L|]. exists (c :: cs). splits; [cbn [map]; econstructor; eauto|cbn [length]; congruence|].
    intros [|i] g o' c' E1 E2 E3; cbn [nth_error] in *; [|eauto]. injection E1 as <-. injection E3 as <-. left. cbn [fst snd]. eauto.
  - destruct (IH olds) as (cs & A & B & C); [now injection L|]. exists (o :: cs). splits; [cbn [map]; now constructor|cbn [length]; congruence|].
    intros [|i] g o' c' E1 E2 E3; cbn [nth_error] in *; [|eauto]. injection E1 as <-. injection E2 as <-. injection E3 as <-. right. cbn [fst]. auto.
Qed.

(** ** Rows *)
Lemma choose_nth : forall A B C (P : nat -> A -> B -> C -> Prop) (l : list A) (ys : list B), length ys = length l ->
  (forall i a b, nth_error l i = Some a -> nth_error ys i = Some b -> exists c, P i a b c) ->
  exists cs, length cs = length l /\ forall i a b c, nth_error l i = Some a -> nth_error ys i = Some b -> nth_error cs i = Some c -> P i a b c.
Proof.
  intros A B C P l. revert P. induction l as [|a l IH]; intros P [|b ys] L H; try discriminate.
  - exists []. split; [reflexivity|]. intros [|i]; discriminate.
  - destruct (H 0%nat a b eq_refl eq_refl) as (c & Hc).
    destruct (IH (fun i => P (S i)) ys) as (cs & L2 & Hcs); [now injection L|intros i a' b' E1 E2; exact (H (S i) a' b' E1 E2)|].
    exists (c :: cs). split; [cbn [length]; congruence|].
    intros [|i] a' b' c' E1 E2 E3; cbn [nth_error] in *; [congruence|eauto].
Qed.

Lemma nth_forall2 : forall A C (P : A -> C -> Prop) (l : list A) (cs : list C), length cs = length l ->
  (forall i a c, nth_error l i = Some a -> nth_error cs i = Some c -> P a c) -> Forall2 P l cs.
Proof.
  induction l as [|a l IH]; intros [|c cs] L H; try discriminate; constructor; [exact (H 0%nat a c eq_refl eq_refl)|].
  apply IH; [now injection L|]. intros i a' c' E1 E2. exact (H (S i) a' c' E1 E2).
Qed.

Lemma nth_same : forall A B (l : list A) (ys : list B) i a, length ys = length l -> nth_error l i = Some a -> exists b, nth_error ys i = Some b.
Proof.
  intros A B l ys i a L E. destruct (nth_error ys i) as [b|] eqn:F; [eauto|]. apply nth_error_None in F.
  assert (nth_error l i <> None) by congruence. apply nth_error_Some in H. lia.
Qed.

Definition cell_reads (r : row) (n : str) (ty : rust_type) (x : rust_value) : Prop := exists v, assoc n r = Some v /\ value_ok v /\ reads ty v x.

Lemma row_becomes : forall R T t p a simples structs refs old gx gs gr id r children,
  length gx = length simples ->
  (forall i n ty g, nth_error simples i = Some (n, ty) -> nth_error gx i = Some g ->
     exists x, field_becomes (old_simple old i) g (if a && list_eqb n p then Some id else None) x /\ cell_reads r n ty x) ->
  length gs = length structs ->
  (forall i n parts g, nth_error structs i = Some (n, parts) -> nth_error gs i = Some g ->
     exists l, struct_becomes (old_struct old i) g parts l /\ Forall2 (fun f x => cell_reads r (n ++ [95] ++ fst f) (snd f) x) parts l) ->
  ref_becomes R refs (old_children old (length refs)) gr children ->
  Forall2 (fun f c => exists k tb r', assoc (fst f) r = Some k /\ T (tname (snd f)) = Some tb /\
      In r' (t_rows tb) /\ assoc (t_key tb) r' = Some k /\ row_is T (snd f) r' c) refs children ->
  exists x, becomes R (TModel t p a simples structs refs) old (TActive gx gs gr) id x /\ row_is T (TModel t p a simples structs refs) r x.
Proof.
  intros R T t p a simples structs refs old gx gs gr id r children L1 H1 L2 H2 Rb Rr.
  destruct (choose_nth _ _ _ (fun i (f : str * rust_type) g x => field_becomes (old_simple old i) g (if a && list_eqb (fst f) p then Some id else None) x /\
    cell_reads r (fst f) (snd f) x) simples gx L1) as (xs & Lx & Hx); [intros i [n ty] g E1 E2; exact (H1 i n ty g E1 E2)|].
  destruct (choose_nth _ _ _ (fun i (s : str * list (str * rust_type)) g l => struct_becomes (old_struct old i) g (snd s) l /\
    Forall2 (fun f x => cell_reads r (fst s ++ [95] ++ fst f) (snd f) x) (snd s) l) structs gs L2) as (ss & Ls & Hs);
    [intros i [n parts] g E1 E2; exact (H2 i n parts g E1 E2)|].
  exists (TInstance xs ss children). split.
  - constructor; auto.
    + intros i n ty g x E1 E2 E3. exact (proj1 (Hx i (n, ty) g x E1 E2 E3)).
    + intros i n parts g l E1 E2 E3. exact (proj1 (Hs i (n, parts) g l E1 E2 E3)).
  - constructor; [| |exact Rr].
    + apply nth_forall2; [exact Lx|]. intros i f x E1 E3. destruct (nth_same _ _ _ _ _ _ L1 E1) as (g & E2). exact (proj2 (Hx i f g x E1 E2 E3)).
    + apply nth_forall2; [exact Ls|]. intros i s l E1 E3. destruct (nth_same _ _ _ _ _ _ L2 E1) as (g & E2). exact (proj2 (Hs i s g l E1 E2 E3)).
Qed.

Lemma keeps_default : forall ty w, keeps (kind_of ty) VNull w -> reads ty w RNone /\ value_ok w.
Proof.
  intros ty w K. destruct ty; cbn [kind_of] in K; inversion K; subst; try discriminate.
  - split; [constructor|exact I].
  - contradiction.
Qed.

Lemma auto_set : forall q x v, exact (TyPrim q) x -> x <> RNum 0 -> field_into (TyPrim q) x = Ok v -> v = VNull \/ int_of v = Some 0 -> False.
Proof.
  intros q x v Ex N E H. inversion Ex as [? ctor ty n P V| | | | | | | |]; subst. cbn [field_into] in E. injection E as <-.
  destruct q; cbn [prim_from int_of] in H; destruct H as [H|H]; try discriminate; injection H as ->; now apply N.
Qed.

(** A field of a new row. *)
Lemma cell_field : forall given id n ty auto w o, NoDup (map fst given) -> new_cell given id (mkDef n (kind_of ty) auto) (n, w) ->
  chosen given n ty o -> (forall x, o = Some x -> exact ty x /\ (auto = true -> x <> RNum 0)) -> (auto = true -> exists q, ty = TyPrim q) ->
  exists x, field_becomes None o (if auto then Some id else None) x /\ value_ok w /\ reads ty w x.
Proof.
  intros given id n ty auto w [x|] N C Ch Ex Ha; cbn [chosen field_becomes] in *.
  - destruct Ch as (v & V1 & V2). destruct (Ex x eq_refl) as (Ex1 & Ex2).
    inversion C as [v' w' Hv' _ K|w' A As K|w' A Nn K]; subst; cbn [d_name d_kind d_auto] in *.
    + rewrite (nodup_fst _ _ _ _ _ N Hv' V2) in K. destruct (exact_kept _ _ Ex1 _ _ V1 K). eauto.
    + subst auto. destruct (Ha eq_refl) as (q & ->). destruct (auto_set q x v Ex1 (Ex2 eq_refl) V1 (As v V2)).
    + destruct Nn. now apply (in_map fst) in V2.
  - inversion C as [v' w' Hv' _ K|w' A As K|w' A Nn K]; subst; cbn [d_name d_kind d_auto] in *.
    + destruct Ch. now apply (in_map fst) in Hv'.
    + subst auto. destruct (Ha eq_refl) as (q & ->). cbn [kind_of] in K. apply keeps_assigned in K as (K1 & K2). eauto.
    + subst auto. apply keeps_default in K as (K1 & K2). eauto.
Qed.

Lemma key_kind : forall T m, made_for T m -> integer_keys m -> forall k, ~ key_kept m VNull k.
Proof.
  intros T m Md Ik k H. destruct (has_key_prim T m Md Ik) as (q & Q). destruct m as [t p a simples structs refs]. destruct Q as (N & Hp & R).
  specialize (H _ Hp). cbn [kind_of] in H. inversion H; subst. discriminate.
Qed.

Lemma put : forall T0 m a trace id T T', inserted (active_of m a) trace (Ok id) -> proper T0 m a -> made_for T0 m -> integer_keys m ->
  grows T0 T -> evolves T trace T' -> putting T0 T m a id T'.
Proof.
  intros T0. induction m as [t p au simples structs refs IH] using tmodel_ind'. intros a trace id T T' In_ Pr Md Ik G Ev.
  pose proof (made_grows _ _ _ G Md) as MdT.
  inversion Pr as [? ? ? ? ? ? xs ss rs Pr1 Pr2 Pr3]; subst. rewrite active_of_eq in In_.
  inversion In_ as [? ? ? ? ? vs ws us tr s ? S1 S2 S3 S4 S5|? ? ? ? ? ? U|? ? ? ? ? ? e Rf Bad]; subst; [|elim (unconverted_not_ok _ _ _ U id eq_refl)|destruct e; discriminate].
  inversion Md as [? ? ? ? ? ? tb0 Mt0 Mk0 Mn0 Mp Ma Mnd Ms0 Mst0 Mr]; subst.
  inversion MdT as [? ? ? ? ? ? tb Mt Mk Mn _ _ _ Ms Mst MrT]; subst.
  inversion Ik as [? ? ? ? ? ? Ik1 Ik2]; subst.
  set (p := t_key tb0) in *.
  apply evolves_app in Ev as (T1 & Ev1 & Ev2).
  assert (Nr : NoDup (map fst refs)) by (apply NoDup_app_r in Mnd; apply NoDup_app_r in Mnd; exact Mnd).
  destruct (put_refs T0 refs IH Nr Ik2) with (rs := rs) (trace := tr) (us := us) (T := T) (T1 := T1) as (B1 & B2 & B3); auto.
  { eapply Forall_impl; [|exact Mr]. intros f (H & _). exact H. }
  destruct s as [[text params] res]. cbn [snd] in S5. subst res. destruct S4 as (P1 & P2).
  assert (X : executes T1 text params T' id).
  { inversion Ev2 as [|? T2 ? ? ? ? ? Xi X Ev3|? ? ? ? ? ? ? Bad]; subst; [|exfalso; eapply Bad; reflexivity]. inversion Ev3; subst. exact X. }
  assert (Xi : is_insert (text, params, Ok id)).
  { inversion Ev2 as [|? T2 ? ? ? ? ? Xi _ Ev3|? ? ? ? ? ? ? Bad]; subst; [exact Xi|exfalso; eapply Bad; reflexivity]. }
  destruct (evolves_grows _ _ _ Ev1) as (G1 & _). pose proof (executes_grows _ _ _ _ _ Xi X) as G2.
  inversion X as [? ? ? t' names tb1 before after r key ? ? Q1 Q2 Q3 Q4 Q5 Q6 Q7 Q8 Q9 Q10 Q11 Q12|? ? ? ? ? ? ? ? ? ? ? P]; subst T2 text0 T'0 id0;
    [subst params0|destruct Xi as (rest & Hi); cbn [fst] in Hi; rewrite (not_update _ rest Hi) in P; discriminate].
  rewrite P1 in Q1. injection Q1 as Et En. subst t' names.
  destruct (G1 t tb Mt) as (tb1' & F1 & F2 & F3 & F4). rewrite Q4 in F1. injection F1 as <-.
  set (given := vs ++ ws ++ us) in *.
  assert (Eg : combine (map fst given) params = given) by (rewrite P2; apply combine_split).
  assert (Q6' : Forall2 (new_cell given id) (t_cols tb) r) by (rewrite <- Eg, <- F2; exact Q6).
  pose proof (cells _ _ _ _ Q6' Mn) as Cell.
  (* what is given *)
  assert (L1 : length xs = length simples) by (symmetry; eapply Forall2_length; exact Pr1).
  assert (L2 : length ss = length structs) by (symmetry; eapply Forall2_length; exact Pr2).
  destruct (simple_chosen simples xs vs L1 S1 (NoDup_app_l _ _ _ Mnd)) as (C1 & I1).
  destruct (structs_chosen structs ss ws L2 S2 (NoDup_app_l _ _ _ (NoDup_app_r _ _ _ Mnd))) as (C2 & I2).
  assert (Gn : forall n, In n (map fst given) -> In n (map fst vs) \/ In n (map fst ws) \/ In n (map fst us)).
  { intros n. unfold given. rewrite !map_app, !in_app_iff. auto. }
  assert (Simple : forall i n ty g, nth_error simples i = Some (n, ty) -> nth_error xs i = Some g ->
     exists x, field_becomes (old_simple None i) g (if au && list_eqb n p then Some id else None) x /\ cell_reads r n ty x).
  { intros i n ty g E1 E2. pose proof (nth_error_In _ _ E1) as Hf. destruct (Ms n ty Hf) as (auto & D1 & D2).
    assert (Eauto : au && list_eqb n p = auto).
    { destruct auto.
      - destruct (proj1 D2 eq_refl) as (-> & ->). now rewrite list_eqb_refl.
      - destruct (au && list_eqb n p) eqn:Ea; [|reflexivity]. apply andb_true_iff in Ea as (A1 & A2). apply list_eqb_eq in A2.
        destruct (proj2 D2); [|reflexivity]. split; [exact A1|]. rewrite A2. reflexivity. }
    destruct (Cell _ D1) as (w & W1 & W2). cbn [d_name] in *.
    pose proof (forall2_nth _ _ _ _ _ Pr1 i _ _ E1 E2) as Ex. cbn [fst snd] in Ex.
    destruct (cell_field given id n ty auto w g Q3 W2) as (x & X1 & X2 & X3).
    - eapply chosen_more; [eapply C1; eauto|apply incl_appl, incl_refl|]. intros Hin. apply Gn in Hin as [Hin|[Hin|Hin]]; [exact Hin|exfalso..].
      + apply (nodup_apart _ _ _ Mnd n); [now apply (in_map fst) in Hf|apply in_or_app; left; now apply I2].
      + apply (nodup_apart _ _ _ Mnd n); [now apply (in_map fst) in Hf|apply in_or_app; right; now apply B2].
    - intros x ->. destruct (Ex x eq_refl) as (Ex1 & Ex2). split; [exact Ex1|]. intros ->. apply andb_true_iff in Eauto as (A1 & A2).
      apply list_eqb_eq in A2. auto.
    - intros ->. apply andb_true_iff in Eauto as (A1 & A2). apply list_eqb_eq in A2. destruct (Ma A1) as (q & Hq). exists q.
      subst n. eapply nodup_fst; [exact (NoDup_app_l _ _ _ Mnd)|exact Hf|exact Hq].
    - rewrite Eauto. exists x. split; [exact X1|]. exists w. auto. }
  assert (Part : forall i n parts g, nth_error structs i = Some (n, parts) -> nth_error ss i = Some g ->
     exists l, struct_becomes (old_struct None i) g parts l /\ Forall2 (fun f x => cell_reads r (n ++ [95] ++ fst f) (snd f) x) parts l).
  { intros i n parts g E1 E2. pose proof (nth_error_In _ _ E1) as Hs.
    assert (Col : forall f, In f parts -> In (n ++ [95] ++ fst f, snd f) (struct_columns structs)).
    { intros f Hf. unfold struct_columns. apply in_flat_map. exists (n, parts). split; [exact Hs|]. cbn [fst snd].
      apply (in_map (fun p => (n ++ [95] ++ fst p, snd p))) in Hf. exact Hf. }
    assert (Ch : struct_chosen given n parts g).
    { eapply struct_chosen_more; [eapply C2; eauto|unfold given; apply incl_appr, incl_appl, incl_refl|]. intros f Hf Hin.
      apply Gn in Hin as [Hin|[Hin|Hin]]; [exfalso|exact Hin|exfalso].
      - apply (nodup_apart _ _ _ Mnd (n ++ [95] ++ fst f)); [now apply I1|apply in_or_app; left; exact (in_map fst _ _ (Col f Hf))].
      - apply (nodup_apart _ _ _ (NoDup_app_r _ _ _ Mnd) (n ++ [95] ++ fst f)); [exact (in_map fst _ _ (Col f Hf))|now apply B2]. }
    pose proof (forall2_nth _ _ _ _ _ Pr2 i _ _ E1 E2) as Ex. cbn [snd] in Ex.
    assert (One : forall f o, In f parts -> chosen given (n ++ [95] ++ fst f) (snd f) o -> (forall x, o = Some x -> exact (snd f) x) ->
      exists x, field_becomes None o None x /\ cell_reads r (n ++ [95] ++ fst f) (snd f) x).
    { intros f o Hf Hc Hx. destruct (Cell _ (Mst _ _ (Col f Hf))) as (w & W1 & W2). cbn [d_name] in *.
      destruct (cell_field given id (n ++ [95] ++ fst f) (snd f) false w o Q3 W2 Hc) as (x & X1 & X2 & X3); [|discriminate|].
      - intros x ->. split; [auto|discriminate].
      - exists x. split; [exact X1|]. exists w. auto. }
    destruct g as [l|]; cbn [struct_chosen] in Ch.
    - exists l. split; [reflexivity|]. specialize (Ex l eq_refl). apply forall2_same; [symmetry; eapply Forall2_length; exact Ex|].
      intros f x Hin. destruct (One f (Some x) (in_combine_l _ _ _ _ Hin) (Ch f x Hin)) as (y & Y1 & Y2).
      + intros y E. injection E as <-. exact (forall2_combine _ _ _ _ _ Ex _ _ Hin).
      + cbn [field_becomes] in Y1. now subst y.
    - exists (map (fun _ => RNone) parts). split; [reflexivity|]. apply nth_forall2; [apply map_length|]. intros j f x J1 J2.
      rewrite nth_error_map in J2. destruct (nth_error parts j); [|discriminate]. injection J2 as <-. apply nth_error_In in J1.
      destruct (One f None J1 (Ch f J1)) as (y & Y1 & Y2); [discriminate|]. cbn [field_becomes] in Y1. now subst y. }
  assert (Rcell : forall f sub, In (f, sub) refs -> exists w, assoc f r = Some w /\
    (forall k, In (f, k) us -> key_kept sub k w) /\ (~ In f (map fst us) -> key_kept sub VNull w)).
  { intros f sub Hf. rewrite Forall_forall in MrT. destruct (MrT _ Hf) as (M1 & M2). cbn [fst snd] in *.
    destruct (has_key_prim T sub M1) as (q & Qk). { rewrite Forall_forall in Ik2. exact (Ik2 _ Hf). }
    destruct sub as [t2 p2 a2 subs structs2 refs2]. destruct Qk as (N2 & Hp2 & R2). pose proof (M2 _ Hp2) as D.
    destruct (Cell _ D) as (w & W1 & W2). cbn [d_name] in *. exists w. split; [exact W1|]. split.
    - intros k Hk ty Hty. rewrite (nodup_fst _ _ _ _ _ N2 Hty Hp2).
      apply (cell_of_given given id (mkDef f (kind_of (TyPrim q)) false) k w Q3 eq_refl); [|exact W2]. cbn [d_name].
      unfold given. apply in_or_app. right. apply in_or_app. now right.
    - intros Hn ty Hty. rewrite (nodup_fst _ _ _ _ _ N2 Hty Hp2).
      inversion W2 as [v' w' Hv' _ K|w' A As K|w' A Nn K]; subst; cbn [d_name d_kind d_auto] in *; [|discriminate|exact K].
      apply (in_map fst) in Hv'. cbn [fst] in Hv'. exfalso. apply (in_map fst) in Hf. cbn [fst] in Hf. apply Gn in Hv' as [Hin|[Hin|Hin]].
      + apply (nodup_apart _ _ _ Mnd f); [now apply I1|apply in_or_app; now right].
      + apply (nodup_apart _ _ _ (NoDup_app_r _ _ _ Mnd) f); [now apply I2|exact Hf].
      + contradiction. }
  destruct (refs_new _ _ _ _ _ B1) as (children & Cb & Cp).
  { intros f sub Hf Hn. destruct (Rcell f sub Hf) as (w & _ & _ & W). rewrite Forall_forall in MrT, Ik2. destruct (MrT _ Hf) as (M1 & _).
    exact (key_kind T sub M1 (Ik2 _ Hf) w (W Hn)). }
  destruct (row_becomes (refers T0) T' t p au simples structs refs None xs ss rs id r children L1 Simple L2 Part Cb) as (x & Bx & Rx).
  { apply forall2_same; [symmetry; eapply Forall2_length; exact Cp|]. intros [f sub] c Hin.
    pose proof (forall2_combine _ _ _ _ _ Cp _ _ Hin) as (k & K1 & kv & tb2 & r' & K2 & K3 & K4 & K5 & K6). cbn [fst snd] in *.
    pose proof (in_combine_l _ _ _ _ Hin) as Hf. destruct (Rcell f sub Hf) as (w & W1 & W2 & _).
    destruct (G2 _ _ K2) as (tb3 & H1 & H2 & H3 & H4).
    exists kv, tb3, r'. splits; [|exact H1|now apply H4|now rewrite H3|eapply row_is_grows; eauto].
    rewrite W1. f_equal. specialize (W2 k K1). rewrite Forall_forall in MrT, Ik2. destruct (MrT _ Hf) as (M1 & _).
    destruct (has_key_prim T sub M1 (Ik2 _ Hf)) as (q & Qk). destruct sub as [t2 p2 a2 subs structs2 refs2]. destruct Qk as (_ & Hp2 & _).
    exact (keeps_fun _ _ _ (W2 _ Hp2) _ (K6 _ Hp2)). }
  exists r, x, tb, (mkTable (t_cols tb1) (t_key tb1) (before ++ r :: after)), key. rewrite tname_eq. cbn [t_key t_rows]. splits; auto.
  - apply in_or_app. right. now left.
  - intros k Hk ty Hty. rewrite F3, Mk in Q7. fold p in Q7.
    destruct (has_key_prim _ _ Md Ik) as (q & _ & Hq & Rq). cbn [key_prim] in *. fold p in Hq.
    assert (ty = TyPrim q) as -> by (eapply nodup_fst; [exact (NoDup_app_l _ _ _ Mnd)|exact Hty|exact Hq]). clear Hty.
    destruct (Ms p (TyPrim q) Hq) as (auto & D1 & D2). destruct (Cell _ D1) as (w & W1 & W2). cbn [d_name] in *.
    assert (w = key) as -> by congruence.
    apply In_nth_error in Hq as (i & Hi). destruct (nth_same _ _ _ _ _ _ L1 Hi) as (g & Hg).
    assert (Items : forall o, In (p, o) (map (fun '(f, o) => (fst f, option_map (field_into (snd f)) o)) (combine simples xs)) ->
      o = option_map (field_into (TyPrim q)) g).
    { intros o Ho. apply in_map_iff in Ho as ([[n ty] g'] & E & Hin). cbn [fst snd] in E. injection E as En <-. subst n.
      apply In_nth_error in Hin as (j & Hj). assert (J : nth_error simples j = Some (p, ty) /\ nth_error xs j = Some g').
      { clear - Hj. revert xs j Hj. induction simples as [|b l IH]; intros [|y ys] [|j] Hj; try discriminate; cbn [combine nth_error] in *; [|auto].
        injection Hj as -> ->. auto. }
      destruct J as (J1 & J2). assert (j = i) by (eapply nodup_nth; [exact (NoDup_app_l _ _ _ Mnd)|exact J1|exact Hi]). subst j. congruence. }
    assert (Ch : chosen given p (TyPrim q) g).
    { eapply chosen_more; [eapply C1; eauto|apply incl_appl, incl_refl|]. intros Hin. apply Gn in Hin as [Hin|[Hin|Hin]]; [exact Hin|exfalso..].
      + apply (nodup_apart _ _ _ Mnd p Mp). apply in_or_app; left; now apply I2.
      + apply (nodup_apart _ _ _ Mnd p Mp). apply in_or_app; right; now apply B2. }
    pose proof (forall2_nth _ _ _ _ _ Pr1 i _ _ Hi Hg) as Ex. cbn [fst snd] in Ex.
    rewrite active_of_eq in Hk. inversion Hk as [? p' ? ? ? v ? Hin|? p' ? ? ? ? Nn]; subst.
    + apply Items in Hin. destruct g as [y|]; [|discriminate]. cbn [option_map] in Hin.
      cbn [chosen] in Ch. destruct Ch as (v & V1 & V2). assert (k = v) as -> by congruence. destruct (Ex y eq_refl) as (Ex1 & Ex2).
      inversion W2 as [v' w' Hv' _ K|w' A As K|w' A Nn K]; subst; cbn [d_name d_kind d_auto] in *.
      * rewrite (nodup_fst _ _ _ _ _ Q3 V2 Hv'). exact K.
      * subst auto. destruct (proj1 D2 eq_refl) as (A1 & _). destruct (auto_set q y v Ex1 (Ex2 A1 eq_refl) V1 (As v V2)).
      * destruct Nn. now apply (in_map fst) in V2.
    + destruct g as [y|]; cbn [chosen] in Ch.
      * destruct Ch as (v & V1 & V2). destruct (Nn p eq_refl v). apply in_map_iff. exists ((p, TyPrim q), Some y). split.
        -- cbn [fst snd option_map]. now rewrite V1.
        -- apply nth_error_In with (n := i). apply (nth_error_combine _ _ _ _ _ _ _ Hi Hg).
      * inversion W2 as [v' w' Hv' _ K|w' A As K|w' A Nn' K]; subst; cbn [d_name d_kind d_auto] in *.
        -- destruct Ch. now apply (in_map fst) in Hv'.
        -- exact K.
        -- cbn [kind_of] in K. inversion K; subst. discriminate.
  - intros t' Hn. change (referred (TModel t p au simples structs refs)) with (nested_refs refs) in Hn.
    rewrite Q12 by (intros ->; apply Hn; now left). apply B3. intros Hx. apply Hn. now right.
  - intros Hn. exists before, after. split; [|reflexivity]. rewrite (B3 t Hn) in Q4. rewrite Mt in Q4. injection Q4 as <-. exact Q9.
Qed.

(** ** Whole inserts *)
Lemma active_of_ok : forall m a, everywhere names_distinct (untyped m) -> everywhere names_plain (untyped m) -> active_ok (active_of m a).
Proof.
  induction m as [t p au simples structs refs IH] using tmodel_ind'. intros [xs ss rs] Nd Np. rewrite active_of_eq.
  cbn [untyped] in Nd, Np. apply everywhere_inv in Nd as ((Nd1 & Nd2 & Nd3) & Nd4). apply everywhere_inv in Np as ((Np1 & Np2 & Np3 & Np4) & Np5).
  rewrite columns_typed in Nd1, Np3. apply Forall_app in Np3 as (Np3 & Np6).
  assert (Names : forall n o, In (n, o) (map (fun '(f, o) => (fst f, option_map (field_into (snd f)) o)) (combine simples xs)) -> In n (map fst simples)).
  { intros n o Hin. apply in_map_iff in Hin as ([f g] & E & Hin). injection E as <- _. apply in_combine_l in Hin. now apply in_map. }
  constructor.
  - exact Np1.
  - apply NoDup_app_l in Nd1. clear - Nd1. revert xs. induction simples as [|f simples IH]; intros [|o xs]; cbn [combine map fst]; try constructor.
    + cbn [map] in Nd1. apply NoDup_cons_iff in Nd1 as (N1 & _). intros Hin. apply N1. apply in_map_iff in Hin as (y & <- & Hin).
      apply in_map_iff in Hin as ([g o'] & <- & Hin). apply in_combine_l in Hin. cbn [fst]. now apply in_map.
    + apply IH. cbn [map] in Nd1. now apply NoDup_cons_iff in Nd1 as (_ & N2).
  - apply Forall_forall. intros [n o] Hin. cbn [fst]. rewrite Forall_forall in Np3. apply Np3. eapply Names; eauto.
  - apply Forall_forall. intros o Hin l ->. apply in_map_iff in Hin as ([s o] & E & Hin). destruct o as [xs'|]; [|discriminate].
    cbn [option_map] in E. injection E as <-. apply in_combine_l in Hin. apply Forall_forall. intros y Hy.
    apply in_map_iff in Hy as ([f v] & <- & Hf). apply in_combine_l in Hf. cbn [fst].
    rewrite Forall_forall in Np6. apply Np6. apply in_map_iff. exists (fst s ++ [95] ++ fst f, snd f). split; [reflexivity|].
    unfold struct_columns. apply in_flat_map. exists s. split; [exact Hin|]. apply (in_map (fun p => (fst s ++ [95] ++ fst p, snd p))) in Hf. exact Hf.
  - clear - IH Nd4 Np4 Np5. revert rs. induction refs as [|[f sub] refs IHr]; intros [|r rs]; cbn [tref_refs]; try constructor.
    + cbn [map] in *. inversion IH; inversion Nd4; inversion Np5; inversion Np4; subst. cbn [fst snd] in *. split; [assumption|].
      intros a E. destruct r; try discriminate. injection E as <-. auto.
    + cbn [map] in *. inversion IH; inversion Nd4; inversion Np5; inversion Np4; subst. apply IHr; assumption.
Qed.

Lemma insert_puts : forall db st m a h id h', serves db st -> made_for (st h) m -> integer_keys m -> proper (st h) m a ->
  everywhere names_distinct (untyped m) -> everywhere names_plain (untyped m) ->
  insert db (active_of m a) h = (Ok id, h') ->
  putting (st h) (st h) m a id (st h') /\ grows (st h) (st h') /\ (keys_differ (st h) -> keys_differ (st h')).
Proof.
  intros db st m a h id h' Sv Md Ik Pr Nd Np E.
  destruct (insert_runs db _ (active_of_ok m a Nd Np) h) as (trace & T1 & T2). rewrite E in T1, T2. cbn [fst snd] in *. subst h'.
  destruct (insert_follows db (active_of m a) h) as (trace' & F1 & F2 & F3). rewrite E in F1. cbn [snd] in F1.
  apply app_inv_head in F1. subst trace'. pose proof (evolves_follows db st trace h Sv F2 F3) as Ev.
  destruct (evolves_grows _ _ _ Ev) as (G & K). splits; auto. eapply put; eauto. apply grows_refl.
Qed.

(** ** Updates *)
Lemma row_is_frame : forall T T' m, (forall t, In t (referred m) -> T' t = T t) -> forall r x, row_is T m r x -> row_is T' m r x.
Proof.
  intros T T' m. induction m as [t p a simples structs refs IH] using tmodel_ind'. intros F r x H.
  inversion H as [? ? ? ? ? ? ? xs ss children H1 H2 H3]; subst. constructor; [exact H1|exact H2|].
  change (referred (TModel t p a simples structs refs)) with (nested_refs refs) in F. clear H H1 H2.
  revert F. induction H3 as [|[f sub] c refs children (k & tb & r' & E1 & E2 & E3 & E4 & E5) _ IHr]; intros F; constructor; inversion IH as [|? ? I1 I2]; subst.
  - cbn [fst snd] in *. exists k, tb, r'. splits; auto.
    + rewrite F; [exact E2|]. rewrite nested_cons. now left.
    + apply I1; [|exact E5]. intros t' Ht. apply F. rewrite nested_cons. apply in_or_app. left. now right.
  - apply IHr; [exact I2|]. intros t' Ht. apply F. rewrite nested_cons. apply in_or_app. now right.
Qed.

Lemma assoc_given : forall (given : list (str * value)) n v, NoDup (map fst given) -> In (n, v) given -> assoc n given = Some v.
Proof.
  induction given as [|[m w] given IH]; intros n v N Hin; [destruct Hin|]. cbn [map fst] in N. apply NoDup_cons_iff in N as (N1 & N2). cbn [assoc].
  destruct Hin as [E|Hin].
  - injection E as -> ->. destruct (list_eq_dec Z.eq_dec n n); [reflexivity|contradiction].
  - destruct (list_eq_dec Z.eq_dec n m) as [->|_]; [|auto]. destruct N1. now apply (in_map fst) in Hin.
Qed.

Lemma assoc_missing : forall (given : list (str * value)) n, ~ In n (map fst given) -> assoc n given = None.
Proof.
  induction given as [|[m w] given IH]; intros n N; [reflexivity|]. cbn [assoc]. destruct (list_eq_dec Z.eq_dec n m) as [->|_]; [destruct N; now left|].
  apply IH. intros X. apply N. now right.
Qed.

Lemma one_def : forall cols d d', NoDup (map d_name cols) -> In d cols -> In d' cols -> d_name d = d_name d' -> d = d'.
Proof.
  induction cols as [|c cols IH]; intros d d' N H H' E; [destruct H|]. cbn [map] in N. apply NoDup_cons_iff in N as (N1 & N2).
  destruct H as [->|H], H' as [->|H']; auto.
  - destruct N1. rewrite E. now apply in_map.
  - destruct N1. rewrite <- E. now apply in_map.
Qed.

Lemma set_given : forall cols given o o' n k auto v, NoDup (map d_name cols) -> set_cells cols given o o' -> NoDup (map fst given) ->
  In (mkDef n k auto) cols -> In (n, v) given -> exists w, assoc n o' = Some w /\ keeps k v w.
Proof.
  intros cols given o o' n k auto v Nc S N D Hin. specialize (S n). rewrite (assoc_given _ _ _ N Hin) in S. destruct S as (d & w & S1 & S2 & S3 & S4).
  assert (d = mkDef n k auto) by (eapply one_def; eauto). subst d. eauto.
Qed.

Lemma set_other : forall cols given o o' n, set_cells cols given o o' -> ~ In n (map fst given) -> assoc n o' = assoc n o.
Proof. intros cols given o o' n S N. specialize (S n). rewrite (assoc_missing _ _ N) in S. exact S. Qed.

(** A field of a changed row. *)
Lemma changed_field : forall cols given o o' n ty auto g y, NoDup (map d_name cols) -> set_cells cols given o o' -> NoDup (map fst given) ->
  In (mkDef n (kind_of ty) auto) cols -> chosen given n ty g -> (forall x, g = Some x -> exact ty x) -> cell_reads o n ty y ->
  cell_reads o' n ty (match g with Some x => x | None => y end).
Proof.
  intros cols given o o' n ty auto [x|] y Nc S N D Ch Ex Cy; cbn [chosen] in Ch.
  - destruct Ch as (v & V1 & V2). destruct (set_given _ _ _ _ _ _ _ _ Nc S N D V2) as (w & W1 & W2).
    destruct (exact_kept _ _ (Ex x eq_refl) _ _ V1 W2). exists w. auto.
  - destruct Cy as (v & V1 & V2). exists v. rewrite (set_other _ _ _ _ _ S Ch). auto.
Qed.

Lemma row_changes : forall T0 T1 T2 t p au simples structs refs xs ss rs vs ws us tb r r' x,
  let m := TModel t p au simples structs refs in
  made_for T1 m -> T1 t = Some tb -> integer_keys m -> proper T0 m (TActive xs ss rs) ->
  sets (map (fun '(f, o) => (fst f, option_map (field_into (snd f)) o)) (combine simples xs)) vs ->
  struct_sets (map (fun '(s, o) => option_map (fun l => map (fun '(f, v) => (fst s ++ [95] ++ fst f, field_into (snd f) v)) (combine (snd s) l)) o)
      (combine structs ss)) ws ->
  refs_put (refers T0) T1 us refs rs -> incl (map fst us) (map fst refs) -> NoDup (map fst (vs ++ ws ++ us)) ->
  set_cells (t_cols tb) (vs ++ ws ++ us) r r' -> row_is T1 m r x -> (forall t', In t' (referred m) -> T2 t' = T1 t') ->
  exists x', becomes (refers T0) m (Some x) (TActive xs ss rs) 0 x' /\ row_is T2 m r' x'.
Proof.
  intros T0 T1 T2 t p au simples structs refs xs ss rs vs ws us tb r r' x m Md Et Ik Pr S1 S2 B1 B2 Ng Sc Ri Fr.
  inversion Pr as [? ? ? ? ? ? ? ? ? Pr1 Pr2 Pr3]; subst.
  inversion Md as [? ? ? ? ? ? tb' Mt Mk Mn Mp Ma Mnd Ms Mst Mr]; subst. rewrite Et in Mt. injection Mt as <-.
  inversion Ik as [? ? ? ? ? ? Ik1 Ik2]; subst. inversion Ri as [? ? ? ? ? ? ? oxs oss och R1 R2 R3]; subst.
  set (given := vs ++ ws ++ us) in *.
  assert (L1 : length xs = length simples) by (symmetry; eapply Forall2_length; exact Pr1).
  assert (L2 : length ss = length structs) by (symmetry; eapply Forall2_length; exact Pr2).
  destruct (simple_chosen simples xs vs L1 S1 (NoDup_app_l _ _ _ Mnd)) as (C1 & I1).
  destruct (structs_chosen structs ss ws L2 S2 (NoDup_app_l _ _ _ (NoDup_app_r _ _ _ Mnd))) as (C2 & I2).
  assert (Gn : forall n, In n (map fst given) -> In n (map fst vs) \/ In n (map fst ws) \/ In n (map fst us)).
  { intros n. unfold given. rewrite !map_app, !in_app_iff. auto. }
  destruct (refs_changed _ _ _ _ _ B1 och) as (children & Cb & Lc & Cc). { symmetry. eapply Forall2_length. exact R3. }
  eapply row_becomes with (children := children); [exact L1| |exact L2| |exact Cb|].
  - intros i n ty g E1 E2. pose proof (nth_error_In _ _ E1) as Hf. destruct (Ms n ty Hf) as (auto & D1 & D2).
    pose proof (forall2_nth _ _ _ _ _ Pr1 i _ _ E1 E2) as Ex. cbn [fst snd] in Ex.
    destruct (forall2_nth_l _ _ _ _ _ R1 i _ E1) as (y & Y1 & Y2). cbn [fst snd] in Y2.
    exists (match g with Some x => x | None => y end). cbn [old_simple]. split; [destruct g; [reflexivity|]; rewrite Y1; reflexivity|].
    eapply changed_field; eauto.
    + eapply chosen_more; [eapply C1; eauto|apply incl_appl, incl_refl|]. intros Hin. apply Gn in Hin as [Hin|[Hin|Hin]]; [exact Hin|exfalso..].
      * apply (nodup_apart _ _ _ Mnd n); [now apply (in_map fst) in Hf|apply in_or_app; left; now apply I2].
      * apply (nodup_apart _ _ _ Mnd n); [now apply (in_map fst) in Hf|apply in_or_app; right; now apply B2].
    + intros z ->. now destruct (Ex z eq_refl).
  - intros i n parts g E1 E2. pose proof (nth_error_In _ _ E1) as Hs.
    assert (Col : forall f, In f parts -> In (n ++ [95] ++ fst f, snd f) (struct_columns structs)).
    { intros f Hf. unfold struct_columns. apply in_flat_map. exists (n, parts). split; [exact Hs|]. cbn [fst snd].
      apply (in_map (fun p => (n ++ [95] ++ fst p, snd p))) in Hf. exact Hf. }
    assert (Ch : struct_chosen given n parts g).
    { eapply struct_chosen_more; [eapply C2; eauto|unfold given; apply incl_appr, incl_appl, incl_refl|]. intros f Hf Hin.
      apply Gn in Hin as [Hin|[Hin|Hin]]; [exfalso|exact Hin|exfalso].
      - apply (nodup_apart _ _ _ Mnd (n ++ [95] ++ fst f)); [now apply I1|apply in_or_app; left; exact (in_map fst _ _ (Col f Hf))].
      - apply (nodup_apart _ _ _ (NoDup_app_r _ _ _ Mnd) (n ++ [95] ++ fst f)); [exact (in_map fst _ _ (Col f Hf))|now apply B2]. }
    pose proof (forall2_nth _ _ _ _ _ Pr2 i _ _ E1 E2) as Ex. cbn [snd] in Ex.
    destruct (forall2_nth_l _ _ _ _ _ R2 i _ E1) as (ol & Y1 & Y2). cbn [fst snd] in Y2.
    exists (match g with Some l => l | None => ol end). cbn [old_struct]. split; [destruct g; [reflexivity|]; rewrite Y1; reflexivity|].
    destruct g as [l|]; cbn [struct_chosen] in Ch.
    + specialize (Ex l eq_refl). apply forall2_same; [symmetry; eapply Forall2_length; exact Ex|]. intros f z Hin.
      pose proof (in_combine_l _ _ _ _ Hin) as Hf. pose proof (Ch f z Hin) as Cz. cbn [chosen] in Cz. destruct Cz as (v & V1 & V2).
      destruct (set_given _ _ _ _ _ _ _ _ Mn Sc Ng (Mst _ _ (Col f Hf)) V2) as (w & W1 & W2).
      destruct (exact_kept _ _ (forall2_combine _ _ _ _ _ Ex _ _ Hin) _ _ V1 W2). exists w. auto.
    + apply forall2_same; [symmetry; eapply Forall2_length; exact Y2|]. intros f z Hin.
      pose proof (in_combine_l _ _ _ _ Hin) as Hf. pose proof (forall2_combine _ _ _ _ _ Y2 _ _ Hin) as Cz. cbn beta in Cz.
      exact (changed_field _ _ _ _ _ _ _ None z Mn Sc Ng (Mst _ _ (Col f Hf)) (Ch f Hf) ltac:(discriminate) Cz).
  - change (referred m) with (nested_refs refs) in Fr.
    assert (Sub : forall f sub, In (f, sub) refs -> forall t', In t' (tname sub :: referred sub) -> T2 t' = T1 t').
    { intros f sub Hf t' Ht. apply Fr. clear - Hf Ht. induction refs as [|[g s] refs IH]; [destruct Hf|]. rewrite nested_cons. apply in_or_app.
      destruct Hf as [E|Hf]; [injection E as -> ->; now left|right; auto]. }
    apply nth_forall2; [exact Lc|]. intros i [f sub] c E1 E3. cbn [fst snd].
    pose proof (nth_error_In _ _ E1) as Hf. destruct (forall2_nth_l _ _ _ _ _ R3 i _ E1) as (o & O1 & k0 & tb0 & r0 & K1 & K2 & K3 & K4 & K5). cbn [fst snd] in *.
    rewrite Forall_forall in Mr, Ik2. destruct (Mr _ Hf) as (M1 & M2). cbn [fst snd] in *.
    destruct (Cc i _ _ _ E1 O1 E3) as [(k & J1 & kv & tb2 & r2 & J2 & J3 & J4 & J5 & J6)|(J1 & ->)]; cbn [fst snd] in *.
    + exists kv, tb2, r2. splits.
      * destruct (has_key_prim T1 sub M1 (Ik2 _ Hf)) as (q & Qk). destruct sub as [t2 p2 a2 subs structs2 refs2]. destruct Qk as (_ & Hp2 & _).
        destruct (set_given _ _ _ _ _ _ _ k Mn Sc Ng (M2 _ Hp2)) as (w & W1 & W2).
        { unfold given. apply in_or_app. right. apply in_or_app. now right. }
        rewrite W1. f_equal. exact (keeps_fun _ _ _ W2 _ (J6 _ Hp2)).
      * rewrite (Sub f sub Hf); [exact J2|now left].
      * exact J3.
      * exact J4.
      * eapply row_is_frame; [|exact J5]. intros t' Ht. apply (Sub f sub Hf). now right.
    + exists k0, tb0, r0. splits; auto.
      * rewrite (set_other _ _ _ _ _ Sc); [exact K1|]. apply (in_map fst) in Hf. cbn [fst] in Hf. intros Hin. apply Gn in Hin as [Hin|[Hin|Hin]].
        -- apply (nodup_apart _ _ _ Mnd f); [now apply I1|apply in_or_app; now right].
        -- apply (nodup_apart _ _ _ (NoDup_app_r _ _ _ Mnd) f); [now apply I2|exact Hf].
        -- contradiction.
      * rewrite (Sub f sub Hf); [exact K2|now left].
      * eapply row_is_frame; [|exact K5]. intros t' Ht. apply (Sub f sub Hf). now right.
Qed.

Lemma made_schema : forall T T' m, (forall t tb, T t = Some tb -> exists tb', T' t = Some tb' /\ t_cols tb' = t_cols tb /\ t_key tb' = t_key tb) ->
  made_for T m -> made_for T' m.
Proof.
  intros T T' m G. induction m as [t p a simples structs refs IH] using tmodel_ind'. intros H.
  inversion H as [? ? ? ? ? ? tb E K N Ip Ia Nd H1 H2 H3]; subst. destruct (G _ _ E) as (tb' & G1 & G2 & G3).
  rewrite <- G3 in *. rewrite <- G2 in *. econstructor; eauto.
  clear - IH H3. induction H3 as [|f refs (A & B) _ IHr]; constructor; inversion IH; subst; auto.
Qed.

Lemma update_statements : forall db t p au simples structs refs xs ss rs key h h',
  let m := TModel t p au simples structs refs in
  everywhere names_distinct (untyped m) -> everywhere names_plain (untyped m) ->
  update_typed db m key (TActive xs ss rs) h = (Ok tt, h') ->
  exists vs ws us tr,
    sets (map (fun '(f, o) => (fst f, option_map (field_into (snd f)) o)) (combine simples xs)) vs /\
    struct_sets (map (fun '(s, o) => option_map (fun l => map (fun '(f, v) => (fst s ++ [95] ++ fst f, field_into (snd f) v)) (combine (snd s) l)) o)
      (combine structs ss)) ws /\
    references (tref_refs refs rs) tr (Ok us) /\ follows db h tr /\ Forall is_insert tr /\
    ((vs ++ ws ++ us = [] /\ h' = h ++ tr) \/
     (exists text id, let params := map snd (vs ++ ws ++ us) ++ [key_value m key] in
        h' = (h ++ tr) ++ [(text, params, Ok id)] /\ db (h ++ tr) text params = Ok id /\
        parse_insert text = None /\ parse_update text = Some (t, map fst (vs ++ ws ++ us), p))).
Proof.
  intros db t p au simples structs refs xs ss rs key h h' m Nd Np E.
  pose proof (active_of_ok m (TActive xs ss rs) Nd Np) as Ok_. unfold update_typed in E. unfold m in E at 3, Ok_. rewrite active_of_eq in E, Ok_.
  change (m_primary (untyped m)) with p in E. cbn [update_model] in E. unfold iobind in E.
  inversion Ok_ as [? ? ? ? ? O1 O2 O3 O4 O5]; subst.
  match type of E with context [simple_values ?l] => pose proof (simple_values_sets l) as V1; destruct (simple_values l) as [vs|e|]; [|discriminate..] end.
  match type of E with context [struct_values ?l] => pose proof (struct_values_sets l) as V2; destruct (struct_values l) as [ws|e|]; [|discriminate..] end.
  destruct (references_inserted db (tref_refs refs rs) h O5) as (tr & R1 & R2 & R3).
  destruct (references_follow db (tref_refs refs rs)) with (h := h) as (tr' & F1 & F2 & F3).
  { apply Forall_forall. intros r _ a _ h0. apply insert_follows. }
  destruct (reference_values db (tref_refs refs rs) h) as [[us|e|] h1]; [|discriminate..]. cbn [fst snd] in *. subst h1.
  apply app_inv_head in F1. subst tr'. exists vs, ws, us, tr. splits; auto.
  assert (Np' : ~ In 96 p) by (unfold m in Np; cbn [untyped] in Np; apply everywhere_inv in Np as ((_ & H & _) & _); exact H).
  destruct (vs ++ ws ++ us) as [|v l] eqn:El; [left; split; [exact El|cbv beta in E; injection E as <-; reflexivity]|right].
  rewrite <- El in E. assert (Hne : vs ++ ws ++ us <> []) by (rewrite El; discriminate). clear El.
  assert (Ut : vs ++ ws ++ us <> [] -> parse_update (into_update (vs ++ ws ++ us) t p) = Some (t, map fst (vs ++ ws ++ us), p)).
  { intros _. apply update_text; auto. rewrite !Forall_app. splits.
    - exact (sets_names (fun n => ~ In 96 n) _ _ V1 O3).
    - exact (struct_sets_names (fun n => ~ In 96 n) _ _ V2 O4).
    - exact (R3 us eq_refl). }
  unfold run_statement in E.
  match type of E with context [db ?h ?text ?ps] => destruct (db h text ps) as [id|e|] eqn:Ed; [|discriminate..] end.
  exists (into_update (vs ++ ws ++ us) t p), id. cbv zeta. splits; [injection E as <-; reflexivity|exact Ed|reflexivity|]. exact (Ut Hne).
Qed.

Lemma same_prim : forall q n n', int_range q <> None -> same_value (prim_from q n) (prim_from q n') <-> n = n'.
Proof. intros q n n' H. unfold same_value. rewrite !int_of_prim by exact H. reflexivity. Qed.

(** Rows of an UPDATE with another key. *)
Lemma rows_unchanged : forall q n p cols given, int_range q <> None -> forall rows rows',
  Forall2 (fun o o' => exists c, assoc p o = Some c /\
    ((same_value c (prim_from q n) /\ set_cells cols given o o') \/ (~ same_value c (prim_from q n) /\ o' = o))) rows rows' ->
  (forall o, In o rows -> exists n', assoc p o = Some (prim_from q n') /\ n' <> n) -> rows' = rows.
Proof.
  intros q n p cols given Hq rows rows' H. induction H as [|o o' rows rows' (c & C1 & C2) _ IH]; intros Hk; [reflexivity|]. f_equal.
  - destruct (Hk o (or_introl eq_refl)) as (n' & N1 & N2). destruct C2 as [(S & _)|(_ & E)]; [|exact E].
    assert (c = prim_from q n') by congruence. subst c. apply same_prim in S; [congruence|exact Hq].
  - apply IH. intros o2 Ho. apply Hk. now right.
Qed.

Lemma update_changes : forall db st m key a h h' l, serves db st -> made_for (st h) m -> integer_keys m -> keys_differ (st h) ->
  everywhere names_distinct (untyped m) -> everywhere names_plain (untyped m) -> proper (st h) m a -> ~ In (tname m) (referred m) ->
  contents (st h) m l -> update_typed db m key a h = (Ok tt, h') ->
  made_for (st h') m /\ keys_differ (st h') /\ (forall t, t <> tname m -> ~ In t (referred m) -> st h' t = st h t) /\
  (forall x l0, Permutation l (x :: l0) -> has_key m x key ->
    exists x', becomes (refers (st h)) m (Some x) a 0 x' /\ contents (st h') m (x' :: l0)) /\
  (forall n, key = RNum n -> (forall x, In x l -> ~ has_key m x key) -> contents (st h') m l).
Proof.
  intros db st m key a h h' l Sv Md Ik KD Nd Np Pr Nn Ct E.
  destruct (has_key_prim _ _ Md Ik) as (q & Qk). destruct Ct as (tb & rows & E1 & P1 & F1). change (m_table (untyped m)) with (tname m) in E1.
  pose proof (made_key _ _ _ Md E1) as Mk.
  destruct m as [t p au simples structs refs]. destruct a as [xs ss rs]. set (m := TModel t p au simples structs refs) in *.
  change (m_primary (untyped m)) with p in Mk. change (tname m) with t in *.
  destruct (update_statements db t p au simples structs refs xs ss rs key h h' Nd Np E) as (vs & ws & us & tr & S1 & S2 & Rf & Fo & Ins & Fin).
  pose proof (evolves_follows db st tr h Sv Fo Ins) as Ev. destruct (evolves_grows _ _ _ Ev) as (G & K).
  set (T0 := st h) in *. set (T1 := st (h ++ tr)) in *.
  pose proof (made_grows _ _ _ G Md) as Md1. specialize (K KD).
  inversion Md as [? ? ? ? ? ? tb' Mt Mk' Mn Mp Ma Mnd Ms Mst Mr]; subst. rewrite E1 in Mt. injection Mt as <-. set (p := t_key tb) in *.
  inversion Pr as [? ? ? ? ? ? ? ? ? Pr1 Pr2 Pr3]; subst.
  inversion Ik as [? ? ? ? ? ? Ik1 Ik2]; subst.
  destruct (put_refs T0 refs) with (rs := rs) (trace := tr) (us := us) (T := T0) (T1 := T1) as (B1 & B2 & B3); auto.
  { apply Forall_forall. intros f _. apply put. }
  { apply NoDup_app_r in Mnd; apply NoDup_app_r in Mnd; exact Mnd. }
  { eapply Forall_impl; [|exact Mr]. intros f (H & _). exact H. }
  { apply grows_refl. }
  change (referred m) with (nested_refs refs) in Nn.
  assert (Et1 : T1 t = Some tb) by (rewrite B3; auto).
  assert (Rows1 : Forall2 (row_is T1 m) rows l) by (eapply Forall2_impl; [|exact F1]; intros; eapply row_is_grows; eauto).
  set (given := vs ++ ws ++ us) in *.
  (* the tables afterwards *)
  assert (Fin2 : exists rows', st h' t = Some (mkTable (t_cols tb) (t_key tb) rows') /\ (forall t', t' <> t -> st h' t' = T1 t') /\
    keys_differ (st h') /\ ((given = [] /\ rows' = t_rows tb) \/ (NoDup (map fst given) /\
      Forall2 (fun o o' => exists c, assoc p o = Some c /\
        ((same_value c (key_value m key) /\ set_cells (t_cols tb) given o o') \/ (~ same_value c (key_value m key) /\ o' = o))) (t_rows tb) rows'))).
  { destruct Fin as [(Eg & ->)|(text & id & -> & Db & Pi & Pu)].
    - exists (t_rows tb). fold T1. splits; [rewrite Et1; destruct tb; reflexivity|auto|exact K|left; auto].
    - match type of Db with db ?g ?q ?ps = _ => pose proof (Sv g q ps) as X end. rewrite Db in X. fold m in X. fold T1 in X.
      pose proof (executes_keys _ _ _ _ _ X K) as KD2.
      inversion X as [? ? ? ? ? ? ? ? ? ? ? ? Pi'|? ? vs' k t' names column tb' rows' ? ? Q1 Q2 Q3 Q4 Q5 Q6 Q7 Q8 Q9]; [congruence|].
      match goal with H : vs' ++ [k] = _ |- _ => apply app_inj_tail in H as (Ev' & Ek) end. subst vs' k.
      rewrite Pu in Q1. injection Q1 as <- <- <-. rewrite Et1 in Q4. injection Q4 as <-.
      exists rows'. splits; auto. right. split; [exact Q3|].
      rewrite combine_split in Q6. exact Q6. }
  destruct Fin2 as (rows' & Er & Eo & KD' & Upd).
  assert (Sch : made_for (st h') m).
  { apply (made_schema T1); [|exact Md1]. intros t' tb2 E2. destruct (list_eq_dec Z.eq_dec t' t) as [->|Ne].
    - rewrite Et1 in E2. injection E2 as <-. rewrite Er. eexists. splits; reflexivity.
    - exists tb2. rewrite (Eo _ Ne). auto. }
  assert (Fr : forall t', In t' (referred m) -> st h' t' = T1 t').
  { intros t' Ht. apply Eo. intros ->. now apply Nn. }
  assert (Old : forall r y, row_is T1 m r y -> row_is (st h') m r y) by (intros r y; apply row_is_frame; exact Fr).
  assert (Keys : forall o, In o (t_rows tb) -> exists y n, In y l /\ has_key m y (RNum n) /\ (forall k, has_key m y k -> k = RNum n) /\ assoc p o = Some (prim_from q n)).
  { intros o Ho. apply (Permutation_in _ P1) in Ho. apply In_nth_error in Ho as (i & Hi).
    destruct (forall2_nth_l _ _ _ _ _ Rows1 i _ Hi) as (y & Hy & Ry). destruct (key_cell T1 m q o y Qk Ry) as (n & K1 & K2 & K3 & K4).
    exists y, n. splits; auto. eapply nth_error_In; eauto. }
  assert (Hq : int_range q <> None) by (destruct Qk as (_ & _ & H); exact H).
  splits; auto.
  - intros t' N1 N2. rewrite (Eo _ N1). apply B3. exact N2.
  - intros x l0 Pl Hk.
    assert (F2 : exists r rest, Permutation rows (r :: rest) /\ row_is T1 m r x /\ Forall2 (row_is T1 m) rest l0).
    { assert (F' : Forall2 (fun y r => row_is T1 m r y) l rows) by (clear - Rows1; induction Rows1; constructor; auto).
      destruct (Permutation_Forall2 Pl F') as (rows2 & Z1 & Z2). inversion Z2 as [|? r ? rest Z3 Z4]; subst. exists r, rest. splits; auto.
      clear - Z4. induction Z4; constructor; auto. }
    destruct F2 as (r & rest & P2 & Rx & Rl). destruct (key_cell T1 m q r x Qk Rx) as (n & K1 & K2 & K3 & K4). change (m_primary (untyped m)) with p in K3.
    rewrite (K2 key Hk) in *. rewrite (key_value_prim m q n Qk) in Upd.
    assert (Hin : In r (t_rows tb)) by (apply (Permutation_in _ (Permutation_sym P1)), (Permutation_in _ (Permutation_sym P2)); now left).
    apply in_split in Hin as (b1 & b2 & Eb).
    assert (Prest : Permutation (b1 ++ b2) rest).
    { apply (Permutation_cons_inv (a := r)). rewrite <- P2, <- P1, Eb. apply Permutation_middle. }
    destruct (KD t tb E1) as (Kn & _). change (t_key tb) with p in Kn. rewrite Eb, map_app in Kn. cbn [map] in Kn.
    apply NoDup_remove_2 in Kn. rewrite <- map_app in Kn.
    assert (Others : forall o, In o (b1 ++ b2) -> exists n', assoc p o = Some (prim_from q n') /\ n' <> n).
    { intros o Ho. destruct (Keys o) as (y & n' & _ & _ & _ & A).
      { rewrite Eb. apply in_app_or in Ho as [Ho|Ho]; apply in_or_app; [now left|right; now right]. }
      exists n'. split; [exact A|]. intros ->. apply Kn. rewrite K3, <- A. now apply in_map. }
    assert (Mid : exists r', rows' = b1 ++ r' :: b2 /\ set_cells (t_cols tb) given r r' /\ NoDup (map fst given)).
    { destruct Upd as [(Eg & ->)|(Ng & Up)].
      - exists r. splits; [exact Eb| |rewrite Eg; constructor]. rewrite Eg. intros nm. reflexivity.
      - rewrite Eb in Up. apply Forall2_app_inv_l in Up as (b1' & c2 & U1 & U2 & ->). inversion U2 as [|? r' ? b2' (c & C1 & C2) U3]; subst.
        exists r'. rewrite (rows_unchanged q n p _ _ Hq _ _ U1), (rows_unchanged q n p _ _ Hq _ _ U3).
        + splits; auto. destruct C2 as [(_ & S)|(S & _)]; [exact S|]. destruct S. assert (c = prim_from q n) by congruence. subst c. now apply same_prim.
        + intros o Ho. apply Others. apply in_or_app. now right.
        + intros o Ho. apply Others. apply in_or_app. now left. }
    destruct Mid as (r' & Er' & Sc & Ng).
    destruct (row_changes T0 T1 (st h') t p au simples structs refs xs ss rs vs ws us tb r r' x Md1 Et1 Ik Pr S1 S2 B1 B2 Ng Sc Rx Fr) as (x' & X1 & X2).
    exists x'. split; [exact X1|]. eexists _, (r' :: rest). splits; [exact Er| |].
    + cbn [t_rows]. rewrite Er', <- Prest. symmetry. apply Permutation_middle.
    + constructor; [exact X2|]. eapply Forall2_impl; [|exact Rl]. auto.
  - intros n -> Hno. exists (mkTable (t_cols tb) (t_key tb) rows'), rows. splits; [exact Er| |eapply Forall2_impl; [|exact Rows1]; auto].
    cbn [t_rows]. destruct Upd as [(_ & ->)|(_ & Up)]; [exact P1|].
    rewrite (key_value_prim m q n Qk) in Up. rewrite (rows_unchanged q n p _ _ Hq _ _ Up); [exact P1|].
    intros o Ho. destruct (Keys o Ho) as (y & n' & Y1 & Y2 & Y3 & Y4). exists n'. split; [exact Y4|]. intros ->. exact (Hno y Y1 Y2).
Qed.
