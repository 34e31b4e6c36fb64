(** Lemmas about the migrator. *)
From Coq Require Import String ZArith List Bool Lia Permutation.
From Verif Require Import Base BaseFacts Types Framing ValueText Conversion Spec_Wire Spec_Stmt Spec_Text Spec_Conv
  Escape_proofs Packets_proofs Migrator Spec_Migrate.
Import ListNotations.
Open Scope Z_scope.

(** ** Versions *)
Lemma version_cmp_spec : forall a b,
  match version_cmp a b with Lt => vlt a b | Eq => a = b | Gt => vlt b a end.
Proof.
  intros [a0 a1 a2] [b0 b1 b2]. unfold version_cmp, vlt. cbn.
  destruct (Z.compare_spec a0 b0); try lia. destruct (Z.compare_spec a1 b1); try lia.
  destruct (Z.compare_spec a2 b2); try lia. subst. reflexivity.
Qed.

Lemma vlt_irrefl : forall a, ~ vlt a a.
Proof. intros a. unfold vlt. lia. Qed.
Lemma vlt_trans : forall a b c, vlt a b -> vlt b c -> vlt a c.
Proof. unfold vlt. intros. lia. Qed.

Lemma version_gtb_iff : forall a b, version_gtb a b = true <-> vlt b a.
Proof.
  intros a b. unfold version_gtb. pose proof (version_cmp_spec a b) as H.
  destruct (version_cmp a b); split; intros K; try discriminate; auto.
  - subst. apply vlt_irrefl in K. contradiction.
  - exfalso. eapply vlt_irrefl, vlt_trans; eassumption.
Qed.

Lemma version_geb_iff : forall a b, version_geb a b = false <-> vlt a b.
Proof.
  intros a b. unfold version_geb. pose proof (version_cmp_spec a b) as H.
  destruct (version_cmp a b); split; intros K; try discriminate; auto.
  - subst. apply vlt_irrefl in K. contradiction.
  - exfalso. eapply vlt_irrefl, vlt_trans; eassumption.
Qed.

Lemma version_eqb_iff : forall a b, version_eqb a b = true <-> a = b.
Proof.
  intros [a0 a1 a2] [b0 b1 b2]. unfold version_eqb. cbn. rewrite !andb_true_iff, !Z.eqb_eq.
  split; [intros ((A & B) & C); subst; reflexivity | intros E; inversion E; auto].
Qed.
Lemma version_eqb_refl : forall a, version_eqb a a = true.
Proof. intros. apply version_eqb_iff. reflexivity. Qed.
Lemma version_eqb_neq : forall a b, version_eqb a b = false <-> a <> b.
Proof. intros a b. rewrite <- version_eqb_iff. destruct (version_eqb a b); intuition congruence. Qed.

Lemma ordered_from_iff : forall l m, ordered_from m l = true <->
  Forall (vlt (ml_version m)) (map ml_version l) /\ increasing (map ml_version l).
Proof.
  induction l as [|x l IH]; intros m; cbn [ordered_from map increasing].
  - split; auto.
  - destruct (version_geb (ml_version m) (ml_version x)) eqn:E.
    + split; [discriminate|]. intros (F & _). inversion F; subst.
      apply version_geb_iff in H1. congruence.
    + apply version_geb_iff in E. rewrite IH. split.
      * intros (F & I). splits; auto. constructor; auto. eapply Forall_impl; [|exact F].
        intros; eapply vlt_trans; eassumption.
      * intros (F & F' & I). auto.
Qed.

Lemma ordered_iff : forall l, ordered l = true <-> increasing (map ml_version l).
Proof.
  intros [|m l]; cbn [ordered map increasing]; [tauto|]. apply ordered_from_iff.
Qed.

Lemma record_dec : forall a b : migration_record, {a = b} + {a <> b}.
Proof. decide equality; [apply (list_eq_dec Z.eq_dec)|]. decide equality; apply Z.eq_dec. Qed.

(** ** Sublists *)
Lemma sublist_filter : forall A (f : A -> bool) (P : A -> Prop) l,
  (forall x, In x l -> (f x = true <-> P x)) -> sublist_of P l (filter f l).
Proof.
  induction l as [|x l IH]; intros H; cbn [filter]; [constructor|].
  assert (sublist_of P l (filter f l)) by (apply IH; intros; apply H; right; assumption).
  specialize (H x (or_introl eq_refl)).
  destruct (f x); constructor; auto; [apply H; reflexivity|]. rewrite <- H. discriminate.
Qed.

Lemma sublist_unique : forall A (P : A -> Prop) l a b, sublist_of P l a -> sublist_of P l b -> a = b.
Proof.
  intros A P l a b Ha. revert b. induction Ha; intros b Hb; inversion Hb; subst; auto; try contradiction.
  f_equal. auto.
Qed.

Lemma sublist_ext : forall A (P Q : A -> Prop) l a, (forall x, In x l -> (P x <-> Q x)) -> sublist_of P l a -> sublist_of Q l a.
Proof.
  intros A P Q l a H S. induction S; [constructor| |].
  - constructor. { apply (H x); [left; reflexivity|assumption]. } apply IHS. intros; apply H; right; assumption.
  - constructor. { intros K. apply H0. apply (H x); [left; reflexivity|assumption]. }
    apply IHS. intros; apply H; right; assumption.
Qed.

Lemma sublist_in : forall A (P : A -> Prop) l a, sublist_of P l a -> forall x, In x a <-> In x l /\ P x.
Proof.
  intros A P l a S. induction S; intros y; cbn [In].
  - tauto.
  - rewrite IHS. split; [intros [->|(X & Y)]; auto|]. intros ([->|X] & Y); auto.
  - rewrite IHS. split; [intros (X & Y); auto|]. intros ([->|X] & Y); [contradiction|auto].
Qed.

Lemma sublist_nodup : forall A (P : A -> Prop) l a, sublist_of P l a -> NoDup l -> NoDup a.
Proof.
  intros A P l a S. induction S; intros N; auto.
  - inversion N; subst. constructor; auto. intros K. apply (sublist_in _ _ _ _ S) in K. tauto.
  - inversion N; subst. auto.
Qed.

Lemma sublist_comp : forall A (P Q : A -> Prop) l a b, sublist_of P l a -> sublist_of Q a b ->
  sublist_of (fun x => P x /\ Q x) l b.
Proof.
  intros A P Q l a b S. revert b. induction S; intros b T.
  - inversion T; subst. constructor.
  - inversion T; subst; constructor; auto. tauto.
  - constructor; auto. tauto.
Qed.

Lemma sublist_app : forall A (P : A -> Prop) l1 l2 a1 a2, sublist_of P l1 a1 -> sublist_of P l2 a2 ->
  sublist_of P (l1 ++ l2) (a1 ++ a2).
Proof. intros A P l1 l2 a1 a2 S T. induction S; cbn; auto; constructor; auto. Qed.

Lemma sublist_all : forall A (P : A -> Prop) l, (forall x, In x l -> P x) -> sublist_of P l l.
Proof. induction l; intros H; constructor; [apply H; left; reflexivity|]. apply IHl. intros; apply H; right; assumption. Qed.

Lemma sublist_none : forall A (P : A -> Prop) l, (forall x, In x l -> ~ P x) -> sublist_of P l [].
Proof. induction l; intros H; constructor; [apply H; left; reflexivity|]. apply IHl. intros; apply H; right; assumption. Qed.

(** ** The map of applied migrations *)
Definition names (a : applied_map) (v : version) : list str :=
  match map_get a v with Some l => l | None => [] end.

Lemma map_get_set : forall a v l w, map_get (map_set a v l) w =
  if version_eqb v w then match map_get a v with Some _ => Some l | None => map_get a w end else map_get a w.
Proof.
  induction a as [|(u, old) a IH]; intros v l w; cbn [map_set map_get].
  - destruct (version_eqb v w); reflexivity.
  - destruct (version_eqb u v) eqn:E.
    + apply version_eqb_iff in E. subst. cbn [map_get]. destruct (version_eqb v w); reflexivity.
    + cbn [map_get]. rewrite IH. destruct (version_eqb v w) eqn:E2.
      * apply version_eqb_iff in E2. subst. rewrite E. reflexivity.
      * destruct (version_eqb u w); reflexivity.
Qed.

Lemma names_insert : forall a v n w,
  names (insert_applied a v n) w = if version_eqb v w then names a v ++ [n] else names a w.
Proof.
  intros a v n w. unfold names, insert_applied. destruct (map_get a v) as [l|] eqn:E.
  - rewrite map_get_set, E. destruct (version_eqb v w); reflexivity.
  - cbn [map_get]. destruct (version_eqb v w) eqn:E2; auto.
Qed.

Lemma position_some : forall l n i, position l n = Some i -> nth_error l i = Some n.
Proof.
  induction l as [|x l IH]; intros n i; cbn [position]; [discriminate|].
  destruct (list_eqb x n) eqn:E.
  - intros K. injection K as <-. apply list_eqb_eq in E. subst. reflexivity.
  - destruct (position l n) as [j|] eqn:E2; [|discriminate]. intros K. injection K as <-. cbn. auto.
Qed.

Lemma position_none : forall l n, position l n = None <-> ~ In n l.
Proof.
  induction l as [|x l IH]; intros n; cbn [position In]; [tauto|].
  destruct (list_eqb x n) eqn:E.
  - apply list_eqb_eq in E. split; [discriminate|]. intros K. exfalso. auto.
  - apply list_eqb_neq in E. specialize (IH n). destruct (position l n); cbn; split; intros K; try discriminate; try tauto.
    + exfalso. destruct IH as (_ & IH). assert (Some n0 = None) by tauto. discriminate.
Qed.

Lemma get_applied_none : forall a v n, get_applied a v n = None <-> ~ In n (names a v).
Proof.
  intros a v n. unfold get_applied, names. destruct (map_get a v) as [l|]; [|cbn; tauto].
  rewrite <- position_none. destruct (position l n); split; congruence.
Qed.

Lemma get_applied_some : forall a v n l i, get_applied a v n = Some (l, i) ->
  map_get a v = Some l /\ nth_error l i = Some n.
Proof.
  intros a v n l i. unfold get_applied. destruct (map_get a v) as [l'|]; [|discriminate].
  destruct (position l' n) as [j|] eqn:E; [|discriminate]. intros K. injection K as <- <-.
  split; [reflexivity|]. apply position_some. assumption.
Qed.

Lemma swap_remove_perm : forall l i x, nth_error l i = Some x -> Permutation l (x :: swap_remove l i).
Proof.
  intros l i x H.
  assert (NE : l <> []) by (intros ->; destruct i; discriminate).
  destruct (exists_last NE) as (rest & y & ->). unfold swap_remove. cbv zeta.
  rewrite removelast_last, last_last.
  destruct (Nat.eqb_spec i (length rest)) as [->|N].
  - rewrite nth_error_app2 in H by lia. rewrite Nat.sub_diag in H. cbn in H. injection H as ->.
    symmetry. apply Permutation_cons_append.
  - assert (Hi : (i < length rest)%nat).
    { assert (i < length (rest ++ [y]))%nat by (apply nth_error_Some; congruence).
      rewrite app_length in H0. cbn in H0. lia. }
    rewrite nth_error_app1 in H by assumption.
    destruct (nth_error_split _ _ H) as (l1 & l2 & E & Len). subst rest i.
    rewrite firstn_app, Nat.sub_diag, firstn_all. cbn [firstn]. rewrite app_nil_r.
    replace (skipn (S (length l1)) (l1 ++ x :: l2)) with l2.
    2:{ replace (l1 ++ x :: l2) with ((l1 ++ [x]) ++ l2) by (rewrite <- app_assoc; reflexivity).
        rewrite skipn_app, skipn_all2 by (rewrite app_length; cbn; lia).
        rewrite app_length. cbn [length]. replace (S (length l1) - (length l1 + 1))%nat with 0%nat by lia. reflexivity. }
    rewrite <- app_assoc. cbn [app].
    transitivity (x :: (l1 ++ l2 ++ [y])); [symmetry; apply Permutation_middle|]. apply perm_skip.
    apply Permutation_app_head. symmetry. apply Permutation_cons_append.
Qed.

(** The map says what the table says. *)
Definition represents (a : applied_map) (t : list migration_record) : Prop :=
  forall v, NoDup (names a v) /\ forall n, In n (names a v) <-> In (v, n) t.

Lemma represents_insert : forall a t v n, represents a t -> ~ In (v, n) t ->
  represents (insert_applied a v n) (t ++ [(v, n)]).
Proof.
  intros a t v n R H w. rewrite names_insert. destruct (version_eqb v w) eqn:E.
  - apply version_eqb_iff in E. subst w. destruct (R v) as (N & I). split.
    + eapply Permutation_NoDup; [apply Permutation_cons_append|]. constructor; auto. rewrite I. assumption.
    + intros m. rewrite !in_app_iff, I. cbn [In]. split; intros [K|[K|K]]; auto; try contradiction.
      * subst. auto.
      * right. left. congruence.
  - apply version_eqb_neq in E. destruct (R w) as (N & I). split; auto. intros m. rewrite in_app_iff, I.
    cbn [In]. split; auto. intros [K|[K|K]]; auto; [congruence|contradiction].
Qed.

Lemma represents_remove : forall a t v n l i t', represents a t -> get_applied a v n = Some (l, i) ->
  sublist_of (fun m => m <> (v, n)) t t' -> represents (map_set a v (swap_remove l i)) t'.
Proof.
  intros a t v n l i t' R G S w. apply get_applied_some in G. destruct G as (G & X).
  apply swap_remove_perm in X.
  unfold names at 1 2. rewrite map_get_set, G. destruct (version_eqb v w) eqn:E.
  - apply version_eqb_iff in E. subst w. destruct (R v) as (N & I). unfold names in N, I. rewrite G in N, I.
    pose proof (Permutation_NoDup X N) as ND. inversion ND; subst. split; auto.
    intros m. rewrite (sublist_in _ _ _ _ S), <- I.
    split.
    + intros K. split; [eapply Permutation_in; [symmetry; exact X|right; exact K]|].
      intros Q. injection Q as ->. contradiction.
    + intros (K & Q). eapply Permutation_in in K; [|exact X]. destruct K as [<-|K]; auto. congruence.
  - apply version_eqb_neq in E. fold (names a w). destruct (R w) as (N & I). split; auto. intros m.
    rewrite (sublist_in _ _ _ _ S), I. split; [|tauto]. intros K. split; auto. congruence.
Qed.

(** ** Flat loops *)
Definition up_one (w : oracle) (m : migration_record) : IO mig_state unit :=
  fun s =>
    match get_applied (fst s) (fst m) (snd m) with
    | Some _ => (Ok tt, s)
    | None =>
      iobind (await w (Up (fst m) (snd m))) (fun _ =>
      iobind (fun '(a, h) => (Ok tt, (insert_applied a (fst m) (snd m), h))) (fun _ =>
      iobind (await w Get) (fun _ =>
      await w (Exec (insert_statement (fst m) (snd m)))))) s
    end.
Fixpoint run_all (one : migration_record -> IO mig_state unit) (ms : list migration_record) : IO mig_state unit :=
  match ms with
  | [] => fun s => (Ok tt, s)
  | m :: r => iobind (one m) (fun _ => run_all one r)
  end.
Definition down_one (w : oracle) (m : migration_record) : IO mig_state unit :=
  fun s =>
    match get_applied (fst s) (fst m) (snd m) with
    | None => (Ok tt, s)
    | Some (l, i) => revert w (fst m) (snd m) l i s
    end.

Lemma iobind_assoc : forall S A B C (m : IO S A) (f : A -> IO S B) (g : B -> IO S C) s,
  iobind (iobind m f) g s = iobind m (fun a => iobind (f a) g) s.
Proof. intros. unfold iobind. destruct (m s) as [[a|e|] s']; reflexivity. Qed.

Lemma iobind_ext : forall S A B (m m' : IO S A) (f f' : A -> IO S B) s,
  m s = m' s -> (forall a s', f a s' = f' a s') -> iobind m f s = iobind m' f' s.
Proof. intros S A B m m' f f' s H K. unfold iobind. rewrite H. destruct (m' s) as [[a|e|] s']; auto. Qed.

Lemma run_all_app : forall one l r s, run_all one (l ++ r) s = iobind (run_all one l) (fun _ => run_all one r) s.
Proof.
  induction l as [|m l IH]; intros r s; cbn [app run_all]; [reflexivity|].
  rewrite iobind_assoc. apply iobind_ext; auto.
Qed.

Lemma up_names_flat : forall w v ns s, up_names w v ns s = run_all (up_one w) (map (fun n => (v, n)) ns) s.
Proof.
  induction ns as [|n ns IH]; intros s; cbn [up_names run_all map]; [reflexivity|].
  apply iobind_ext; [reflexivity|]. intros. apply IH.
Qed.

Lemma down_names_flat : forall w v ns s, down_names w v ns s = run_all (down_one w) (map (fun n => (v, n)) ns) s.
Proof.
  induction ns as [|n ns IH]; intros s; cbn [down_names run_all map]; [reflexivity|].
  apply iobind_ext; [reflexivity|]. intros. apply IH.
Qed.

Definition withinb (target : option version) (m : migration_record) : bool :=
  match target with Some t => negb (version_gtb (fst m) t) | None => true end.

Lemma filter_map_const : forall A B (f : B -> bool) (g : A -> B) (b : bool) l, (forall x, f (g x) = b) ->
  filter f (map g l) = if b then map g l else [].
Proof.
  intros A B f g b l H. induction l as [|x l IH]; cbn; [destruct b; reflexivity|].
  rewrite H. destruct b; [f_equal|]; auto.
Qed.

Lemma up_flat : forall w target lists s,
  up_to_version w target lists s = run_all (up_one w) (filter (withinb target) (listed lists)) s.
Proof.
  induction lists as [|m lists IH]; intros s; cbn [up_to_version listed flat_map]; [reflexivity|].
  fold (listed lists). rewrite filter_app, run_all_app. apply iobind_ext; auto.
  rewrite filter_map_const with (b := match target with Some t => negb (version_gtb (ml_version m) t) | None => true end)
    by (intros; reflexivity).
  destruct target as [t|]; [destruct (version_gtb (ml_version m) t)|]; cbn [negb]; auto using up_names_flat.
Qed.

Lemma listed_rev : forall lists,
  rev (listed lists) = flat_map (fun m => map (fun n => (ml_version m, n)) (rev (ml_names m))) (rev lists).
Proof.
  induction lists as [|m lists IH]; [reflexivity|].
  change (listed (m :: lists)) with (map (fun n => (ml_version m, n)) (ml_names m) ++ listed lists).
  unfold migration_record in *. cbn [rev]. rewrite rev_app_distr, flat_map_app, IH. cbn [flat_map].
  rewrite app_nil_r, <- map_rev. reflexivity.
Qed.

Lemma down_flat : forall w target lists s,
  down_to_version w target lists s =
  run_all (down_one w) (filter (fun m => version_gtb (fst m) target) (rev (listed lists))) s.
Proof.
  intros w target lists s. unfold down_to_version. rewrite listed_rev. generalize (rev lists). clear lists.
  intros lists. revert s. induction lists as [|m lists IH]; intros s; cbn [down_lists flat_map]; [reflexivity|].
  rewrite filter_app, run_all_app. apply iobind_ext; auto.
  rewrite filter_map_const with (b := version_gtb (ml_version m) target) by (intros; reflexivity).
  destruct (version_gtb (ml_version m) target); auto using down_names_flat.
Qed.

(** ** What a run does *)

(** Histories of an upward run with plan [p]; the first record is what was executed and
    entered into the map. *)
Inductive up_run : list migration_record -> list event -> list migration_record -> res error unit -> Prop :=
| ur_nil : up_run [] [] [] (Ok tt)
| ur_up : forall v n p e b, up_run ((v, n) :: p) [(Up v n, Failed e b)] [] (Err e)
| ur_get : forall v n p e b, up_run ((v, n) :: p) [(Up v n, Done); (Get, Failed e b)] [(v, n)] (Err e)
| ur_exec : forall v n p e b,
    up_run ((v, n) :: p) [(Up v n, Done); (Get, Done); (Exec (insert_statement v n), Failed e b)] [(v, n)] (Err e)
| ur_next : forall v n p h d r, up_run p h d r ->
    up_run ((v, n) :: p) ((Up v n, Done) :: (Get, Done) :: (Exec (insert_statement v n), Done) :: h) ((v, n) :: d) r.

Lemma represents_ext : forall a t t', represents a t -> (forall m, In m t <-> In m t') -> represents a t'.
Proof. intros a t t' R H v. destruct (R v) as (N & I). split; auto. intros n. rewrite I. apply H. Qed.

Lemma run_up : forall w ms t a h r a' h', NoDup ms -> represents a t ->
  run_all (up_one w) ms (a, h) = (r, (a', h')) ->
  exists plan tr d, h' = h ++ tr /\ sublist_of (fun m => ~ In m t) ms plan /\ up_run plan tr d r /\ represents a' (t ++ d).
Proof.
  induction ms as [|(v, n) ms IH]; intros t a h r a' h' ND R; cbn [run_all].
  - intros E. injection E as <- <- <-. exists [], [], []. rewrite !app_nil_r.
    splits; auto; constructor.
  - inversion ND as [|? ? Hn ND']; subst. unfold iobind at 1, up_one at 1. cbn [fst snd].
    destruct (get_applied a v n) as [(l, i)|] eqn:G.
    + intros E. destruct (IH _ _ _ _ _ _ ND' R E) as (plan & tr & d & H1 & H2 & H3 & H4).
      exists plan, tr, d. splits; auto. constructor; auto.
      assert (In n (names a v)).
      { destruct (in_dec (list_eq_dec Z.eq_dec) n (names a v)) as [X|X]; auto.
        apply get_applied_none in X. congruence. }
      intros K. apply K. apply (R v). assumption.
    + apply get_applied_none in G.
      assert (Hin : ~ In (v, n) t) by (intros K; apply G; apply (R v); exact K).
      pose proof (represents_insert _ _ _ _ R Hin) as R'.
      assert (S : exists plan, sublist_of (fun m => ~ In m t) ms plan).
      { exists (filter (fun m => if in_dec record_dec m t then false else true) ms).
        apply sublist_filter. intros x _. destruct (in_dec record_dec x t); split; intros; auto; try discriminate; contradiction. }
      unfold iobind, await. cbn match.
      destruct (w h (Up v n)) as [|e b].
      2:{ intros E. injection E as <- <- <-. destruct S as (plan & S).
          exists ((v, n) :: plan), [(Up v n, Failed e b)], []. rewrite app_nil_r.
          splits; auto; constructor; auto. }
      destruct (w (h ++ [(Up v n, Done)]) Get) as [|e b].
      2:{ intros E. injection E as <- <- <-. destruct S as (plan & S).
          exists ((v, n) :: plan), [(Up v n, Done); (Get, Failed e b)], [(v, n)]. rewrite <- app_assoc.
          splits; auto; constructor; auto. }
      destruct (w ((h ++ [(Up v n, Done)]) ++ [(Get, Done)]) (Exec (insert_statement v n))) as [|e b].
      2:{ intros E. injection E as <- <- <-. destruct S as (plan & S).
          exists ((v, n) :: plan), [(Up v n, Done); (Get, Done); (Exec (insert_statement v n), Failed e b)], [(v, n)].
          rewrite <- !app_assoc. splits; auto; constructor; auto. }
      intros E. destruct (IH _ _ _ _ _ _ ND' R' E) as (plan & tr & d & H1 & H2 & H3 & H4).
      exists ((v, n) :: plan), ((Up v n, Done) :: (Get, Done) :: (Exec (insert_statement v n), Done) :: tr), ((v, n) :: d).
      splits.
      * rewrite H1, <- !app_assoc. reflexivity.
      * constructor; auto. eapply sublist_ext; [|exact H2]. intros x Hx. cbv beta.
        unfold migration_record in *. rewrite in_app_iff. cbn [In]. split; intros K; [tauto|]. intros [X|[<-|X]]; tauto.
      * constructor. assumption.
      * eapply represents_ext; [exact H4|]. intros m. rewrite !in_app_iff. cbn [In]. tauto.
Qed.

Inductive down_run : list migration_record -> list event -> list migration_record -> res error unit -> Prop :=
| dr_nil : down_run [] [] [] (Ok tt)
| dr_down : forall v n p e b, down_run ((v, n) :: p) [(Down v n, Failed e b)] [] (Err e)
| dr_get : forall v n p e b, down_run ((v, n) :: p) [(Down v n, Done); (Get, Failed e b)] [(v, n)] (Err e)
| dr_exec : forall v n p e b,
    down_run ((v, n) :: p) [(Down v n, Done); (Get, Done); (Exec (delete_statement v n), Failed e b)] [(v, n)] (Err e)
| dr_next : forall v n p h d r, down_run p h d r ->
    down_run ((v, n) :: p) ((Down v n, Done) :: (Get, Done) :: (Exec (delete_statement v n), Done) :: h) ((v, n) :: d) r.

Lemma sublist_exists : forall (P : migration_record -> Prop) l,
  (forall x, In x l -> P x \/ ~ P x) -> exists out, sublist_of P l out.
Proof.
  induction l as [|x l IH]; intros H; [eexists; constructor|].
  destruct IH as (out & S). { intros; apply H; right; assumption. }
  destruct (H x (or_introl eq_refl)); eexists; [apply so_take|apply so_skip]; eassumption.
Qed.
Lemma in_classic : forall (x : migration_record) l, In x l \/ ~ In x l.
Proof. intros x l. destruct (in_dec record_dec x l); auto. Qed.

Lemma revert_cases : forall w v n l i a h r a' h', revert w v n l i (a, h) = (r, (a', h')) ->
  (exists e b, r = Err e /\ a' = a /\ h' = h ++ [(Down v n, Failed e b)]) \/
  (exists e b, r = Err e /\ a' = map_set a v (swap_remove l i) /\ h' = h ++ [(Down v n, Done); (Get, Failed e b)]) \/
  (exists e b, r = Err e /\ a' = map_set a v (swap_remove l i) /\
     h' = h ++ [(Down v n, Done); (Get, Done); (Exec (delete_statement v n), Failed e b)]) \/
  (r = Ok tt /\ a' = map_set a v (swap_remove l i) /\
     h' = h ++ [(Down v n, Done); (Get, Done); (Exec (delete_statement v n), Done)]).
Proof.
  intros w v n l i a h r a' h'. unfold revert, iobind, await. cbn match.
  destruct (w h (Down v n)) as [|e b].
  2:{ intros E. injection E as <- <- <-. left. eauto. }
  destruct (w (h ++ [(Down v n, Done)]) Get) as [|e b].
  2:{ intros E. injection E as <- <- <-. right. left. rewrite <- app_assoc. exists e, b. auto. }
  destruct (w ((h ++ [(Down v n, Done)]) ++ [(Get, Done)]) (Exec (delete_statement v n))) as [|e b].
  2:{ intros E. injection E as <- <- <-. right. right. left. rewrite <- !app_assoc. exists e, b. auto. }
  intros E. injection E as <- <- <-. right. right. right. rewrite <- !app_assoc. auto.
Qed.

Lemma run_down : forall w ms t a h r a' h', NoDup ms -> represents a t ->
  run_all (down_one w) ms (a, h) = (r, (a', h')) ->
  exists plan tr d t', h' = h ++ tr /\ sublist_of (fun m => In m t) ms plan /\ down_run plan tr d r /\
    sublist_of (fun m => ~ In m d) t t' /\ represents a' t'.
Proof.
  induction ms as [|(v, n) ms IH]; intros t a h r a' h' ND R; cbn [run_all].
  - intros E. injection E as <- <- <-. exists [], [], [], t. rewrite app_nil_r.
    splits; auto; try constructor. apply sublist_all. auto.
  - inversion ND as [|? ? Hn ND']; subst. unfold iobind at 1, down_one at 1. cbn [fst snd].
    destruct (get_applied a v n) as [(l, i)|] eqn:G.
    + assert (Hin : In (v, n) t).
      { apply (R v). destruct (in_dec (list_eq_dec Z.eq_dec) n (names a v)) as [X|X]; auto.
        apply get_applied_none in X. congruence. }
      destruct (sublist_exists (fun m => In m t) ms) as (plan & S). { intros; apply in_classic. }
      destruct (sublist_exists (fun m => m <> (v, n)) t) as (t1 & S1). { intros x _. destruct (record_dec x (v, n)); auto. }
      pose proof (represents_remove _ _ _ _ _ _ _ R G S1) as R1.
      assert (S1' : sublist_of (fun m => ~ In m [(v, n)]) t t1).
      { eapply sublist_ext; [|exact S1]. intros x _. cbn [In]. split; intros K; [intros [X|X]; auto|intros X; apply K; auto]. }
      destruct (revert w v n l i (a, h)) as (r1, (a1, h1)) eqn:E1.
      apply revert_cases in E1. destruct E1 as [(e & b & -> & -> & ->)|[(e & b & -> & -> & ->)|[(e & b & -> & -> & ->)|(-> & -> & ->)]]].
      * intros E. injection E as <- <- <-. eexists ((v, n) :: plan), _, [], t. splits; auto; try constructor; auto.
        apply sublist_all. auto.
      * intros E. injection E as <- <- <-. eexists ((v, n) :: plan), _, [(v, n)], t1. splits; auto; try constructor; auto.
      * intros E. injection E as <- <- <-. eexists ((v, n) :: plan), _, [(v, n)], t1. splits; auto; try constructor; auto.
      * intros E. destruct (IH _ _ _ _ _ _ ND' R1 E) as (p & tr & d & t' & H1 & H2 & H3 & H4 & H5).
        exists ((v, n) :: p), ((Down v n, Done) :: (Get, Done) :: (Exec (delete_statement v n), Done) :: tr), ((v, n) :: d), t'.
        splits; auto.
        -- rewrite H1, <- !app_assoc. reflexivity.
        -- constructor; auto. eapply sublist_ext; [|exact H2]. intros x Hx. cbv beta.
           rewrite (sublist_in _ _ _ _ S1). split; [tauto|]. intros K. split; auto. intros ->. contradiction.
        -- constructor. assumption.
        -- eapply sublist_ext; [|eapply sublist_comp; [exact S1|exact H4]]. intros x _. cbn [In]. intuition congruence.
    + intros E. apply get_applied_none in G. destruct (IH _ _ _ _ _ _ ND' R E) as (p & tr & d & t' & H1 & H2 & H3 & H4 & H5).
      exists p, tr, d, t'. splits; auto. constructor; auto. intros K. apply G. apply (R v). assumption.
Qed.

Fixpoint one_down_all (w : oracle) (ms : list migration_record) : IO mig_state bool :=
  match ms with
  | [] => fun s => (Ok false, s)
  | m :: r => fun s => match get_applied (fst s) (fst m) (snd m) with
                       | None => one_down_all w r s
                       | Some (l, i) => iobind (revert w (fst m) (snd m) l i) (fun _ s => (Ok true, s)) s
                       end
  end.

Lemma one_down_names_app : forall w v ns ms s,
  one_down_all w (map (fun n => (v, n)) ns ++ ms) s =
  iobind (one_down_names w v ns) (fun done : bool => if done then (fun s => (Ok true, s)) else one_down_all w ms) s.
Proof.
  induction ns as [|n ns IH]; intros ms s; cbn [map app one_down_all one_down_names]; [reflexivity|].
  cbn [fst snd]. unfold iobind at 2. destruct (get_applied (fst s) v n) as [(l, i)|].
  - unfold iobind. destruct (revert w v n l i s) as [[[]|e|] s']; reflexivity.
  - rewrite IH. reflexivity.
Qed.

Lemma one_down_flat : forall w lists s, one_down w lists s = one_down_all w (rev (listed lists)) s.
Proof.
  intros w lists s. unfold one_down. rewrite listed_rev. generalize (rev lists). clear lists.
  intros lists. revert s. induction lists as [|m lists IH]; intros s; cbn [one_down_lists flat_map]; [reflexivity|].
  rewrite one_down_names_app. apply iobind_ext; [reflexivity|]. intros [] s'; [reflexivity|apply IH].
Qed.

Lemma run_one_down : forall w ms t a h r a' h', represents a t ->
  one_down_all w ms (a, h) = (r, (a', h')) ->
  (r = Ok false /\ a' = a /\ h' = h /\ forall m, In m ms -> ~ In m t) \/
  exists p m q tr d t' r', ms = p ++ m :: q /\ (forall x, In x p -> ~ In x t) /\ In m t /\ h' = h ++ tr /\
    down_run [m] tr d r' /\ r = rmap (fun _ => true) r' /\
    sublist_of (fun m => ~ In m d) t t' /\ represents a' t'.
Proof.
  intros w ms. induction ms as [|(v, n) ms IH]; intros t a h r a' h' R.
  - intros E. injection E as <- <- <-. left. splits; auto.
  - cbn [one_down_all fst snd]. destruct (get_applied a v n) as [(l, i)|] eqn:G.
    + assert (Hin : In (v, n) t).
      { apply (R v). destruct (in_dec (list_eq_dec Z.eq_dec) n (names a v)) as [X|X]; auto.
        apply get_applied_none in X. congruence. }
      destruct (sublist_exists (fun m => m <> (v, n)) t) as (t1 & S1). { intros x _. destruct (record_dec x (v, n)); auto. }
      pose proof (represents_remove _ _ _ _ _ _ _ R G S1) as R1.
      assert (S1' : sublist_of (fun m => ~ In m [(v, n)]) t t1).
      { eapply sublist_ext; [|exact S1]. intros x _. cbn [In]. split; intros K; [intros [X|X]; auto|intros X; apply K; auto]. }
      unfold iobind. destruct (revert w v n l i (a, h)) as (r1, (a1, h1)) eqn:E1. intros H.
      apply revert_cases in E1. right. exists [], (v, n), ms.
      destruct E1 as [(e & b & -> & -> & ->)|[(e & b & -> & -> & ->)|[(e & b & -> & -> & ->)|(-> & -> & ->)]]];
        injection H as <- <- <-.
      * eexists _, [], t, (Err e). splits; auto; try constructor. apply sublist_all. auto.
      * eexists _, [(v, n)], t1, (Err e). splits; auto; constructor.
      * eexists _, [(v, n)], t1, (Err e). splits; auto; constructor.
      * eexists _, [(v, n)], t1, (Ok tt). splits; auto; constructor. constructor.
    + intros E. apply get_applied_none in G.
      assert (N : ~ In (v, n) t) by (intros K; apply G, (R v); exact K).
      destruct (IH _ _ _ _ _ _ R E) as [(-> & -> & -> & H)|(p & m & q & tr & d & t' & r' & -> & H1 & H2 & H3 & H4 & H5 & H6 & H7)].
      * left. splits; auto. intros m [<-|K]; auto.
      * right. exists ((v, n) :: p), m, q, tr, d, t', r'. splits; auto. intros x [<-|K]; auto.
Qed.

(** ** The statements *)
Lemma digit_split : forall a a' c c' x x', Forall digit a -> Forall digit a' -> ~ digit c -> ~ digit c' ->
  a ++ c :: x = a' ++ c' :: x' -> a = a' /\ c :: x = c' :: x'.
Proof.
  induction a as [|d a IH]; intros [|d' a'] c c' x x' Ha Ha' Hc Hc' E; cbn [app] in E.
  - auto.
  - inversion Ha'; subst. injection E as E1 E2. subst. contradiction.
  - inversion Ha; subst. injection E as E1 E2. subst. contradiction.
  - inversion Ha; inversion Ha'; subst. injection E as -> E.
    destruct (IH _ _ _ _ _ H2 H6 Hc Hc' E) as (-> & ->). auto.
Qed.

Lemma digit_split_at : forall p a a' x x', Forall digit a -> Forall digit a' ->
  match p with [] => False | c :: _ => ~ digit c end ->
  a ++ p ++ x = a' ++ p ++ x' -> a = a' /\ x = x'.
Proof.
  intros [|c p] a a' x x' A A' H E; [contradiction|]. cbn [app] in E.
  apply digit_split in E; auto. destruct E as (-> & E). injection E as E. apply app_inv_head in E. auto.
Qed.

Lemma nat_text_unique : forall n k l, nat_text n l -> nat_text k l -> n = k.
Proof. intros n k l (_ & _ & A) (_ & _ & B). congruence. Qed.

(** A backslash before % or _ only. *)
Definition kept (n : list Z) : Prop := forall a b, n = a ++ 92 :: b -> exists c, b = 37 :: c \/ b = 95 :: c.

Lemma kept_tail : forall c n, kept (c :: n) -> kept n.
Proof. intros c n K a b ->. apply (K (c :: a)). reflexivity. Qed.

Lemma kept_none : forall n, ~ In 92 n -> kept n.
Proof. intros n H a b ->. exfalso. apply H, in_or_app. right. now left. Qed.

Lemma plain_without : forall n, (length n <= 255)%nat -> ~ In 34 n -> ~ In 92 n -> plain_name n.
Proof. intros n L Q B. split; [exact L|]. split; [exact Q|]. now apply kept_none. Qed.

(** Lists of given names without quotes and backslashes. *)
Ltac given_names :=
  repeat (apply Forall_cons; [split; [cbn [fst snd]; apply plain_without; [vm_compute; lia | |]; intros K; vm_compute in K; intuition discriminate |
    unfold version_small, u16; cbn; lia]|]); apply Forall_nil.

Lemma lex_kept_name : forall bs k n, (length n <= k)%nat -> ~ In 34 n -> (bs = true -> kept n) ->
  lex_quoted bs 34 (n ++ [34]) = Some (n, []).
Proof.
  intros bs k. induction k as [|k IH]; intros n L H K; (destruct n as [|c n]; [now destruct bs|]); cbn [length] in L; [lia|].
  assert (Hc : c <> 34) by (intros ->; apply H; left; reflexivity).
  assert (Hn : ~ In 34 n) by (intros X; apply H; right; exact X).
  cbn [app lex_quoted]. destruct (bs && (c =? 92)) eqn:E.
  - apply andb_true_iff in E. destruct E as (-> & E). apply Z.eqb_eq in E. subst c.
    destruct (K eq_refl [] n eq_refl) as (r & [-> | ->]); cbn [app length] in *.
    + rewrite IH; [reflexivity | lia | intros X; apply Hn; now right | intros _; exact (kept_tail _ _ (kept_tail _ _ (K eq_refl)))].
    + rewrite IH; [reflexivity | lia | intros X; apply Hn; now right | intros _; exact (kept_tail _ _ (kept_tail _ _ (K eq_refl)))].
  - rewrite (proj2 (Z.eqb_neq c 34)) by assumption. rewrite IH; [reflexivity | lia | exact Hn | intros B; exact (kept_tail _ _ (K B))].
Qed.

Lemma lex_plain_name : forall bs n, ~ In 34 n -> (bs = true -> kept n) -> lex_string bs ([34] ++ n ++ [34]) = Some (n, []).
Proof. intros bs n H K. cbn [app lex_string]. now apply (lex_kept_name bs (length n)). Qed.

(** What is read from a literal is no longer than the text before its end. *)
Lemma lex_quoted_shorter : forall bs k n s r, (length n <= k)%nat -> lex_quoted bs 34 n = Some (s, r) -> (length s + length r < length n)%nat.
Proof.
  intros bs k. induction k as [|k IH]; intros n s r L E; (destruct n as [|c n]; [discriminate|]); cbn [length] in L; [lia|].
  cbn [lex_quoted] in E. destruct (bs && (c =? 92)).
  - destruct n as [|e n]; [discriminate|]. cbn [length] in L.
    destruct (lex_quoted bs 34 n) as [(s', r')|] eqn:F; [|discriminate]. injection E as <- <-.
    apply IH in F; [|lia]. rewrite app_length. cbn [length].
    assert (length (unescape e) <= 2)%nat; [|lia].
    unfold unescape. repeat match goal with |- context [match ?x with _ => _ end] => destruct x end; cbn; lia.
  - destruct (c =? 34).
    + destruct n as [|c' n]; [injection E as <- <-; cbn; lia|]. cbn [length] in *.
      destruct (c' =? 34); [|injection E as <- <-; cbn; lia].
      destruct (lex_quoted bs 34 n) as [(s', r')|] eqn:F; [|discriminate]. injection E as <- <-.
      apply IH in F; [|lia]. cbn [length]. lia.
    + destruct (lex_quoted bs 34 n) as [(s', r')|] eqn:F; [|discriminate]. injection E as <- <-.
      apply IH in F; [|lia]. cbn [length]. lia.
Qed.

Lemma unescape_first : forall e s l, unescape e ++ s = 92 :: e :: l -> (e = 37 \/ e = 95) /\ s = l \/ e = 92 /\ s = e :: l.
Proof.
  intros e s l H. destruct (Z.eq_dec e 37) as [-> | A]; [injection H as H; auto|].
  destruct (Z.eq_dec e 95) as [-> | B]; [injection H as H; auto|]. right.
  destruct (Z.eq_dec e 92) as [-> | C]; [injection H as H; auto|]. exfalso.
  revert H. unfold unescape. repeat match goal with |- context [match ?x with _ => _ end] => destruct x end; cbn [app]; intros X; congruence.
Qed.

Lemma lex_exact_name : forall bs k n, (length n <= k)%nat -> lex_quoted bs 34 (n ++ [34]) = Some (n, []) ->
  ~ In 34 n /\ (bs = true -> kept n).
Proof.
  intros bs k. induction k as [|k IH]; intros n L E; (destruct n as [|c n]; [split; [intros [] | intros _ a b X; destruct a; discriminate]|]); cbn [length] in L; [lia|].
  cbn [app lex_quoted] in E. destruct (bs && (c =? 92)) eqn:B.
  - apply andb_true_iff in B. destruct B as (-> & B). apply Z.eqb_eq in B. subst c.
    destruct n as [|e n]; [discriminate|]. cbn [app length] in *.
    destruct (lex_quoted true 34 (n ++ [34])) as [(s, r)|] eqn:F; [|discriminate]. injection E as E ->.
    apply unescape_first in E. destruct E as [(Ee & ->) | (-> & ->)].
    + apply IH in F; [|lia]. destruct F as (F & K). specialize (K eq_refl). split.
      * intros [X | [X | X]]; [discriminate | lia | now apply F].
      * intros _ a b X. destruct a as [|a1 a]; [injection X as <-; destruct Ee as [-> | ->]; eauto|].
        injection X as _ X. destruct a as [|a2 a]; [injection X as X _; lia|]. injection X as _ X. exact (K a b X).
    + apply (lex_quoted_shorter true _ _ _ _ (le_n _)) in F. rewrite app_length in F. cbn [length] in F. lia.
  - destruct (c =? 34) eqn:Q.
    + apply Z.eqb_eq in Q. subst c. destruct n as [|c' n]; [discriminate|]. cbn [app length] in *.
      destruct (c' =? 34) eqn:Q'; [|discriminate]. apply Z.eqb_eq in Q'. subst c'.
      destruct (lex_quoted bs 34 (n ++ [34])) as [(s, r)|] eqn:F; [|discriminate]. injection E as E ->. subst s.
      apply (lex_quoted_shorter bs _ _ _ _ (le_n _)) in F. rewrite app_length in F. cbn [length] in F. lia.
    + destruct (lex_quoted bs 34 (n ++ [34])) as [(s, r)|] eqn:F; [|discriminate]. injection E as E ->. subst s.
      apply IH in F; [|lia]. destruct F as (F & K). apply Z.eqb_neq in Q. split.
      * intros [X | X]; [congruence | now apply F].
      * intros Hb a b X. destruct a as [|a1 a]; [injection X as -> _; subst bs; discriminate|]. injection X as _ X. exact (K Hb a b X).
Qed.

Lemma says_insert_self : forall bs v n, version_small v -> plain_name n -> says_insert bs (insert_statement v n) (v, n).
Proof.
  intros bs v n (A & B & C) (_ & P & Q). unfold u16 in *. fold (kept n) in Q.
  exists (dec (v_0 v)), (dec (v_1 v)), (dec (v_2 v)), ([34] ++ n ++ [34]). cbn [fst snd].
  splits; try (apply dec_nat; lia).
  - unfold insert_statement. rewrite <- !app_assoc. reflexivity.
  - apply lex_plain_name; auto.
Qed.

Lemma says_delete_self : forall bs v n, version_small v -> plain_name n -> says_delete bs (delete_statement v n) (v, n).
Proof.
  intros bs v n (A & B & C) (_ & P & Q). unfold u16 in *. fold (kept n) in Q.
  exists (dec (v_0 v)), (dec (v_1 v)), (dec (v_2 v)), ([34] ++ n ++ [34]). cbn [fst snd].
  splits; try (apply dec_nat; lia).
  - reflexivity.
  - apply lex_plain_name; auto.
Qed.

Ltac nondigit := unfold digit; cbn; lia.
Lemma says_insert_unique : forall bs q r s, says_insert bs q r -> says_insert bs q s -> r = s.
Proof.
  intros bs q ([r0 r1 r2], n) ([s0 s1 s2], m) (a & b & c & lit & E & A & B & C & L) (a' & b' & c' & lit' & E' & A' & B' & C' & L').
  cbn [fst snd v_0 v_1 v_2] in *. rewrite E in E'. apply app_inv_head in E'.
  change (s2l ", ") with ([44; 32]) in E'. change (s2l ")") with [41] in E'. cbn [app] in E'.
  pose proof (proj1 (proj2 A)). pose proof (proj1 (proj2 A')).
  pose proof (proj1 (proj2 B)). pose proof (proj1 (proj2 B')).
  pose proof (proj1 (proj2 C)). pose proof (proj1 (proj2 C')).
  apply digit_split in E'; auto; try nondigit. destruct E' as (-> & E'). injection E' as E'.
  apply digit_split in E'; auto; try nondigit. destruct E' as (-> & E'). injection E' as E'.
  apply digit_split in E'; auto; try nondigit. destruct E' as (-> & E'). injection E' as E'.
  apply app_inj_tail in E'. destruct E' as (-> & _).
  rewrite (nat_text_unique _ _ _ A A'), (nat_text_unique _ _ _ B B'), (nat_text_unique _ _ _ C C').
  congruence.
Qed.

Lemma says_delete_unique : forall bs q r s, says_delete bs q r -> says_delete bs q s -> r = s.
Proof.
  intros bs q ([r0 r1 r2], n) ([s0 s1 s2], m) (a & b & c & lit & E & A & B & C & L) (a' & b' & c' & lit' & E' & A' & B' & C' & L').
  cbn [fst snd v_0 v_1 v_2] in *. rewrite E in E'. apply app_inv_head in E'.
  pose proof (proj1 (proj2 A)). pose proof (proj1 (proj2 A')).
  pose proof (proj1 (proj2 B)). pose proof (proj1 (proj2 B')).
  pose proof (proj1 (proj2 C)). pose proof (proj1 (proj2 C')).
  apply digit_split_at in E'; auto; try nondigit. destruct E' as (-> & E').
  apply digit_split_at in E'; auto; try nondigit. destruct E' as (-> & E').
  apply digit_split_at in E'; auto; try nondigit. destruct E' as (-> & E').
  subst lit'.
  rewrite (nat_text_unique _ _ _ A A'), (nat_text_unique _ _ _ B B'), (nat_text_unique _ _ _ C C').
  congruence.
Qed.

(** Exactly the names recorded as they are. *)
Lemma says_insert_exactly : forall bs v n, version_small v ->
  (says_insert bs (insert_statement v n) (v, n) <-> ~ In 34 n /\ (bs = true -> kept n)).
Proof.
  intros bs [v0 v1 v2] n V. split.
  - intros (a' & b' & c' & lit' & E' & A' & B' & C' & L'). destruct V as (VA & VB & VC). unfold u16 in *. cbn [fst snd v_0 v_1 v_2] in *.
    assert (E : insert_statement (mkVersion v0 v1 v2) n =
      s2l "insert into `migrations` (`version_0`, `version_1`, `version_2`, `name`) values (" ++
        dec v0 ++ s2l ", " ++ dec v1 ++ s2l ", " ++ dec v2 ++ s2l ", " ++ ([34] ++ n ++ [34]) ++ s2l ")").
    { unfold insert_statement. cbn [v_0 v_1 v_2]. rewrite <- !app_assoc. reflexivity. }
    rewrite E in E'. apply app_inv_head in E'.
    change (s2l ", ") with ([44; 32]) in E'. change (s2l ")") with [41] in E'. cbn [app] in E'.
    assert (A : nat_text v0 (dec v0)) by (apply dec_nat; lia). assert (B : nat_text v1 (dec v1)) by (apply dec_nat; lia).
    assert (C : nat_text v2 (dec v2)) by (apply dec_nat; lia).
    pose proof (proj1 (proj2 A)). pose proof (proj1 (proj2 A')).
    pose proof (proj1 (proj2 B)). pose proof (proj1 (proj2 B')).
    pose proof (proj1 (proj2 C)). pose proof (proj1 (proj2 C')).
    apply digit_split in E'; auto; try nondigit. destruct E' as (_ & E'). injection E' as E'.
    apply digit_split in E'; auto; try nondigit. destruct E' as (_ & E'). injection E' as E'.
    apply digit_split in E'; auto; try nondigit. destruct E' as (_ & E'). injection E' as E'.
    change (34 :: (n ++ [34]) ++ [41]) with ((34 :: n ++ [34]) ++ [41]) in E'.
    apply app_inj_tail in E'. destruct E' as (<- & _). cbn [lex_string] in L'. exact (lex_exact_name bs _ n (le_n _) L').
  - intros (Q & K). destruct V as (VA & VB & VC). unfold u16 in *. cbn [v_0 v_1 v_2] in *.
    exists (dec v0), (dec v1), (dec v2), ([34] ++ n ++ [34]). cbn [fst snd v_0 v_1 v_2]. splits; try (apply dec_nat; lia).
    + unfold insert_statement. cbn [v_0 v_1 v_2]. rewrite <- !app_assoc. reflexivity.
    + now apply lex_plain_name.
Qed.

Lemma says_delete_exactly : forall bs v n, version_small v ->
  (says_delete bs (delete_statement v n) (v, n) <-> ~ In 34 n /\ (bs = true -> kept n)).
Proof.
  intros bs [v0 v1 v2] n V. split.
  - intros (a' & b' & c' & lit' & E' & A' & B' & C' & L'). destruct V as (VA & VB & VC). unfold u16 in *. cbn [fst snd v_0 v_1 v_2] in *.
    unfold delete_statement in E'. cbn [v_0 v_1 v_2] in E'. apply app_inv_head in E'.
    assert (A : nat_text v0 (dec v0)) by (apply dec_nat; lia). assert (B : nat_text v1 (dec v1)) by (apply dec_nat; lia).
    assert (C : nat_text v2 (dec v2)) by (apply dec_nat; lia).
    pose proof (proj1 (proj2 A)). pose proof (proj1 (proj2 A')).
    pose proof (proj1 (proj2 B)). pose proof (proj1 (proj2 B')).
    pose proof (proj1 (proj2 C)). pose proof (proj1 (proj2 C')).
    apply digit_split_at in E'; auto; try nondigit. destruct E' as (_ & E').
    apply digit_split_at in E'; auto; try nondigit. destruct E' as (_ & E').
    apply digit_split_at in E'; auto; try nondigit. destruct E' as (_ & E').
    subst lit'. exact (lex_exact_name bs _ n (le_n _) L').
  - intros (Q & K). destruct V as (VA & VB & VC). unfold u16 in *. cbn [v_0 v_1 v_2] in *.
    exists (dec v0), (dec v1), (dec v2), ([34] ++ n ++ [34]). cbn [fst snd v_0 v_1 v_2]. splits; try (apply dec_nat; lia).
    + reflexivity.
    + now apply lex_plain_name.
Qed.

Lemma says_not_both : forall bs q r s, says_insert bs q r -> says_delete bs q s -> False.
Proof. intros bs q r s (a & b & c & l & -> & _) (a' & b' & c' & l' & E & _). discriminate. Qed.

(** ** The table under a run *)
Section Table.
  Variable bs : bool.
  Variable coll : list Z -> list Z -> bool.
  Hypothesis coll_refl : forall n, coll n n = true.

  Definition entry_ok (m : migration_record) : Prop := plain_name (snd m) /\ version_small (fst m).

  Lemma effect_insert_iff : forall v n t t', entry_ok (v, n) ->
    (effect bs coll (insert_statement v n) t t' <-> t' = t ++ [(v, n)] /\ Forall (fun s => ~ clash coll s (v, n)) t).
  Proof.
    intros v n t t' (P & V). cbn [fst snd] in *. pose proof (says_insert_self bs v n V P) as S.
    split.
    - intros E. inversion E; subst.
      + pose proof (says_insert_unique _ _ _ _ S H). subst. auto.
      + exfalso. eapply says_not_both; eassumption.
    - intros (-> & F). destruct V as (A & B & C). destruct P as (L & _). constructor; auto.
  Qed.

  Lemma effect_delete_iff : forall v n t t', entry_ok (v, n) ->
    (effect bs coll (delete_statement v n) t t' <-> sublist_of (fun s => ~ clash coll s (v, n)) t t').
  Proof.
    intros v n t t' (P & V). cbn [fst snd] in *. pose proof (says_delete_self bs v n V P) as S.
    split.
    - intros E. inversion E; subst.
      + exfalso. eapply says_not_both; eassumption.
      + pose proof (says_delete_unique _ _ _ _ S H). subst. assumption.
    - intros F. eapply ef_delete; eassumption.
  Qed.

  Lemma storable_ok : forall ms, storable coll ms -> forall m, In m ms -> entry_ok m.
  Proof. intros ms (F & _) m H. rewrite Forall_forall in F. apply F. assumption. Qed.

  Lemma storable_clash : forall ms, storable coll ms -> forall r s, In r ms -> In s ms -> r <> s -> ~ clash coll r s.
  Proof.
    intros ms (_ & O) r s Hr Hs N. destruct (ForallOrdPairs_In O r s Hr Hs) as [X|[X|X]]; [contradiction| |]; apply X.
  Qed.

  Lemma storable_nodup : forall ms, storable coll ms -> NoDup ms.
  Proof.
    intros ms (_ & O). induction O as [|m ms F O IH]; constructor; auto.
    intros K. rewrite Forall_forall in F. destruct (F m K) as (X & _). apply X. split; auto.
  Qed.

  Lemma table_other : forall t a o h t', (forall q, a <> Exec q) ->
    (table_after bs coll t ((a, o) :: h) t' <-> table_after bs coll t h t').
  Proof.
    intros t a o h t' N. split.
    - intros T. inversion T; subst; auto; exfalso; eapply N; reflexivity.
    - intros T. apply ta_other; auto.
  Qed.

  Lemma table_nil : forall t t', table_after bs coll t [] t' <-> t' = t.
  Proof. intros t t'. split; [intros T; inversion T; reflexivity|intros ->; constructor]. Qed.

  Lemma table_exec : forall t q h t', table_after bs coll t ((Exec q, Done) :: h) t' <->
    exists t1, effect bs coll q t t1 /\ table_after bs coll t1 h t'.
  Proof.
    intros t q h t'. split.
    - intros T. inversion T; subst; eauto.
      exfalso. match goal with H : forall q', Exec _ <> Exec q' |- _ => eapply H; reflexivity end.
    - intros (t1 & E & T). eapply ta_done; eassumption.
  Qed.

  Lemma table_exec_failed : forall t q e b h t', table_after bs coll t ((Exec q, Failed e b) :: h) t' <->
    if b then exists t1, effect bs coll q t t1 /\ table_after bs coll t1 h t' else table_after bs coll t h t'.
  Proof.
    intros t q e b h t'. split.
    - intros T. inversion T; subst; eauto.
      exfalso. match goal with H : forall q', Exec _ <> Exec q' |- _ => eapply H; reflexivity end.
    - destruct b; [intros (t1 & E & T); eapply ta_lost; eassumption|]. intros T. apply ta_failed. assumption.
  Qed.

  (** Everything may be recorded after [t]. *)
  Definition fits (t plan : list migration_record) : Prop :=
    Forall entry_ok plan /\ NoDup (t ++ plan) /\
    forall r s, In r (t ++ plan) -> In s (t ++ plan) -> r <> s -> ~ clash coll r s.

  Lemma fits_next : forall t m p, fits t (m :: p) -> fits (t ++ [m]) p.
  Proof.
    intros t m p (F & N & C). inversion F; subst.
    replace (t ++ m :: p) with ((t ++ [m]) ++ p) in N, C by (rewrite <- app_assoc; reflexivity).
    unfold fits. splits; auto.
  Qed.

  Lemma fits_insert : forall t v n p, fits t ((v, n) :: p) -> forall t',
    effect bs coll (insert_statement v n) t t' <-> t' = t ++ [(v, n)].
  Proof.
    intros t v n p (F & N & C) t'. inversion F; subst. rewrite effect_insert_iff by assumption.
    split; [tauto|]. intros ->. split; auto. rewrite Forall_forall. intros s Hs. apply C.
    - apply in_app_iff. auto.
    - apply in_app_iff. right. left. reflexivity.
    - intros ->. apply NoDup_remove_2 in N. apply N. apply in_app_iff. auto.
  Qed.

  Lemma up_complete : forall plan tr d r, up_run plan tr d r -> r = Ok tt -> forall t, fits t plan ->
    d = plan /\ started tr = plan /\ reverted tr = [] /\ (forall t', table_after bs coll t tr t' <-> t' = t ++ plan) /\
    Forall (fun ev => snd ev = Done) tr.
  Proof.
    intros plan tr d r U. induction U; intros E t F; try discriminate.
    - splits; auto. intros t'. rewrite app_nil_r. apply table_nil.
    - pose proof (fits_next _ _ _ F) as F'. destruct (IHU E _ F') as (-> & S & R & T & A).
      cbn [started reverted]. splits; auto.
      + congruence.
      + intros t'. rewrite !table_other by discriminate. rewrite table_exec. split.
        * intros (t1 & X & Y). apply (fits_insert _ _ _ _ F) in X. subst t1. apply T in Y.
          rewrite <- app_assoc in Y. exact Y.
        * intros ->. exists (t ++ [(v, n)]). split; [apply (fits_insert _ _ _ _ F); reflexivity|].
          apply T. rewrite <- app_assoc. reflexivity.
  Qed.

  Lemma sublist_nothing : forall (t t' : list migration_record), sublist_of (fun x => ~ In x []) t t' <-> t' = t.
  Proof.
    intros t t'. split.
    - intros S. eapply sublist_unique; [exact S|]. apply sublist_all. auto.
    - intros ->. apply sublist_all. auto.
  Qed.

  (** Every prefix of the history of an upward run. *)
  Ltac triv := splits; try reflexivity; try (left; reflexivity); try (right; eexists; reflexivity);
    try solve [intros ? ? []]; try (intros t'; rewrite ?app_nil_r; repeat rewrite table_other by discriminate;
      rewrite ?table_exec_failed; rewrite ?sublist_nothing; apply table_nil).

  Lemma up_prefix : forall plan tr d r, up_run plan tr d r -> forall p q t, tr = p ++ q -> fits t plan ->
    reverted p = [] /\
    exists rec todo, plan = started p ++ todo /\
      (started p = rec \/ exists m, started p = rec ++ [m]) /\
      (forall v n, In (v, n) rec -> In (Up v n, Done) p) /\
      (forall t', table_after bs coll t p t' <-> t' = t ++ rec).
  Proof.
    intros plan tr d r U. induction U; intros pre q t E F.
    - destruct pre; [|discriminate]. cbn [started reverted]. split; auto. exists [], []. triv.
    - destruct pre as [|e1 [|e2 pre]]; [| |destruct pre; discriminate].
      + cbn [started reverted]. split; auto. exists [], ((v, n) :: p). triv.
      + injection E as <- E. split; auto. cbn [started reverted]. exists [], p. triv.
    - destruct pre as [|e1 [|e2 [|e3 pre]]]; [| | |destruct pre; discriminate].
      + cbn [started reverted]. split; auto. exists [], ((v, n) :: p). triv.
      + injection E as <- E. split; auto. cbn [started reverted]. exists [], p. triv.
      + injection E as <- <- E. split; auto. cbn [started reverted]. exists [], p. triv.
    - destruct pre as [|e1 [|e2 [|e3 pre]]].
      + cbn [started reverted]. split; auto. exists [], ((v, n) :: p). triv.
      + injection E as <- E. split; auto. cbn [started reverted]. exists [], p. triv.
      + injection E as <- <- E. split; auto. cbn [started reverted]. exists [], p. triv.
      + injection E as <- <- <- E. destruct pre; [|discriminate]. split; auto. cbn [started reverted].
        exists (if b then [(v, n)] else []), p. destruct b; triv.
        * intros v' n' [K|[]]. injection K as <- <-. left. reflexivity.
        * intros t'. rewrite !table_other by discriminate. rewrite table_exec_failed. split.
          -- intros (t1 & X & Y). apply (fits_insert _ _ _ _ F) in X. apply table_nil in Y. congruence.
          -- intros ->. exists (t ++ [(v, n)]). split; [apply (fits_insert _ _ _ _ F); reflexivity|apply table_nil; reflexivity].
    - destruct pre as [|e1 [|e2 [|e3 pre]]].
      + cbn [started reverted]. split; auto. exists [], ((v, n) :: p). triv.
      + injection E as <- E. split; auto. cbn [started reverted]. exists [], p. triv.
      + injection E as <- <- E. split; auto. cbn [started reverted]. exists [], p. triv.
      + injection E as <- <- <- E. pose proof (fits_next _ _ _ F) as F'.
        destruct (IHU _ _ _ E F') as (R & rec & todo & P & S & D & T). cbn [started reverted]. split; auto.
        exists ((v, n) :: rec), todo. splits.
        * rewrite P at 1. reflexivity.
        * destruct S as [->|(m & ->)]; [left; reflexivity|right; exists m; reflexivity].
        * intros v' n' [K|K]; [injection K as <- <-; left; reflexivity|]. right. right. right. auto.
        * intros t'. rewrite !table_other by discriminate. rewrite table_exec. split.
          -- intros (t1 & X & Y). apply (fits_insert _ _ _ _ F) in X. subst t1. apply T in Y.
             rewrite <- app_assoc in Y. exact Y.
          -- intros ->. exists (t ++ [(v, n)]). split; [apply (fits_insert _ _ _ _ F); reflexivity|].
             apply T. rewrite <- app_assoc. reflexivity.
  Qed.

  (** Removing records. *)
  Definition fits_down (t plan : list migration_record) : Prop :=
    Forall entry_ok plan /\ (forall r s, In r t -> In s plan -> r <> s -> ~ clash coll r s).

  Lemma fits_delete : forall t v n p, fits_down t ((v, n) :: p) -> forall t',
    effect bs coll (delete_statement v n) t t' <-> sublist_of (fun m => m <> (v, n)) t t'.
  Proof.
    intros t v n p (F & C) t'. inversion F; subst. rewrite effect_delete_iff by assumption.
    assert (X : forall x, In x t -> (~ clash coll x (v, n) <-> x <> (v, n))).
    { intros x Hx. split.
      - intros K ->. apply K. split; auto.
      - intros K. apply C; auto. left. reflexivity. }
    split; apply sublist_ext; intros x Hx; specialize (X x Hx); tauto.
  Qed.

  Lemma fits_down_next : forall t v n p t1, fits_down t ((v, n) :: p) -> sublist_of (fun m => m <> (v, n)) t t1 ->
    fits_down t1 p.
  Proof.
    intros t v n p t1 (F & C) S. inversion F; subst. split; auto. intros r s Hr Hs. apply C; [|right; assumption].
    apply (sublist_in _ _ _ _ S) in Hr. tauto.
  Qed.

  Lemma sublist_two : forall (m : migration_record) d t t',
    (exists t1, sublist_of (fun x => x <> m) t t1 /\ sublist_of (fun x => ~ In x d) t1 t') <->
    sublist_of (fun x => ~ In x (m :: d)) t t'.
  Proof.
    intros m d t t'. split.
    - intros (t1 & A & B). eapply sublist_ext; [|eapply sublist_comp; [exact A|exact B]].
      intros x _. cbn [In]. intuition congruence.
    - intros S. destruct (sublist_exists (fun x => x <> m) t) as (t1 & A).
      { intros x _. destruct (record_dec x m); auto. }
      destruct (sublist_exists (fun x => ~ In x d) t1) as (t2 & B).
      { intros x _. destruct (in_dec record_dec x d); auto. }
      exists t1. split; auto. replace t' with t2; auto. eapply sublist_unique; [|exact S].
      eapply sublist_ext; [|eapply sublist_comp; [exact A|exact B]]. intros x _. cbn [In]. intuition congruence.
  Qed.

  Lemma down_complete : forall plan tr d r, down_run plan tr d r -> r = Ok tt -> forall t, fits_down t plan ->
    d = plan /\ reverted tr = plan /\ started tr = [] /\
    (forall t', table_after bs coll t tr t' <-> sublist_of (fun m => ~ In m plan) t t') /\
    Forall (fun ev => snd ev = Done) tr.
  Proof.
    intros plan tr d r U. induction U; intros E t F; try discriminate.
    - splits; auto. intros t'. rewrite table_nil, sublist_nothing. tauto.
    - destruct (sublist_exists (fun x => x <> (v, n)) t) as (t1 & A).
      { intros x _. destruct (record_dec x (v, n)); auto. }
      pose proof (fits_down_next _ _ _ _ _ F A) as F'. destruct (IHU E _ F') as (-> & S & R & T & D).
      cbn [started reverted]. splits; auto.
      + congruence.
      + intros t'. rewrite !table_other by discriminate. rewrite table_exec, <- sublist_two. split.
        * intros (t2 & X & Y). apply (fits_delete _ _ _ _ F) in X.
          rewrite (sublist_unique _ _ _ _ _ X A) in Y. exists t1. split; auto. apply T. assumption.
        * intros (t2 & X & Y). rewrite (sublist_unique _ _ _ _ _ X A) in Y. exists t1. split.
          -- apply (fits_delete _ _ _ _ F). assumption.
          -- apply T. assumption.
  Qed.

  Lemma down_prefix : forall plan tr d r, down_run plan tr d r -> forall p q t, tr = p ++ q -> fits_down t plan ->
    started p = [] /\
    exists rem todo, plan = reverted p ++ todo /\
      (reverted p = rem \/ exists m, reverted p = rem ++ [m]) /\
      (forall v n, In (v, n) rem -> In (Down v n, Done) p) /\
      (forall t', table_after bs coll t p t' <-> sublist_of (fun m => ~ In m rem) t t').
  Proof.
    intros plan tr d r U. induction U; intros pre q t E F.
    - destruct pre; [|discriminate]. cbn [started reverted]. split; auto. exists [], []. triv.
    - destruct pre as [|e1 [|e2 pre]]; [| |destruct pre; discriminate].
      + cbn [started reverted]. split; auto. exists [], ((v, n) :: p). triv.
      + injection E as <- E. split; auto. cbn [started reverted]. exists [], p. triv.
    - destruct pre as [|e1 [|e2 [|e3 pre]]]; [| | |destruct pre; discriminate].
      + cbn [started reverted]. split; auto. exists [], ((v, n) :: p). triv.
      + injection E as <- E. split; auto. cbn [started reverted]. exists [], p. triv.
      + injection E as <- <- E. split; auto. cbn [started reverted]. exists [], p. triv.
    - destruct pre as [|e1 [|e2 [|e3 pre]]].
      + cbn [started reverted]. split; auto. exists [], ((v, n) :: p). triv.
      + injection E as <- E. split; auto. cbn [started reverted]. exists [], p. triv.
      + injection E as <- <- E. split; auto. cbn [started reverted]. exists [], p. triv.
      + injection E as <- <- <- E. destruct pre; [|discriminate]. split; auto. cbn [started reverted].
        exists (if b then [(v, n)] else []), p. destruct b; triv.
        * intros v' n' [K|[]]. injection K as <- <-. left. reflexivity.
        * intros t'. rewrite !table_other by discriminate. rewrite table_exec_failed, <- sublist_two. split.
          -- intros (t1 & X & Y). apply (fits_delete _ _ _ _ F) in X. exists t1. split; auto.
             apply sublist_nothing. apply table_nil in Y. assumption.
          -- intros (t1 & X & Y). apply sublist_nothing in Y. subst t'. exists t1. split; [|apply table_nil; reflexivity].
             apply (fits_delete _ _ _ _ F). assumption.
    - destruct pre as [|e1 [|e2 [|e3 pre]]].
      + cbn [started reverted]. split; auto. exists [], ((v, n) :: p). triv.
      + injection E as <- E. split; auto. cbn [started reverted]. exists [], p. triv.
      + injection E as <- <- E. split; auto. cbn [started reverted]. exists [], p. triv.
      + injection E as <- <- <- E.
        destruct (sublist_exists (fun x => x <> (v, n)) t) as (t1 & A).
        { intros x _. destruct (record_dec x (v, n)); auto. }
        pose proof (fits_down_next _ _ _ _ _ F A) as F'.
        destruct (IHU _ _ _ E F') as (R & rem & todo & P & S & D & T). cbn [started reverted]. split; auto.
        exists ((v, n) :: rem), todo. splits.
        * rewrite P at 1. reflexivity.
        * destruct S as [->|(m & ->)]; [left; reflexivity|right; exists m; reflexivity].
        * intros v' n' [K|K]; [injection K as <- <-; left; reflexivity|]. right. right. right. auto.
        * intros t'. rewrite !table_other by discriminate. rewrite table_exec, <- sublist_two. split.
          -- intros (t2 & X & Y). apply (fits_delete _ _ _ _ F) in X.
             rewrite (sublist_unique _ _ _ _ _ X A) in Y. exists t1. split; auto. apply T. assumption.
          -- intros (t2 & X & Y). rewrite (sublist_unique _ _ _ _ _ X A) in Y. exists t1. split.
             ++ apply (fits_delete _ _ _ _ F). assumption.
             ++ apply T. assumption.
  Qed.
End Table.

(** ** Opening *)
Definition four : migration_mapping := mkMigrationMapping (Some 0%nat) (Some 1%nat) (Some 2%nat) (Some 3%nat).

Lemma mm_set_0 : forall m c i, col_org_name c = s2l "version_0" ->
  mm_set m c i = mkMigrationMapping (Some i) (mm_1 m) (mm_2 m) (mm_name m).
Proof. intros m c i E. unfold mm_set. rewrite E. reflexivity. Qed.
Lemma mm_set_1 : forall m c i, col_org_name c = s2l "version_1" ->
  mm_set m c i = mkMigrationMapping (mm_0 m) (Some i) (mm_2 m) (mm_name m).
Proof. intros m c i E. unfold mm_set. rewrite E. reflexivity. Qed.
Lemma mm_set_2 : forall m c i, col_org_name c = s2l "version_2" ->
  mm_set m c i = mkMigrationMapping (mm_0 m) (mm_1 m) (Some i) (mm_name m).
Proof. intros m c i E. unfold mm_set. rewrite E. reflexivity. Qed.
Lemma mm_set_name : forall m c i, col_org_name c = s2l "name" ->
  mm_set m c i = mkMigrationMapping (mm_0 m) (mm_1 m) (mm_2 m) (Some i).
Proof. intros m c i E. unfold mm_set. rewrite E. reflexivity. Qed.

Lemma mapping_four : forall cols, map col_org_name cols = [s2l "version_0"; s2l "version_1"; s2l "version_2"; s2l "name"] ->
  mm_from_columns (mkMigrationMapping None None None None) 0 cols = four.
Proof.
  intros cols E. destruct cols as [|c0 [|c1 [|c2 [|c3 [|c4 cols]]]]]; try discriminate.
  cbn [map] in E. injection E as E0 E1 E2 E3. cbn [mm_from_columns].
  rewrite (mm_set_0 _ _ _ E0), (mm_set_1 _ _ _ E1), (mm_set_2 _ _ _ E2), (mm_set_name _ _ _ E3). reflexivity.
Qed.

(** The field of a name, and the mapping for any columns. *)
Definition mm_field (name : str) (m : migration_mapping) : option nat :=
  if list_eqb name (s2l "version_0") then mm_0 m else if list_eqb name (s2l "version_1") then mm_1 m
  else if list_eqb name (s2l "version_2") then mm_2 m else mm_name m.
Definition mm_names : list str := [s2l "version_0"; s2l "version_1"; s2l "version_2"; s2l "name"].

Lemma mm_set_field : forall name m c i, In name mm_names ->
  mm_field name (mm_set m c i) = if list_eqb (col_org_name c) name then Some i else mm_field name m.
Proof.
  intros name m c i [<-|[<-|[<-|[<-|[]]]]]; unfold mm_set;
    destruct (list_eqb (col_org_name c) (s2l "version_0")) eqn:E0;
    try (apply list_eqb_eq in E0; rewrite E0; reflexivity);
    destruct (list_eqb (col_org_name c) (s2l "version_1")) eqn:E1;
    try (apply list_eqb_eq in E1; rewrite E1; reflexivity);
    destruct (list_eqb (col_org_name c) (s2l "version_2")) eqn:E2;
    try (apply list_eqb_eq in E2; rewrite E2; reflexivity);
    destruct (list_eqb (col_org_name c) (s2l "name")) eqn:E3;
    try (apply list_eqb_eq in E3; rewrite E3; reflexivity); reflexivity.
Qed.

Lemma mm_columns_field : forall name, In name mm_names -> forall cols m k,
  (forall i, last_named name cols i -> mm_field name (mm_from_columns m k cols) = Some (k + i)%nat) /\
  (~ In name (map col_org_name cols) -> mm_field name (mm_from_columns m k cols) = mm_field name m).
Proof.
  intros name Hn. induction cols as [|c cols IH]; intros m k; cbn [mm_from_columns map].
  - split; [intros [|i] (H & _); discriminate | reflexivity].
  - destruct (IH (mm_set m c k) (S k)) as (I1 & I2). split.
    + intros [|i] (H & Hlast).
      * cbn [nth_error map] in H. injection H as H. rewrite I2.
        -- rewrite mm_set_field by exact Hn. rewrite H, list_eqb_refl. f_equal. lia.
        -- intros X. apply In_nth_error in X. destruct X as (j & X). apply (Hlast (S j)); [lia | exact X].
      * rewrite (I1 i); [f_equal; lia|]. split; [exact H|]. intros j Hj. apply (Hlast (S j)). lia.
    + intros X. rewrite I2 by (intros Y; apply X; now right). rewrite mm_set_field by exact Hn.
      destruct (list_eqb (col_org_name c) name) eqn:E; [|reflexivity]. apply list_eqb_eq in E. exfalso. apply X. left. exact E.
Qed.

Lemma take_at : forall i name row (v : value), nth_error row i = Some v ->
  exists row', take_cell (Some i) name row = Ok (v, row') /\ forall j, j <> i -> nth_error row' j = nth_error row j.
Proof.
  intros i name row v H. unfold take_cell. rewrite H. eexists. split; [reflexivity|].
  assert (L : (i < length row)%nat) by (apply nth_error_Some; congruence). intros j Hj.
  assert (Lf : length (firstn i row) = i) by (rewrite firstn_length; lia).
  destruct (Nat.lt_ge_cases j i).
  - rewrite nth_error_app1 by lia. rewrite <- (firstn_skipn i row) at 2. rewrite nth_error_app1 by lia. reflexivity.
  - rewrite nth_error_app2 by lia. rewrite Lf. destruct (j - i)%nat as [|d] eqn:Ed; [lia|]. cbn [nth_error].
    rewrite <- (firstn_skipn (S i) row) at 2. rewrite nth_error_app2 by (rewrite firstn_length; lia).
    f_equal. rewrite firstn_length. lia.
Qed.

Lemma row_named : forall cols row i0 i1 i2 i3 (r : migration_record) text,
  last_named (s2l "version_0") cols i0 -> last_named (s2l "version_1") cols i1 ->
  last_named (s2l "version_2") cols i2 -> last_named (s2l "name") cols i3 ->
  nth_error row i0 = Some (VUShort (v_0 (fst r))) -> nth_error row i1 = Some (VUShort (v_1 (fst r))) ->
  nth_error row i2 = Some (VUShort (v_2 (fst r))) -> nth_error row i3 = Some (VBytes text) -> utf8_text (snd r) text ->
  mm_row (mm_from_columns (mkMigrationMapping None None None None) 0 cols) row = Ok r.
Proof.
  intros cols row i0 i1 i2 i3 ([v0 v1 v2], n) text L0 L1 L2 L3 R0 R1 R2 R3 U. cbn [fst snd v_0 v_1 v_2] in *.
  set (m := mm_from_columns (mkMigrationMapping None None None None) 0 cols).
  assert (F0 : mm_0 m = Some i0) by (apply (proj1 (mm_columns_field (s2l "version_0") ltac:(unfold mm_names; cbn [In]; auto) cols (mkMigrationMapping None None None None) 0) i0 L0)).
  assert (F1 : mm_1 m = Some i1) by (apply (proj1 (mm_columns_field (s2l "version_1") ltac:(unfold mm_names; cbn [In]; auto) cols (mkMigrationMapping None None None None) 0) i1 L1)).
  assert (F2 : mm_2 m = Some i2) by (apply (proj1 (mm_columns_field (s2l "version_2") ltac:(unfold mm_names; cbn [In]; auto) cols (mkMigrationMapping None None None None) 0) i2 L2)).
  assert (F3 : mm_name m = Some i3) by (apply (proj1 (mm_columns_field (s2l "name") ltac:(unfold mm_names; cbn [In]; auto) cols (mkMigrationMapping None None None None) 0) i3 L3)).
  assert (D : forall a b i j, last_named a cols i -> last_named b cols j -> a <> b -> i <> j)
    by (intros a b i j (A & _) (B & _) N ->; congruence).
  unfold mm_row. rewrite F0, F1, F2, F3.
  destruct (take_at i0 (s2l "version_0") row _ R0) as (r0 & -> & K0). cbn [rbind prim_try_into].
  destruct (take_at i1 (s2l "version_1") r0 (VUShort v1)) as (r1 & -> & K1).
  { rewrite K0; [exact R1|]. eapply D; eauto; discriminate. }
  cbn [rbind prim_try_into]. destruct (take_at i2 (s2l "version_2") r1 (VUShort v2)) as (r2 & -> & K2).
  { rewrite K1, K0; [exact R2| |]; eapply D; eauto; discriminate. }
  cbn [rbind prim_try_into]. destruct (take_at i3 (s2l "name") r2 (VBytes text)) as (r3 & -> & K3).
  { rewrite K2, K1, K0; [exact R3| | |]; eapply D; eauto; discriminate. }
  cbn [rbind string_try_into]. rewrite (from_utf8_text _ _ U). reflexivity.
Qed.

Lemma row_unnamed : forall cols row name, In name mm_names -> ~ In name (map col_org_name cols) ->
  forall r, mm_row (mm_from_columns (mkMigrationMapping None None None None) 0 cols) row <> Ok r.
Proof.
  intros cols row name Hn H r. unfold mm_row.
  pose proof (proj2 (mm_columns_field name Hn cols (mkMigrationMapping None None None None) 0) H) as F. revert F.
  generalize (mm_from_columns (mkMigrationMapping None None None None) 0 cols) as m. intros m F.
  assert (C : mm_0 m = None \/ mm_1 m = None \/ mm_2 m = None \/ mm_name m = None)
    by (destruct Hn as [<-|[<-|[<-|[<-|[]]]]]; auto).
  assert (B : forall X Y (x : res parse_error X) (f : X -> res parse_error Y) y, rbind x f = Ok y -> exists a, x = Ok a /\ f a = Ok y)
    by (intros X Y [x|e|] f y E; try discriminate; eauto).
  intros E. apply B in E. destruct E as ((c0 & r0) & E0 & E). apply B in E. destruct E as (x0 & _ & E).
  apply B in E. destruct E as ((c1 & r1) & E1 & E). apply B in E. destruct E as (x1 & _ & E).
  apply B in E. destruct E as ((c2 & r2) & E2 & E). apply B in E. destruct E as (x2 & _ & E).
  apply B in E. destruct E as ((c3 & r3) & E3 & E).
  destruct C as [C|[C|[C|C]]]; [rewrite C in E0 | rewrite C in E1 | rewrite C in E2 | rewrite C in E3]; discriminate.
Qed.

Lemma mm_columns_some : forall name, In name mm_names -> forall cols m k,
  In name (map col_org_name cols) \/ mm_field name m <> None -> mm_field name (mm_from_columns m k cols) <> None.
Proof.
  intros name Hn. induction cols as [|c cols IH]; intros m k H; cbn [mm_from_columns map In] in *; [tauto|].
  apply IH. rewrite mm_set_field by exact Hn. destruct (list_eqb (col_org_name c) name) eqn:E; [right; discriminate|].
  destruct H as [[H|H]|H]; auto. subst name. rewrite list_eqb_refl in E. discriminate.
Qed.

Lemma row_missing : forall cols row name,
  mm_row (mm_from_columns (mkMigrationMapping None None None None) 0 cols) row = Err (EMissingField name) ->
  In name mm_names /\ ~ In name (map col_org_name cols).
Proof.
  intros cols row name E.
  pose proof (fun n Hn H => mm_columns_some n Hn cols (mkMigrationMapping None None None None) 0 (or_introl H)) as F.
  revert E F. generalize (mm_from_columns (mkMigrationMapping None None None None) 0 cols) as m. intros m E F.
  assert (B : forall X Y (x : res parse_error X) (f : X -> res parse_error Y) e, rbind x f = Err e -> x = Err e \/ exists a, x = Ok a /\ f a = Err e).
  { intros X Y [x|e'|] f e H; cbn [rbind] in H; [right; eauto | left; congruence | discriminate]. }
  assert (T : forall fld n r e, take_cell fld n r = Err e -> fld = None /\ e = EMissingField n).
  { intros [i|] n r e H; unfold take_cell in H; [destruct (nth_error r i); discriminate | split; congruence]. }
  assert (P : forall v n, prim_try_into U16 v <> Err (EMissingField n)) by (intros [] n; discriminate).
  assert (S : forall v n, string_try_into v <> Err (EMissingField n)).
  { intros [] n; try discriminate. cbn [string_try_into]. match goal with |- context [match ?d with _ => _ end] => destruct d end; discriminate. }
  assert (R : forall n, In n mm_names -> mm_field n m = None -> In n mm_names /\ ~ In n (map col_org_name cols)) by (intros n Hn Hf; split; [exact Hn | intros Hi; exact (F n Hn Hi Hf)]).
  unfold mm_row in E.
  apply B in E. destruct E as [E|((c0 & r0) & _ & E)]; [apply T in E; destruct E as (E & K); injection K as ->; apply R; [now left | exact E]|].
  apply B in E. destruct E as [E|(x0 & _ & E)]; [now apply P in E|].
  apply B in E. destruct E as [E|((c1 & r1) & _ & E)]; [apply T in E; destruct E as (E & K); injection K as ->; apply R; [right; now left | exact E]|].
  apply B in E. destruct E as [E|(x1 & _ & E)]; [now apply P in E|].
  apply B in E. destruct E as [E|((c2 & r2) & _ & E)]; [apply T in E; destruct E as (E & K); injection K as ->; apply R; [right; right; now left | exact E]|].
  apply B in E. destruct E as [E|(x2 & _ & E)]; [now apply P in E|].
  apply B in E. destruct E as [E|((c3 & r3) & _ & E)]; [apply T in E; destruct E as (E & K); injection K as ->; apply R; [right; right; right; now left | exact E]|].
  apply B in E. destruct E as [E|(x3 & _ & E)]; [now apply S in E | discriminate].
Qed.

Lemma row_four : forall r row, record_row r row -> mm_row four row = Ok r.
Proof.
  intros ([v0 v1 v2], n) row (name & -> & U). cbn [fst snd v_0 v_1 v_2] in *.
  unfold mm_row, four, take_cell.
  cbn [mm_0 mm_1 mm_2 mm_name rbind nth_error firstn skipn app prim_try_into string_try_into]. rewrite (from_utf8_text _ _ U). reflexivity.
Qed.

Lemma known_in : forall lists v n, known lists v n = true -> In (v, n) (listed lists).
Proof.
  induction lists as [|m lists IH]; intros v n; cbn [known listed flat_map]; [discriminate|].
  fold (listed lists). unfold migration_record in *. rewrite in_app_iff. destruct (version_eqb (ml_version m) v) eqn:E; [|auto].
  apply version_eqb_iff in E. subst v. intros K. left. apply existsb_exists in K. destruct K as (x & Hx & E).
  apply list_eqb_eq in E. subst. apply in_map_iff. eauto.
Qed.

Lemma in_known : forall lists v n, increasing (map ml_version lists) -> In (v, n) (listed lists) -> known lists v n = true.
Proof.
  induction lists as [|m lists IH]; intros v n I; cbn [known listed flat_map]; [intros []|].
  fold (listed lists). unfold migration_record in *. rewrite in_app_iff. cbn [map increasing] in I. destruct I as (F & I).
  intros [K|K].
  - apply in_map_iff in K. destruct K as (x & E & Hx). injection E as <- <-. rewrite version_eqb_refl.
    apply existsb_exists. exists x. split; auto. apply list_eqb_refl.
  - destruct (version_eqb (ml_version m) v) eqn:E; [|auto]. exfalso.
    apply version_eqb_iff in E. unfold listed in K. apply in_flat_map in K. destruct K as (m' & Hm & K).
    apply in_map_iff in K. destruct K as (x & E' & Hx). injection E' as E1 E2.
    rewrite Forall_forall in F. assert (L : vlt (ml_version m) (ml_version m')).
    { apply F. rewrite in_map_iff. exists m'. auto. }
    rewrite E, E1 in L. apply (vlt_irrefl v L).
Qed.

Lemma read_applied_run : forall lists t rows a t0, Forall2 record_row t rows -> represents a t0 -> NoDup (t0 ++ t) ->
  (Forall (fun r => known lists (fst r) (snd r) = true) t /\
     exists a', read_applied lists four rows None a = Ok a' /\ represents a' (t0 ++ t)) \/
  (~ Forall (fun r => known lists (fst r) (snd r) = true) t /\ read_applied lists four rows None a = Panic).
Proof.
  intros lists t rows a t0 F. revert a t0. induction F as [|(v, n) row t rows R F IH]; intros a t0 Rep N.
  - left. split; auto. exists a. rewrite app_nil_r. auto.
  - cbn [read_applied]. rewrite (row_four _ _ R). cbn [rmap_err rbind].
    destruct (known lists v n) eqn:K.
    + assert (Hin : ~ In (v, n) t0).
      { intros X. apply NoDup_remove_2 in N. apply N. apply in_app_iff. auto. }
      pose proof (represents_insert _ _ _ _ Rep Hin) as Rep'.
      unfold migration_record in *. assert (A1 : t0 ++ (v, n) :: t = (t0 ++ [(v, n)]) ++ t) by (rewrite <- app_assoc; reflexivity).
      rewrite A1 in N. rewrite A1.
      destruct (IH _ _ Rep' N) as [(A & a' & B & C)|(A & B)].
      * left. split; [constructor; auto|]. exists a'. auto.
      * right. split; auto. intros X. inversion X; subst. contradiction.
    + right. split; auto. intros X. inversion X; subst. cbn in *. congruence.
Qed.

Lemma represents_nil : represents [] [].
Proof. intros v. cbn. split; [constructor|tauto]. Qed.

Lemma new_opens : forall debug lists get ex create cols rows t a, NoDup t -> select_answer t cols rows ->
  migrator_new debug lists get ex create (Ok (cols, rows, None)) = Ok a ->
  represents a t /\ Forall (fun r => known lists (fst r) (snd r) = true) t /\ incl t (listed lists).
Proof.
  intros debug lists get ex create cols rows t a N (C & F). unfold migrator_new.
  destruct (debug && negb (ordered lists)); [discriminate|].
  destruct get; [|discriminate|discriminate]. destruct ex as [((c, rs), fin)| |]; [|discriminate|discriminate]. cbn [rbind].
  destruct fin; [discriminate|]. cbn [rbind]. rewrite (mapping_four _ C).
  destruct (match rs with [] => create | _ => Ok tt end); [|discriminate|discriminate]. cbn [rbind].
  destruct (read_applied_run lists t rows [] [] F represents_nil N) as [(A & a' & -> & B)|(A & ->)]; [|discriminate].
  intros E. injection E as <-. splits; auto. intros (v, n) H. rewrite Forall_forall in A. apply known_in.
  apply (A (v, n) H).
Qed.
