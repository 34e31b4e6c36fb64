(** Proofs about reading models from any query, for all models and columns. *)
From Coq Require Import String ZArith List Bool Lia Arith.
From Verif Require Import Base BaseFacts Types Framing Models Spec_Text Spec_Model Spec_Mapping Spec_Route Model_proofs Mapping_proofs.
Import ListNotations.
Open Scope Z_scope.

(** ** The field a column goes to, computed *)

Fixpoint route (m : model) (table name : str) : option (list str) :=
  match m with
  | Model t _ _ simples structs refs =>
    let rest := strip_prefix_or table (t ++ [46]) in
    match (fix go (refs : list (str * model)) : option (option (list str)) :=
             match refs with
             | [] => None
             | (f, sub) :: refs' =>
               if list_eqb rest f then Some (option_map (cons f) (route sub [] name))
               else if starts_with rest (f ++ [46])
               then Some (option_map (cons f) (route sub (skipn (length (f ++ [46])) rest) name))
               else go refs'
             end) refs with
    | Some o => o
    | None => if existsb (list_eqb name) (columns_of simples structs) then Some [] else None
    end
  end.

Fixpoint route_refs (refs : list (str * model)) (rest name : str) : option (option (list str)) :=
  match refs with
  | [] => None
  | (f, sub) :: refs' =>
    if list_eqb rest f then Some (option_map (cons f) (route sub [] name))
    else if starts_with rest (f ++ [46])
    then Some (option_map (cons f) (route sub (skipn (length (f ++ [46])) rest) name))
    else route_refs refs' rest name
  end.

Lemma route_eq : forall t p a simples structs refs table name,
  route (Model t p a simples structs refs) table name =
  match route_refs refs (strip_prefix_or table (t ++ [46])) name with
  | Some o => o
  | None => if existsb (list_eqb name) (columns_of simples structs) then Some [] else None
  end.
Proof.
  intros. cbn [route]. match goal with |- match ?x with _ => _ end = match ?y with _ => _ end => assert (E : x = y); [|now rewrite E] end.
  induction refs as [|[f sub] refs IH]; [reflexivity|]. cbn [route_refs]. now rewrite IH.
Qed.

Lemma strip_without : forall t table rest, without_table t table rest <-> strip_prefix_or table (t ++ [46]) = rest.
Proof.
  intros t table rest. unfold without_table, strip_prefix_or. change (s2l ".") with [46].
  destruct (starts_with table (t ++ [46])) eqn:E.
  - apply starts_with_spec in E. destruct E as (r & ->). rewrite skipn_app, skipn_all, Nat.sub_diag. cbn [app skipn]. split.
    + intros [H | (H & _)]; [|elim (H r); now rewrite <- app_assoc]. rewrite <- app_assoc in H. apply app_inv_head in H. cbn [app] in H. congruence.
    + intros <-. left. now rewrite <- app_assoc.
  - split.
    + intros [-> | (_ & ->)]; [|reflexivity]. exfalso. apply not_true_iff_false in E. apply E. apply starts_with_spec. exists rest. now rewrite <- app_assoc.
    + intros <-. right. split; [|reflexivity]. intros r ->. apply not_true_iff_false in E. apply E. apply starts_with_spec. exists r. now rewrite <- app_assoc.
Qed.

(** References have different names without dots, so at most one is meant. *)
Lemma leads_unique : forall f g rest r s, ~ In 46 f -> ~ In 46 g -> leads_into f rest r -> leads_into g rest s -> f = g /\ r = s.
Proof.
  intros f g rest r s F G H H'. unfold leads_into in *. change (s2l ".") with [46] in *. cbn [app] in *.
  destruct H as [(-> & ->) | ->], H' as [(E & ->) | E].
  - auto.
  - exfalso. apply F. rewrite E. apply in_or_app. right. now left.
  - exfalso. apply G. rewrite <- E. apply in_or_app. right. now left.
  - revert g G E. induction f as [|x f IH]; intros [|y g] G E; cbn [app] in E.
    + injection E as ->. auto.
    + injection E as <- E. elim G. now left.
    + injection E as -> E. elim F. now left.
    + injection E as -> E. destruct (IH ltac:(intros X; apply F; now right) g) as (-> & ->); [intros X; apply G; now right | exact E | auto].
Qed.

Lemma leads_some : forall f rest, (exists r, leads_into f rest r) <-> list_eqb rest f = true \/ starts_with rest (f ++ [46]) = true.
Proof.
  intros f rest. unfold leads_into. change (s2l ".") with [46]. rewrite list_eqb_eq, starts_with_spec. split.
  - intros (r & [(-> & _) | ->]); [now left | right; exists r; now rewrite <- app_assoc].
  - intros [-> | (r & ->)]; [exists []; now left | exists r; right; now rewrite <- app_assoc].
Qed.

Definition dotless (refs : list (str * model)) : Prop := Forall (fun r => ~ In 46 (fst r)) refs.

Lemma refs_route : forall refs rest name, dotless refs -> NoDup (map fst refs) ->
  (forall f sub r, In (f, sub) refs -> leads_into f rest r -> route_refs refs rest name = Some (option_map (cons f) (route sub r name))) /\
  ((forall f sub r, In (f, sub) refs -> ~ leads_into f rest r) -> route_refs refs rest name = None).
Proof.
  intros refs rest name D N. induction refs as [|[g sub0] refs IH]; [split; [intros ? ? ? [] | reflexivity]|].
  inversion D as [|? ? D1 D2]; subst. inversion N as [|? ? N1 N2]; subst. cbn [fst] in D1, N1. destruct (IH D2 N2) as (A & B). cbn [route_refs]. split.
  - intros f sub r [[= <- <-] | Hin] Hl.
    + destruct Hl as [(-> & ->) | ->]; [now rewrite list_eqb_refl|]. change (s2l ".") with [46].
      assert (X : list_eqb (g ++ [46] ++ r) g = false).
      { apply list_eqb_neq. intros E. apply (f_equal (@length Z)) in E. rewrite app_length in E. cbn in E. lia. }
      rewrite X, app_assoc, starts_with_app, skipn_app, skipn_all, Nat.sub_diag. reflexivity.
    + assert (M : g <> f) by (intros ->; apply N1; apply in_map_iff; exists (f, sub); auto).
      assert (F : ~ In 46 f) by (unfold dotless in D2; rewrite Forall_forall in D2; exact (D2 _ Hin)).
      destruct (list_eqb rest g) eqn:E1.
      { elim M. assert (L : exists r', leads_into g rest r') by (apply leads_some; auto). destruct L as (r' & L). now destruct (leads_unique _ _ _ _ _ D1 F L Hl). }
      destruct (starts_with rest (g ++ [46])) eqn:E2.
      { elim M. assert (L : exists r', leads_into g rest r') by (apply leads_some; auto). destruct L as (r' & L). now destruct (leads_unique _ _ _ _ _ D1 F L Hl). }
      exact (A _ _ _ Hin Hl).
  - intros H. destruct (list_eqb rest g) eqn:E1.
    { assert (L : exists r', leads_into g rest r') by (apply leads_some; auto). destruct L as (r' & L). elim (H g sub0 r'); [now left | exact L]. }
    destruct (starts_with rest (g ++ [46])) eqn:E2.
    { assert (L : exists r', leads_into g rest r') by (apply leads_some; auto). destruct L as (r' & L). elim (H g sub0 r'); [now left | exact L]. }
    apply B. intros f sub r Hin. apply (H f sub r). now right.
Qed.

Lemma refs_cases : forall (refs : list (str * model)) rest, (exists f sub r, In (f, sub) refs /\ leads_into f rest r) \/ (forall f sub r, In (f, sub) refs -> ~ leads_into f rest r).
Proof.
  induction refs as [|[g sub0] refs IH]; intros rest; [right; intros ? ? ? []|].
  destruct (list_eqb rest g || starts_with rest (g ++ [46])) eqn:E.
  - left. apply orb_true_iff, leads_some in E. destruct E as (r & L). exists g, sub0, r. split; [now left | exact L].
  - destruct (IH rest) as [(f & sub & r & Hin & L) | H]; [left; exists f, sub, r; split; [now right | exact L]|].
    right. intros f sub r [[= <- <-] | Hin]; [|now apply (H _ _ _ Hin)]. intros L. apply not_true_iff_false in E. apply E, orb_true_iff, leads_some. eauto.
Qed.

Lemma names_dotless : forall t p a simples structs refs, names_distinct (Model t p a simples structs refs) -> dotless refs /\ NoDup (map fst refs).
Proof. intros t p a simples structs refs (_ & N & F). split; [|exact N]. eapply Forall_impl; [|exact F]. cbn. tauto. Qed.

Lemma goes_route : forall m, everywhere names_distinct m -> forall table name path, goes m table name path <-> route m table name = Some path.
Proof.
  induction m as [t p a simples structs refs IH] using model_ind'. intros Hd table name path.
  pose proof (everywhere_inv _ _ _ _ _ _ _ Hd) as [Hd1 Hd2]. destruct (names_dotless _ _ _ _ _ _ Hd1) as (D & N).
  rewrite Forall_forall in IH, Hd2. rewrite route_eq.
  remember (strip_prefix_or table (t ++ [46])) as rest eqn:Er. symmetry in Er. pose proof (proj2 (strip_without t table rest) Er) as W.
  destruct (refs_route refs rest name D N) as (A & B). split.
  - intros H. inversion H; subst.
    + match goal with W' : without_table t table ?r |- _ => apply strip_without in W'; subst r end.
      rewrite (A _ _ _ ltac:(eassumption) ltac:(eassumption)).
      match goal with G : goes sub _ _ _, Hin : In (f, sub) refs |- _ => apply (proj1 (IH _ Hin (Hd2 _ Hin) _ _ _)) in G; cbn [snd] in G; rewrite G; reflexivity end.
    + match goal with W' : without_table t table ?r |- _ => apply strip_without in W'; subst r end.
      rewrite B by assumption. match goal with Hin : In name _ |- _ => rename Hin into Hn end.
      replace (existsb (list_eqb name) (columns_of simples structs)) with true; [reflexivity|]. symmetry. apply existsb_exists. exists name. split; [exact Hn | apply list_eqb_refl].
  - intros H. destruct (refs_cases refs rest) as [(f & sub & r & Hin & L) | X].
    + rewrite (A _ _ _ Hin L) in H. destruct (route sub r name) as [q|] eqn:E; [|discriminate]. injection H as <-.
      eapply goes_ref; [exact W | exact Hin | exact L |]. apply (IH _ Hin (Hd2 _ Hin)). exact E.
    + rewrite (B X) in H. destruct (existsb (list_eqb name) (columns_of simples structs)) eqn:E; [|discriminate]. injection H as <-.
      apply existsb_exists in E. destruct E as (y & Hy & E). apply list_eqb_eq in E. subst y. eapply goes_own; eauto.
Qed.

Lemma goes_unique : forall m table name p q, everywhere names_distinct m -> goes m table name p -> goes m table name q -> p = q.
Proof. intros m table name p q D A B. apply goes_route in A, B; try exact D. congruence. Qed.

(** ** Mappings as functions of fields *)

Fixpoint path_eqb (p q : list str) : bool :=
  match p, q with
  | [], [] => true
  | x :: p', y :: q' => list_eqb x y && path_eqb p' q'
  | _, _ => false
  end.
Lemma path_eqb_eq : forall p q, path_eqb p q = true <-> p = q.
Proof.
  induction p as [|x p IH]; intros [|y q]; cbn [path_eqb]; split; intros H; try discriminate; try reflexivity.
  - apply andb_true_iff in H. destruct H as (A & B). apply list_eqb_eq in A. apply IH in B. congruence.
  - injection H as -> ->. rewrite list_eqb_refl. now apply IH.
Qed.
Lemma path_eqb_refl : forall p, path_eqb p p = true.
Proof. intros p. now apply path_eqb_eq. Qed.

Fixpoint placed (m : model) (g : list str * str -> option nat) : mapping :=
  match m with
  | Model _ _ _ simples structs refs =>
    Mapping (map (fun n => (n, g ([], n))) (columns_of simples structs))
      (map (fun r => match r with (f, sub) => placed sub (fun x => g (f :: fst x, snd x)) end) refs)
  end.

Lemma placed_ext : forall m g h, (forall x, In x (fields_of m) -> g x = h x) -> placed m g = placed m h.
Proof.
  induction m as [t p a simples structs refs IH] using model_ind'. intros g h H. cbn [placed fields_of] in *. f_equal.
  - apply map_ext_in. intros n Hn. rewrite H; [reflexivity|]. apply in_or_app. left. now apply in_map.
  - apply map_ext_in. intros [f sub] Hin. rewrite Forall_forall in IH. apply (IH _ Hin). intros x Hx. apply H.
    apply in_or_app. right. apply in_flat_map. exists (f, sub). split; [exact Hin|]. apply in_map_iff. exists x. auto.
Qed.

Lemma default_placed : forall m, default_mapping m = placed m (fun _ => None).
Proof.
  induction m as [t p a simples structs refs IH] using model_ind'. cbn [default_mapping placed]. rewrite own_names_columns. f_equal.
  apply map_ext_in. intros [f sub] Hin. rewrite Forall_forall in IH. apply (IH _ Hin).
Qed.

(** The index of one field replaced. *)
Definition hit (o : option (list str)) (name : str) (x : list str * str) : bool :=
  match o with Some p => path_eqb p (fst x) && list_eqb name (snd x) | None => false end.
Definition set_at (g : list str * str -> option nat) (o : option (list str)) (name : str) (i : nat) : list str * str -> option nat :=
  fun x => if hit o name x then Some i else g x.

Lemma refs_head : forall refs rest name f q, route_refs refs rest name = Some (Some (f :: q)) -> In f (map fst refs).
Proof.
  induction refs as [|[g sub] refs IH]; intros rest name f q H; cbn [route_refs] in H; [discriminate|]. cbn [map fst].
  destruct (list_eqb rest g); [|destruct (starts_with rest (g ++ [46]))].
  - destruct (route sub [] name); [|discriminate]. injection H as -> _. now left.
  - destruct (route sub _ name); [|discriminate]. injection H as -> _. now left.
  - right. eapply IH. exact H.
Qed.
Lemma refs_not_nil : forall refs rest name, route_refs refs rest name <> Some (Some []).
Proof.
  induction refs as [|[g sub] refs IH]; intros rest name; cbn [route_refs]; [discriminate|].
  destruct (list_eqb rest g); [|destruct (starts_with rest (g ++ [46])); [|apply IH]];
    destruct (route sub _ name); discriminate.
Qed.

Lemma set_placed : forall m g table name i, everywhere names_distinct m ->
  set_mapping m (placed m g) name table i = placed m (set_at g (route m table name) name i).
Proof.
  induction m as [t p a simples structs refs IH] using model_ind'. intros g table name i Hd.
  pose proof (everywhere_inv _ _ _ _ _ _ _ Hd) as [Hd1 Hd2]. pose proof Hd1 as (Hc & Hn & _).
  rewrite set_mapping_eq, route_eq. cbn [m_table placed inner]. set (rest := strip_prefix_or table (t ++ [46])). clearbody rest.
  assert (C : forall g, child_set refs (map (fun r => match r with (f, sub) => placed sub (fun x => g (f :: fst x, snd x)) end) refs) name rest i =
    match route_refs refs rest name with
    | Some o => Some (map (fun r => match r with (f, sub) => placed sub (fun x => set_at g o name i (f :: fst x, snd x)) end) refs)
    | None => None
    end).
  { clear g Hd Hd1 Hc. intros g. induction refs as [|[f sub] refs IHr]; [reflexivity|].
    inversion IH as [|? ? I1 I2]; subst. inversion Hd2 as [|? ? D1 D2]; subst. inversion Hn as [|? ? N1 N2]; subst. cbn [fst snd] in *.
    cbn [map child_set route_refs].
    assert (S : forall r, Some (set_mapping sub (placed sub (fun x => g (f :: fst x, snd x))) name r i
        :: map (fun r0 => match r0 with (f0, sub0) => placed sub0 (fun x => g (f0 :: fst x, snd x)) end) refs) =
      Some (placed sub (fun x => set_at g (option_map (cons f) (route sub r name)) name i (f :: fst x, snd x))
        :: map (fun r0 => match r0 with (f0, sub0) => placed sub0 (fun x => set_at g (option_map (cons f) (route sub r name)) name i (f0 :: fst x, snd x)) end) refs)).
    { intros r. rewrite I1 by exact D1. do 2 f_equal.
      - apply placed_ext. intros x _. unfold set_at, hit. destruct (route sub r name) as [q|]; cbn [option_map fst snd path_eqb]; [|reflexivity].
        now rewrite list_eqb_refl.
      - apply map_ext_in. intros [f0 sub0] Hin. apply placed_ext. intros x _. unfold set_at, hit.
        destruct (route sub r name) as [q|]; cbn [option_map fst snd path_eqb]; [|reflexivity].
        replace (list_eqb f f0) with false; [reflexivity|]. symmetry. apply list_eqb_neq. intros ->. apply N1. apply in_map_iff. exists (f0, sub0). auto. }
    destruct (list_eqb rest f); [apply S|]. destruct (starts_with rest (f ++ [46])); [apply S|].
    rewrite (IHr I2 D2 N2). destruct (route_refs refs rest name) as [o|] eqn:E; [|reflexivity]. do 2 f_equal.
    apply placed_ext. intros x _. unfold set_at, hit. destruct o as [[|f0 q]|]; cbn [fst snd path_eqb]; [reflexivity | | reflexivity].
    replace (list_eqb f0 f) with false; [reflexivity|]. symmetry. apply list_eqb_neq. intros ->. apply N1. eapply refs_head. exact E. }
  rewrite C. destruct (route_refs refs rest name) as [o|] eqn:E.
  - f_equal. apply map_ext. intros n. unfold set_at, hit. destruct o as [[|f q]|]; cbn [fst path_eqb]; [elim (refs_not_nil _ _ _ E) | reflexivity | reflexivity].
  - rewrite (set_own_mapped (fun n => g ([], n))) by exact Hc. f_equal.
    + apply map_ext_in. intros n Hin. f_equal. unfold set_at, hit. destruct (existsb (list_eqb name) (columns_of simples structs)) eqn:X; cbn [fst snd path_eqb andb]; [reflexivity|].
      destruct (list_eqb name n) eqn:Y; [|reflexivity]. exfalso. apply list_eqb_eq in Y. subst n. apply not_true_iff_false in X. apply X, existsb_exists.
      exists name. split; [exact Hin | apply list_eqb_refl].
    + apply map_ext. intros [f sub]. apply placed_ext. intros x _. unfold set_at, hit.
      destruct (existsb (list_eqb name) (columns_of simples structs)); reflexivity.
Qed.

(** The last column that goes to a field. *)
Fixpoint last_to (m : model) (cols : list column) (k : nat) (x : list str * str) : option nat :=
  match cols with
  | [] => None
  | c :: r =>
    match last_to m r (S k) x with
    | Some i => Some i
    | None => if hit (route m (col_table c) (col_org_name c)) (col_org_name c) x then Some k else None
    end
  end.

Lemma columns_placed : forall m cols g k, everywhere names_distinct m ->
  set_columns m (placed m g) k cols = placed m (fun x => match last_to m cols k x with Some i => Some i | None => g x end).
Proof.
  intros m cols. induction cols as [|c cols IH]; intros g k Hd; cbn [set_columns last_to]; [reflexivity|].
  rewrite set_placed by exact Hd. rewrite IH by exact Hd. apply placed_ext. intros x _. unfold set_at.
  destruct (last_to m cols (S k) x); [reflexivity|]. now destruct (hit _ _ x).
Qed.

Lemma hit_column : forall m c x, everywhere names_distinct m -> (hit (route m (col_table c) (col_org_name c)) (col_org_name c) x = true <-> column_of m x c).
Proof.
  intros m c [q n] Hd. unfold column_of, hit. cbn [fst snd]. split.
  - destruct (route m (col_table c) (col_org_name c)) as [p|] eqn:E; [|discriminate]. intros H. apply andb_true_iff in H. destruct H as (A & B).
    apply path_eqb_eq in A. apply list_eqb_eq in B. subst. split; [reflexivity|]. now apply goes_route.
  - intros (<- & G). apply goes_route in G; [|exact Hd]. rewrite G, path_eqb_refl, list_eqb_refl. reflexivity.
Qed.

Lemma last_to_spec : forall m cols k x, everywhere names_distinct m ->
  match last_to m cols k x with
  | Some i => (k <= i)%nat /\ takes m cols x (i - k)
  | None => Forall (fun c => ~ column_of m x c) cols
  end.
Proof.
  intros m cols k x Hd. revert k. induction cols as [|c cols IH]; intros k; cbn [last_to]; [constructor|].
  specialize (IH (S k)). destruct (last_to m cols (S k) x) as [i|].
  - destruct IH as (Hk & (c' & Hc & Hg) & Hl). split; [lia|]. replace (i - k)%nat with (S (i - S k)) by lia. split.
    + exists c'. auto.
    + intros [|j] c2 Hj Hc2; [lia|]. apply (Hl j); [lia | exact Hc2].
  - destruct (hit (route m (col_table c) (col_org_name c)) (col_org_name c) x) eqn:E.
    + split; [lia|]. rewrite Nat.sub_diag. split.
      * exists c. split; [reflexivity | now apply hit_column].
      * intros [|j] c2 Hj Hc2; [lia|]. rewrite Forall_forall in IH. apply IH. eapply nth_error_In. exact Hc2.
    + constructor; [|exact IH]. intros H. apply hit_column in H; [congruence | exact Hd].
Qed.

Lemma takes_unique : forall m cols x i j, takes m cols x i -> takes m cols x j -> i = j.
Proof.
  intros m cols x i j ((c & C & G) & L) ((d & D & H) & M). destruct (Nat.lt_trichotomy i j) as [X | [-> | X]]; [|reflexivity|].
  - elim (L j d X D H).
  - elim (M i c X C G).
Qed.

Lemma takes_last : forall m cols x i, everywhere names_distinct m -> (takes m cols x i <-> last_to m cols 0 x = Some i).
Proof.
  intros m cols x i Hd. pose proof (last_to_spec m cols 0 x Hd) as H. split.
  - intros T. destruct (last_to m cols 0 x) as [j|].
    + destruct H as (_ & H). rewrite Nat.sub_0_r in H. now rewrite (takes_unique _ _ _ _ _ T H).
    + destruct T as ((c & C & G) & _). rewrite Forall_forall in H. elim (H c); [eapply nth_error_In; exact C | exact G].
  - intros E. rewrite E, Nat.sub_0_r in H. tauto.
Qed.

(** ** Reading a row *)

Lemma from_row_placed : forall m g row, from_row (placed m g) row = take_fields (map (fun x => (snd x, g x)) (fields_of m)) row.
Proof.
  induction m as [t p a simples structs refs IH] using model_ind'. intros g row. cbn [placed]. rewrite from_row_eq.
  cbn [fields_of]. rewrite map_app, map_map, take_fields_app. cbn [snd].
  match goal with |- rbind ?x _ = rbind ?y _ => change y with x; destruct x as [[vs row1]|e|] end; cbn [rbind]; try reflexivity.
  match goal with |- rbind ?x _ = rbind ?y _ => assert (E : x = y); [|rewrite E; reflexivity] end.
  clear vs row. revert row1. induction refs as [|[f sub] refs IHr]; intros row; [reflexivity|].
  inversion IH as [|? ? I1 I2]; subst. cbn [snd] in I1. cbn [map rows_all flat_map].
  rewrite map_app, map_map, take_fields_app. rewrite I1. cbn [fst snd].
  match goal with |- rbind ?x _ = rbind ?y _ => change y with x; destruct x as [[vs row1]|e|] end; cbn [rbind]; try reflexivity.
  rewrite (IHr I2). reflexivity.
Qed.

Lemma from_row_last : forall m cols row, everywhere names_distinct m ->
  from_row (from_columns m cols) row = take_fields (map (fun x => (snd x, last_to m cols 0 x)) (fields_of m)) row.
Proof.
  intros m cols row Hd. unfold from_columns. rewrite default_placed, columns_placed, from_row_placed by exact Hd. f_equal.
  apply map_ext. intros x. now destruct (last_to m cols 0 x).
Qed.

Lemma fields_nodup : forall m, everywhere names_distinct m -> NoDup (fields_of m).
Proof.
  induction m as [t p a simples structs refs IH] using model_ind'. intros Hd.
  pose proof (everywhere_inv _ _ _ _ _ _ _ Hd) as [(Hc & Hn & _) Hd2]. cbn [fields_of].
  assert (O : NoDup (map (pair (@nil str)) (columns_of simples structs))).
  { apply FinFun.Injective_map_NoDup; [|exact Hc]. intros x y E. congruence. }
  assert (R : NoDup (flat_map (fun r => match r with (f, sub) => map (fun x => (f :: fst x, snd x)) (fields_of sub) end) refs)).
  { clear O Hd Hc. induction refs as [|[f sub] refs IHr]; [constructor|]. inversion IH; subst. inversion Hd2; subst. inversion Hn as [|? ? N1 N2]; subst. cbn [flat_map].
    apply NoDup_app.
    - apply FinFun.Injective_map_NoDup; [|auto]. intros [x1 x2] [y1 y2] E. cbn [fst snd] in E. congruence.
    - auto.
    - intros x Hx Hy. apply in_map_iff in Hx. destruct Hx as (y & <- & _). apply in_flat_map in Hy. destruct Hy as ([f' sub'] & Hin & Hy).
      apply in_map_iff in Hy. destruct Hy as (z & E & _). injection E as -> _. apply N1. cbn [fst]. apply in_map_iff. exists (f, sub'). auto. }
  apply NoDup_app; [exact O | exact R|]. intros x Hx Hy. apply in_map_iff in Hx. destruct Hx as (y & <- & _).
  apply in_flat_map in Hy. destruct Hy as ([f' sub'] & Hin & Hy). apply in_map_iff in Hy. destruct Hy as (z & E & _). discriminate.
Qed.

(** Two fields do not take the same column. *)
Lemma takes_apart : forall m cols x y i, everywhere names_distinct m -> takes m cols x i -> takes m cols y i -> x = y.
Proof.
  intros m cols [p n] [q k] i Hd ((c & C & A & G) & _) ((d & D & B & H) & _). rewrite C in D. injection D as <-. cbn [fst snd] in *. subst n. subst k.
  f_equal. eapply goes_unique; eauto.
Qed.

Lemma takes_bound : forall m cols x i, takes m cols x i -> (i < length cols)%nat.
Proof. intros m cols x i ((c & C & _) & _). apply nth_error_Some. congruence. Qed.

Lemma read_exactly : forall m cols row, everywhere names_distinct m -> length row = length cols ->
  (forall x, In x (fields_of m) -> exists c, In c cols /\ column_of m x c) ->
  exists vs left, from_row (from_columns m cols) row = Ok (vs, left) /\
    Forall2 (fun x v => exists i, takes m cols x i /\ nth_error row i = Some v) (fields_of m) vs.
Proof.
  intros m cols row Hd Hl Hall. rewrite from_row_last by exact Hd.
  assert (T : forall x, In x (fields_of m) -> exists i, last_to m cols 0 x = Some i /\ takes m cols x i).
  { intros x Hx. destruct (last_to m cols 0 x) as [i|] eqn:E; [exists i; split; [reflexivity | now apply takes_last]|].
    pose proof (last_to_spec m cols 0 x Hd) as S. rewrite E in S. destruct (Hall x Hx) as (c & Hc & G). rewrite Forall_forall in S. elim (S c Hc G). }
  destruct (take_fields_ok (map (fun x => (snd x, last_to m cols 0 x)) (fields_of m)) row row) as (vs & left & E & F).
  - reflexivity.
  - intros f i Hf Ei. split; [reflexivity|]. apply in_map_iff in Hf. destruct Hf as (x & <- & Hx). cbn [snd] in Ei. apply takes_last in Ei; [|exact Hd].
    rewrite Hl. eapply takes_bound. exact Ei.
  - intros f Hf. apply in_map_iff in Hf. destruct Hf as (x & <- & Hx). destruct (T x Hx) as (i & Ei & _). cbn [snd]. congruence.
  - rewrite map_map. cbn [snd]. assert (N : NoDup (fields_of m)) by now apply fields_nodup. revert T N. clear - Hd. generalize (fields_of m) as L.
    induction L as [|x L IH]; intros T N; [constructor|]. inversion N as [|? ? N1 N2]; subst. cbn [map]. constructor.
    + intros Hin. apply in_map_iff in Hin. destruct Hin as (y & Ey & Hy). destruct (T x (or_introl eq_refl)) as (i & Ei & Ti).
      rewrite Ei in Ey. apply takes_last in Ey; [|exact Hd]. apply N1. now rewrite (takes_apart _ _ _ _ _ Hd Ti Ey).
    + apply IH; [|exact N2]. intros y Hy. apply T. now right.
  - exists vs, left. split; [exact E|]. clear E. revert vs F. clear T Hall. generalize (fields_of m) as L. induction L as [|x L IH]; intros vs F; inversion F as [|? ? ? ? (i & A & B) F']; subst; constructor.
    + exists i. split; [apply takes_last; assumption | exact B].
    + now apply IH.
Qed.

Lemma missing_exactly : forall m cols row before x after, everywhere names_distinct m -> length row = length cols ->
  fields_of m = before ++ x :: after ->
  (forall y, In y before -> exists c, In c cols /\ column_of m y c) ->
  (forall c, In c cols -> ~ column_of m x c) ->
  from_row (from_columns m cols) row = Err (EMissingField (snd x)).
Proof.
  intros m cols row before x after Hd Hl E Hb Hx. rewrite from_row_last by exact Hd. rewrite E, map_app. cbn [map].
  replace (last_to m cols 0 x) with (@None nat).
  - apply take_fields_missing. apply Forall_forall. intros f Hf. apply in_map_iff in Hf. destruct Hf as (y & <- & Hy). cbn [snd].
    pose proof (last_to_spec m cols 0 y Hd) as S. destruct (last_to m cols 0 y) as [i|].
    + exists i. split; [reflexivity|]. destruct S as (_ & S). rewrite Nat.sub_0_r in S. rewrite Hl. eapply takes_bound. exact S.
    + destruct (Hb y Hy) as (c & Hc & G). rewrite Forall_forall in S. elim (S c Hc G).
  - destruct (last_to m cols 0 x) as [i|] eqn:L; [|reflexivity]. apply takes_last in L; [|exact Hd]. destruct L as ((c & C & G) & _).
    elim (Hx c (nth_error_In _ _ C) G).
Qed.

Lemma column_dec : forall m cols x, everywhere names_distinct m -> (exists c, In c cols /\ column_of m x c) \/ (forall c, In c cols -> ~ column_of m x c).
Proof.
  intros m cols x Hd. pose proof (last_to_spec m cols 0 x Hd) as S. destruct (last_to m cols 0 x) as [i|].
  - left. destruct S as (_ & (c & C & G) & _). exists c. split; [eapply nth_error_In; exact C | exact G].
  - right. now rewrite Forall_forall in S.
Qed.

Lemma first_missing : forall m cols L, everywhere names_distinct m ->
  (forall x, In x L -> exists c, In c cols /\ column_of m x c) \/
  exists before x after, L = before ++ x :: after /\ (forall y, In y before -> exists c, In c cols /\ column_of m y c) /\ (forall c, In c cols -> ~ column_of m x c).
Proof.
  intros m cols L Hd. induction L as [|x L IH]; [left; intros ? []|]. destruct (column_dec m cols x Hd) as [X | X].
  - destruct IH as [IH | (b & y & a & -> & B & Y)]; [left; intros z [<- | Hz]; auto|].
    right. exists (x :: b), y, a. splits; [reflexivity | intros z [<- | Hz]; auto | exact Y].
  - right. exists [], x, L. splits; [reflexivity | intros ? [] | exact X].
Qed.

Lemma readable_exactly : forall m cols row, everywhere names_distinct m -> length row = length cols ->
  ((exists r, from_row (from_columns m cols) row = Ok r) <-> forall x, In x (fields_of m) -> exists c, In c cols /\ column_of m x c).
Proof.
  intros m cols row Hd Hl. split.
  - intros (r & E). destruct (first_missing m cols (fields_of m) Hd) as [H | (b & x & a & L & B & X)]; [exact H|].
    rewrite (missing_exactly m cols row b x a Hd Hl L B X) in E. discriminate.
  - intros H. destruct (read_exactly m cols row Hd Hl H) as (vs & left & E & _). eauto.
Qed.

(** ** A model's own selection *)

Lemma take_in_order : forall (names : list (list str * str)) k row pre (g : list str * str -> option nat), length pre = k -> length names = length row ->
  (forall i x, nth_error names i = Some x -> g x = Some (k + i)%nat) ->
  take_fields (map (fun x => (snd x, g x)) names) (pre ++ row) = Ok (row, pre ++ repeat VNull (length row)).
Proof.
  induction names as [|x names IH]; intros k row pre g Hp Hl Hg.
  - destruct row; [|discriminate]. cbn. now rewrite app_nil_r.
  - destruct row as [|v row]; [discriminate|]. cbn [length] in Hl. injection Hl as Hl. cbn [map take_fields take_field].
    pose proof (Hg 0%nat x eq_refl) as H0. rewrite Nat.add_0_r in H0. unfold take_field. cbn [fst snd]. rewrite H0.
    rewrite nth_error_app2 by lia. replace (k - length pre)%nat with 0%nat by lia. cbn [nth_error rbind].
    assert (R : firstn k (pre ++ v :: row) ++ VNull :: skipn (S k) (pre ++ v :: row) = (pre ++ [VNull]) ++ row).
    { subst k. rewrite firstn_app, Nat.sub_diag, firstn_all. cbn [firstn]. rewrite app_nil_r, skipn_app, skipn_all2 by lia.
      replace (S (length pre) - length pre)%nat with 1%nat by lia. cbn [app skipn]. now rewrite <- app_assoc. }
    rewrite R, (IH (S k) row (pre ++ [VNull]) g).
    + cbn [rbind repeat length]. now rewrite <- app_assoc.
    + rewrite app_length. cbn [length]. lia.
    + exact Hl.
    + intros i y Hi. rewrite (Hg (S i) y Hi). f_equal. lia.
Qed.

Lemma forall2_nth : forall A B (R : A -> B -> Prop) l1 l2, Forall2 R l1 l2 -> forall i x y, nth_error l1 i = Some x -> nth_error l2 i = Some y -> R x y.
Proof. intros A B R l1 l2 F. induction F; intros [|i] a b H1 H2; cbn in H1, H2; try discriminate; [congruence | eauto]. Qed.
Lemma nth_forall2 : forall A B (R : A -> B -> Prop) l1 l2, length l1 = length l2 ->
  (forall i x y, nth_error l1 i = Some x -> nth_error l2 i = Some y -> R x y) -> Forall2 R l1 l2.
Proof.
  intros A B R l1. induction l1 as [|a l1 IH]; intros [|b l2] L H; try discriminate; constructor.
  - apply (H 0%nat); reflexivity.
  - apply IH; [now injection L | intros i x y; apply (H (S i))].
Qed.
Lemma forall2_same_length : forall A B (R : A -> B -> Prop) l1 l2, Forall2 R l1 l2 -> length l1 = length l2.
Proof. intros A B R l1 l2 F. induction F; cbn; congruence. Qed.

Lemma fields_selected_length : forall m t, length (selected t m) = length (fields_of m).
Proof.
  induction m as [t p a simples structs refs IH] using model_ind'. intros al. cbn [selected fields_of]. rewrite !app_length, !map_length. f_equal.
  induction refs as [|[f sub] refs IHr]; [reflexivity|]. inversion IH as [|? ? I1 I2]; subst. cbn [flat_map snd] in *. rewrite !app_length, map_length, I1, IHr by exact I2. reflexivity.
Qed.

Lemma names_selected : forall m t, map snd (selected t m) = map snd (fields_of m).
Proof.
  induction m as [t p a simples structs refs IH] using model_ind'. intros al. cbn [selected fields_of]. rewrite !map_app, !map_map. f_equal.
  induction refs as [|[f sub] refs IHr]; [reflexivity|]. inversion IH as [|? ? I1 I2]; subst. cbn [flat_map snd] in *. rewrite !map_app, map_map, I1, IHr by exact I2. reflexivity.
Qed.

Lemma nth_both : forall A B (l1 : list A) (l2 : list B) i x, length l1 = length l2 -> nth_error l1 i = Some x -> exists y, nth_error l2 i = Some y.
Proof.
  intros A B l1 l2 i x L H. destruct (nth_error l2 i) as [y|] eqn:E; [eauto|]. apply nth_error_None in E.
  assert (X : (i < length l1)%nat) by (apply nth_error_Some; congruence). lia.
Qed.

Lemma selection_exactly : forall m cols, everywhere names_distinct m -> describes (selected (m_table m) m) cols ->
  ((forall row, length row = length cols -> from_row (from_columns m cols) row = Ok (row, repeat VNull (length row))) <->
   Forall2 (fun s x => goes m (fst s) (snd s) (fst x)) (selected (m_table m) m) (fields_of m)).
Proof.
  intros m cols Hd D. pose proof (fields_selected_length m (m_table m)) as Ls. pose proof (forall2_same_length _ _ _ _ _ D) as Lc.
  assert (Nm : forall i s x, nth_error (selected (m_table m) m) i = Some s -> nth_error (fields_of m) i = Some x -> snd s = snd x).
  { intros i s x Hs Hx. pose proof (names_selected m (m_table m)) as E. apply (map_nth_error snd) in Hs, Hx. rewrite E in Hs. congruence. }
  assert (Col : forall i x c, nth_error (fields_of m) i = Some x -> nth_error cols i = Some c ->
      exists s, nth_error (selected (m_table m) m) i = Some s /\ col_table c = fst s /\ col_org_name c = snd s /\ snd s = snd x).
  { intros i x c Hx Hc. destruct (nth_both _ _ (fields_of m) (selected (m_table m) m) i x) as (s & Hs); [congruence | exact Hx|].
    exists s. destruct (forall2_nth _ _ _ _ _ D i s c Hs Hc). splits; eauto. }
  split.
  - intros H. apply nth_forall2; [congruence|]. intros i s x Hs Hx.
    set (row := map (fun n => VULong (Z.of_nat n)) (seq 0 (length cols))).
    assert (Lr : length row = length cols) by (unfold row; now rewrite map_length, seq_length).
    specialize (H row Lr).
    assert (All : forall x, In x (fields_of m) -> exists c, In c cols /\ column_of m x c) by (apply (readable_exactly m cols row Hd Lr); eauto).
    destruct (read_exactly m cols row Hd Lr All) as (vs & left & E & F). rewrite H in E. injection E as <- _.
    destruct (nth_both _ _ (fields_of m) cols i x) as (c & Hc); [congruence | exact Hx|].
    assert (B : (i < length cols)%nat) by (apply nth_error_Some; congruence).
    assert (R : forall j, (j < length cols)%nat -> nth_error row j = Some (VULong (Z.of_nat j))).
    { intros j Hj. unfold row. apply (map_nth_error (fun n => VULong (Z.of_nat n))). rewrite (nth_error_nth' _ 0%nat) by (rewrite seq_length; lia).
      now rewrite seq_nth by lia. }
    destruct (forall2_nth _ _ _ _ _ F i x (VULong (Z.of_nat i)) Hx (R i B)) as (j & T & Hj).
    rewrite (R j (takes_bound _ _ _ _ T)) in Hj. injection Hj as Hj. apply Nat2Z.inj in Hj. subst j.
    destruct T as ((c' & Hc' & _ & G) & _). rewrite Hc in Hc'. injection Hc' as <-.
    destruct (Col i x c Hx Hc) as (s' & Hs' & A1 & A2 & A3). rewrite Hs in Hs'. injection Hs' as <-. now rewrite A3, <- A1.
  - intros G row Lr. rewrite from_row_last by exact Hd.
    apply (take_in_order (fields_of m) 0 row [] (last_to m cols 0)); [reflexivity | congruence|].
    intros i x Hx. apply takes_last; [exact Hd|]. cbn [Nat.add].
    assert (Go : forall j y c, nth_error (fields_of m) j = Some y -> nth_error cols j = Some c -> column_of m y c).
    { intros j y c Hy Hc. destruct (Col j y c Hy Hc) as (s & Hs & A1 & A2 & A3). unfold column_of. rewrite A1, A2, A3. split; [reflexivity|].
      pose proof (forall2_nth _ _ _ _ _ G j s y Hs Hy) as X. cbn beta in X. now rewrite A3 in X. }
    destruct (nth_both _ _ (fields_of m) cols i x) as (c & Hc); [congruence | exact Hx|]. split.
    + exists c. split; [exact Hc | eauto].
    + intros j c' Hj Hc' (A & B). destruct (nth_both _ _ cols (fields_of m) j c') as (y & Hy); [congruence | exact Hc'|].
      destruct (Go j y c' Hy Hc') as (A' & B').
      assert (E : x = y). { destruct x as [p n], y as [q k]. cbn [fst snd] in *. subst n. subst k. f_equal. exact (goes_unique _ _ _ _ _ Hd B B'). }
      subst y. pose proof (fields_nodup m Hd) as N. rewrite NoDup_nth_error in N. assert (i = j); [|lia]. apply N; [apply nth_error_Some; congruence | congruence].
Qed.
