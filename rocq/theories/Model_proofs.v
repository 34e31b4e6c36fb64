(** Lemmas about generated statements and mappings. *)
From Coq Require Import String ZArith List Bool Lia FinFun.
From Verif Require Import Base BaseFacts Types Framing Models Spec_Text Spec_Model.
Import ListNotations.
Open Scope Z_scope.

(** ** Induction principles *)
Lemma model_ind' : forall P : model -> Prop,
  (forall t p a simples structs refs, Forall (fun r => P (snd r)) refs -> P (Model t p a simples structs refs)) ->
  forall m, P m.
Proof.
  intros P H. fix IH 1. intros [t p a simples structs refs]. apply H.
  induction refs as [|[f sub] r IHr]; constructor; [apply IH|exact IHr].
Qed.

Lemma query_column_ind' : forall P : query_column -> Prop,
  (forall n, P (QColumn n)) ->
  (forall c t k cols, Forall P cols -> P (QReference c t k cols)) ->
  forall c, P c.
Proof.
  intros P H1 H2. fix IH 1. intros [n|c t k cols]; [apply H1|apply H2].
  induction cols as [|x r IHr]; constructor; [apply IH|exact IHr].
Qed.

Lemma active_ind' : forall P : active -> Prop,
  (forall t p simples structs refs, Forall (fun r => forall a, snd r = RInsert a -> P a) refs ->
     P (Active t p simples structs refs)) ->
  forall a, P a.
Proof.
  intros P H. fix IH 1. intros [t p simples structs refs]. apply H.
  induction refs as [|[f x] r IHr]; constructor; [|exact IHr].
  destruct x as [k|a|]; intros b E; cbn [snd] in E; [discriminate| |discriminate].
  injection E as <-. apply IH.
Qed.

(** ** Reading texts *)
Lemma expect_app : forall p l, expect p (p ++ l) = Some l.
Proof. induction p; intros; cbn [expect app]; auto. rewrite Z.eqb_refl. apply IHp. Qed.

Definition safe (r : list Z) : Prop := match r with [] => True | c :: _ => c <> 96 end.

Lemma lex_tick : forall n r, ~ In 96 n -> safe r -> lex_identifier (tick n ++ r) = Some (n, r).
Proof.
  intros n r Hn Hr. unfold tick. cbn [app lex_identifier].
  induction n as [|c n IH]; cbn [app lex_quoted andb].
  - change (96 =? 96) with true. cbn match. destruct r as [|c r]; [reflexivity|].
    cbn [safe] in Hr. destruct (Z.eqb_spec c 96); [contradiction|reflexivity].
  - destruct (Z.eqb_spec c 96) as [->|]; [exfalso; apply Hn; left; reflexivity|].
    rewrite IH; [reflexivity|]. intros H. apply Hn. right. exact H.
Qed.

Fixpoint commas (l : list str) : str :=
  match l with [] => [] | [x] => x | x :: r => x ++ s2l ", " ++ commas r end.

Lemma commas_cons : forall x y r, commas (x :: y :: r) = x ++ s2l ", " ++ commas (y :: r).
Proof. reflexivity. Qed.

Lemma commas_app : forall xs ys, xs <> [] -> ys <> [] -> commas (xs ++ ys) = commas xs ++ s2l ", " ++ commas ys.
Proof.
  induction xs as [|x xs IH]; intros ys Hx Hy; [congruence|].
  destruct xs as [|x' xs].
  - destruct ys as [|y ys]; [congruence|]. reflexivity.
  - cbn [app]. rewrite !commas_cons. change (x' :: xs ++ ys) with ((x' :: xs) ++ ys).
    rewrite IH by congruence. rewrite <- !app_assoc. reflexivity.
Qed.

Lemma comma_list_commas : forall A (item : list Z -> option (A * list Z)) (txt : A -> str) xs rest fuel,
  xs <> [] -> (forall x r, In x xs -> safe r -> item (txt x ++ r) = Some (x, r)) ->
  safe rest -> expect (s2l ", ") rest = None -> (length xs <= fuel)%nat ->
  comma_list fuel item (commas (map txt xs) ++ rest) = Some (xs, rest).
Proof.
  intros A item txt xs rest fuel Hne Hi Hs He. revert fuel Hne Hi.
  induction xs as [|x xs IH]; intros fuel Hne Hi Hf; [congruence|].
  destruct fuel as [|fuel]; [cbn [length] in Hf; lia|]. cbn [comma_list].
  destruct xs as [|y xs].
  - cbn [map commas]. rewrite Hi by (auto; left; reflexivity). cbn [obind]. rewrite He. reflexivity.
  - cbn [map]. rewrite commas_cons. rewrite <- !app_assoc.
    rewrite Hi; [|left; reflexivity|cbn; lia]. cbn [obind]. rewrite expect_app.
    change (txt y :: map txt xs) with (map txt (y :: xs)).
    rewrite IH; [reflexivity|congruence|intros; apply Hi; [right; assumption|assumption]|cbn [length] in *; lia].
Qed.

Lemma commas_length : forall A (txt : A -> str) xs, (forall x, txt x <> []) ->
  (length xs <= length (commas (map txt xs)))%nat.
Proof.
  intros A txt xs H. induction xs as [|x xs IH]; [cbn; lia|]. pose proof (H x) as Hx.
  destruct xs as [|y xs].
  - cbn [map commas length]. destruct (txt x); [congruence|cbn [length]; lia].
  - cbn [map] in *. rewrite commas_cons, app_length, app_length. cbn [length] in *.
    destruct (txt x); [congruence|cbn [length]; lia].
Qed.

Lemma tick_nonempty : forall n, tick n <> [].
Proof. intros n. discriminate. Qed.

(** ** INSERT and UPDATE *)
Lemma write_names_from : forall values after i,
  write_names (S i) values after =
  match values with [] => [] | _ => s2l ", " ++ commas (map (fun v => tick (fst v) ++ after) values) end.
Proof.
  induction values as [|v r IH]; intros after i; [reflexivity|].
  cbn [write_names Nat.eqb]. rewrite IH. destruct r as [|w r].
  - cbn [map commas]. rewrite app_nil_r. reflexivity.
  - cbn [map]. rewrite commas_cons. rewrite <- !app_assoc. reflexivity.
Qed.

Lemma write_names_commas : forall values after,
  write_names O values after = commas (map (fun v => tick (fst v) ++ after) values).
Proof.
  intros [|v r] after; [reflexivity|]. cbn [write_names Nat.eqb]. rewrite write_names_from.
  destruct r as [|w r]; cbn [app].
  - cbn [map commas]. rewrite app_nil_r. reflexivity.
  - cbn [map]. rewrite commas_cons. rewrite <- !app_assoc. reflexivity.
Qed.

Lemma write_marks_from : forall values i,
  write_marks (S i) values =
  match values with [] => [] | _ => s2l ", " ++ commas (map (fun _ => s2l "?") values) end.
Proof.
  induction values as [|v r IH]; intros i; [reflexivity|].
  cbn [write_marks Nat.eqb]. rewrite IH. destruct r as [|w r]; [reflexivity|].
  cbn [map]. rewrite commas_cons. reflexivity.
Qed.

Lemma write_marks_commas : forall values, write_marks O values = commas (map (fun _ => s2l "?") values).
Proof.
  intros [|v r]; [reflexivity|]. cbn [write_marks Nat.eqb]. rewrite write_marks_from.
  destruct r as [|w r]; [reflexivity|]. cbn [map]. rewrite commas_cons. reflexivity.
Qed.

Lemma paren_list_commas : forall A (item : list Z -> option (A * list Z)) (txt : A -> str) xs rest,
  (forall x r, In x xs -> safe r -> item (txt x ++ r) = Some (x, r)) ->
  (forall x, exists c t, txt x = c :: t /\ c <> 41) -> 
  paren_list item (s2l "(" ++ commas (map txt xs) ++ s2l ")" ++ rest) = Some (xs, rest).
Proof.
  intros A item txt xs rest Hi Ht. unfold paren_list. rewrite expect_app. cbn [obind].
  destruct xs as [|x xs].
  - cbn [map commas app]. rewrite expect_app. reflexivity.
  - assert (Hn : expect (s2l ")") (commas (map txt (x :: xs)) ++ s2l ")" ++ rest) = None).
    { destruct (Ht x) as (c & t & E & Hc). 
      assert (exists u, commas (map txt (x :: xs)) = c :: u) as (u & ->).
      { destruct xs; cbn [map]; [|rewrite commas_cons]; rewrite E; cbn [commas app]; eauto. }
      change (s2l ")") with [41]. cbn [app expect]. destruct (Z.eqb_spec 41 c); [congruence|reflexivity]. }
    rewrite Hn. rewrite comma_list_commas; [|congruence|exact Hi|cbn; lia|reflexivity|].
    + cbn [obind]. rewrite expect_app. reflexivity.
    + rewrite app_length.
      pose proof (commas_length A txt (x :: xs)) as L.
      assert (length (x :: xs) <= length (commas (map txt (x :: xs))))%nat; [|lia].
      apply L. intros y. destruct (Ht y) as (c & t & -> & _). discriminate.
Qed.

Lemma insert_text : forall vs table, ~ In 96 table -> Forall (fun v => ~ In 96 (fst v)) vs ->
  parse_insert (into_insert vs table) = Some (table, map fst vs, length vs).
Proof.
  intros vs table Ht Hv. unfold parse_insert, into_insert.
  rewrite expect_app. cbn [obind]. change (s2l " (") with (s2l " " ++ s2l "(").
  change (s2l ") values (") with (s2l ")" ++ s2l " values " ++ s2l "("). rewrite <- !app_assoc.
  rewrite lex_tick; [|exact Ht|cbn; lia]. cbn [obind]. rewrite expect_app. cbn [obind].
  rewrite write_names_commas, write_marks_commas.
  unfold named_value, str in *.
  replace (commas (map (fun v : list Z * value => tick (fst v) ++ []) vs)) with (commas (map tick (map fst vs)))
    by (rewrite map_map; f_equal; apply map_ext; intros; rewrite app_nil_r; reflexivity).
  rewrite (paren_list_commas (list Z) lex_identifier tick).
  - cbn [obind]. rewrite expect_app. cbn [obind].
    replace (map (fun _ : list Z * value => s2l "?") vs) with (map (fun _ : unit => s2l "?") (repeat tt (length vs)))
      by (clear; induction vs; cbn [map length repeat]; [reflexivity|f_equal; assumption]).
    replace (s2l ")") with (s2l ")" ++ []) at 1 by reflexivity.
    rewrite paren_list_commas.
    + cbn [obind]. rewrite repeat_length. reflexivity.
    + intros [] r _ _. unfold placeholder. rewrite expect_app. reflexivity.
    + intros x. exists 63, []. split; [reflexivity|lia].
  - intros x r Hx Hr. apply lex_tick; [|exact Hr].
    rewrite Forall_forall in Hv. apply in_map_iff in Hx. destruct Hx as (v & <- & Hin). apply Hv. exact Hin.
  - intros x. exists 96, (x ++ [96]). split; [reflexivity|lia].
Qed.

Lemma update_text : forall vs table primary, ~ In 96 table -> ~ In 96 primary -> vs <> [] ->
  Forall (fun v => ~ In 96 (fst v)) vs ->
  parse_update (into_update vs table primary) = Some (table, map fst vs, primary).
Proof.
  intros vs table primary Ht Hp Hne Hv. unfold parse_update, into_update.
  rewrite expect_app. cbn [obind].
  rewrite lex_tick; [|exact Ht|cbn; lia]. cbn [obind]. rewrite expect_app. cbn [obind].
  rewrite write_names_commas. unfold named_value, str in *.
  replace (map (fun v : list Z * value => tick (fst v) ++ s2l " = ?") vs)
    with (map (fun n => tick n ++ s2l " = ?") (map fst vs)) by (rewrite map_map; reflexivity).
  rewrite comma_list_commas; [| | |cbn; lia|reflexivity|].
  - cbn [obind]. rewrite expect_app. cbn [obind]. rewrite lex_tick; [|exact Hp|cbn; lia]. cbn [obind].
    replace (s2l " = ?") with (s2l " = ?" ++ []) by reflexivity. rewrite expect_app. reflexivity.
  - destruct vs; [congruence|discriminate].
  - intros x r Hx Hr. unfold assignment. rewrite <- app_assoc. rewrite lex_tick; [|..|cbn; lia].
    + cbn [obind]. rewrite expect_app. reflexivity.
    + rewrite Forall_forall in Hv. apply in_map_iff in Hx. destruct Hx as (v & <- & Hin). apply Hv. exact Hin.
  - rewrite app_length. 
    pose proof (commas_length _ (fun n => tick n ++ s2l " = ?") (map fst vs)) as L.
    match goal with |- (?a <= ?b + _)%nat => assert (a <= b)%nat; [|lia] end. apply L. intros n. discriminate.
Qed.

(** ** SELECT *)
Lemma everywhere_inv : forall P t p a simples structs refs, everywhere P (Model t p a simples structs refs) ->
  P (Model t p a simples structs refs) /\ Forall (fun r => everywhere P (snd r)) refs.
Proof. intros. inversion H; subst. auto. Qed.

Definition item_text (i : str * str) : str := tick (fst i) ++ [46] ++ tick (snd i).
Definition join_text (j : joined) : str :=
  s2l " join " ++ tick (j_table j) ++ s2l " as " ++ tick (j_alias j) ++ s2l " on (" ++
  item_text (j_left j) ++ s2l " = " ++ item_text (j_right j) ++ s2l ")".

Lemma column_ref_item : forall i r, ~ In 96 (fst i) -> ~ In 96 (snd i) -> safe r ->
  column_ref (item_text i ++ r) = Some (i, r).
Proof.
  intros [a b] r Ha Hb Hr. unfold column_ref, item_text. cbn [fst snd] in *. rewrite <- !app_assoc.
  rewrite lex_tick; [|exact Ha|cbn; lia]. cbn [obind]. change [46] with (s2l "."). rewrite expect_app. cbn [obind].
  rewrite lex_tick by assumption. reflexivity.
Qed.

Definition join_plain (j : joined) : Prop :=
  ~ In 96 (j_table j) /\ ~ In 96 (j_alias j) /\ ~ In 96 (fst (j_left j)) /\ ~ In 96 (snd (j_left j)) /\
  ~ In 96 (fst (j_right j)) /\ ~ In 96 (snd (j_right j)).

Lemma parse_joins_text : forall js fuel, Forall join_plain js -> (length js <= fuel)%nat ->
  parse_joins fuel (concat (map join_text js)) = Some js.
Proof.
  induction js as [|j js IH]; intros fuel Hj Hf; [destruct fuel; reflexivity|].
  destruct fuel as [|fuel]; [cbn [length] in Hf; lia|].
  inversion Hj as [|? ? (H1 & H2 & H3 & H4 & H5 & H6) Hj']; subst.
  cbn [map concat]. 
  assert (Hs : exists c t, join_text j ++ concat (map join_text js) = c :: t) by (eexists; eexists; reflexivity).
  cbn [parse_joins]. destruct Hs as (c & t & Hs). rewrite Hs. rewrite <- Hs. clear Hs c t.
  unfold join_text at 1. rewrite <- !app_assoc. rewrite expect_app. cbn [obind].
  rewrite lex_tick; [|exact H1|cbn; lia]. cbn [obind]. rewrite expect_app. cbn [obind].
  rewrite lex_tick; [|exact H2|cbn; lia]. cbn [obind]. rewrite expect_app. cbn [obind].
  rewrite column_ref_item; [|exact H3|exact H4|cbn; lia]. cbn [obind]. rewrite expect_app. cbn [obind].
  rewrite column_ref_item; [|exact H5|exact H6|cbn; lia]. cbn [obind]. rewrite expect_app. cbn [obind].
  rewrite IH; [|exact Hj'|cbn [length] in Hf; lia]. destruct j. reflexivity.
Qed.

Lemma joins_length : forall js, (length js <= length (concat (map join_text js)))%nat.
Proof.
  induction js as [|j js IH]; [cbn; lia|]. cbn [map concat length]. rewrite app_length.
  unfold join_text at 1. rewrite app_length. change (length (s2l " join ")) with 6%nat. lia.
Qed.

(** The columns and joins of a column tree. *)
Fixpoint q_items (ns : str) (c : query_column) : list (str * str) :=
  match c with
  | QColumn n => [(ns, n)]
  | QReference col t k cols => flat_map (q_items (ns ++ [46] ++ col)) cols
  end.
Fixpoint q_joins (ns : str) (c : query_column) : list joined :=
  match c with
  | QColumn n => []
  | QReference col t k cols =>
    mkJoined t (ns ++ [46] ++ col) (ns, col) (ns ++ [46] ++ col, k) :: flat_map (q_joins (ns ++ [46] ++ col)) cols
  end.
Inductive q_ok : query_column -> Prop :=
| q_ok_column : forall n, q_ok (QColumn n)
| q_ok_reference : forall c t k cols, cols <> [] -> Forall q_ok cols -> q_ok (QReference c t k cols).

Lemma q_items_nonempty : forall c ns, q_ok c -> q_items ns c <> [].
Proof.
  induction c as [n|c t k cols IH] using query_column_ind'; intros ns H; [discriminate|].
  inversion H as [|? ? ? ? Hne Hall]; subst. cbn [q_items]. destruct cols as [|x r]; [congruence|].
  cbn [flat_map]. apply Forall_inv in IH. apply Forall_inv in Hall.
  intros E. apply app_eq_nil in E. destruct E as [E _]. revert E. apply IH. exact Hall.
Qed.

Lemma inner_loop : forall cols new_ns i s,
  (fix go (i : nat) (cols : list query_column) (s : str * str) {struct cols} : str * str :=
       match cols with
       | [] => s
       | c :: r =>
         let s := if (i =? 0)%nat then s else (fst s ++ s2l ", ", snd s) in
         go (S i) r (append_to_select c new_ns s)
       end) i cols s = append_columns i cols new_ns s.
Proof. induction cols as [|c r IH]; intros; [reflexivity|]. cbn [append_columns]. rewrite <- IH. reflexivity. Qed.

Lemma append_columns_spec : forall cols ns,
  Forall (fun c => q_ok c -> forall ns s j,
    append_to_select c ns (s, j) =
    (s ++ commas (map item_text (q_items ns c)), j ++ concat (map join_text (q_joins ns c)))) cols ->
  Forall q_ok cols -> forall i s j,
  append_columns i cols ns (s, j) =
  (s ++ (if ((i =? 0)%nat || match cols with [] => true | _ => false end)%bool then [] else s2l ", ") ++
     commas (map item_text (flat_map (q_items ns) cols)),
   j ++ concat (map join_text (flat_map (q_joins ns) cols))).
Proof.
  induction cols as [|c r IH]; intros ns H Hq i s j.
  - cbn [append_columns flat_map map concat commas]. rewrite orb_true_r. rewrite !app_nil_r. reflexivity.
  - inversion H as [|? ? Hc Hr]; inversion Hq as [|? ? Qc Qr]; subst. cbn [append_columns].
    assert (E : (if (i =? 0)%nat then (s, j) else (fst (s, j) ++ s2l ", ", snd (s, j))) =
                (s ++ (if (i =? 0)%nat then [] else s2l ", "), j)).
    { destruct (i =? 0)%nat; cbn [fst snd]; [rewrite app_nil_r|]; reflexivity. }
    cbn zeta. rewrite E. rewrite Hc by exact Qc. rewrite IH by assumption. clear E.
    cbn [Nat.eqb orb flat_map]. rewrite !map_app, concat_app. rewrite <- !app_assoc.
    f_equal. rewrite orb_false_r. f_equal. f_equal.
    destruct r as [|c' r'].
    + cbn [flat_map map commas app]. rewrite !app_nil_r. reflexivity.
    + rewrite commas_app; [reflexivity| |].
      * intros E. apply map_eq_nil in E. revert E. apply q_items_nonempty. exact Qc.
      * intros E. apply map_eq_nil in E. cbn [flat_map] in E. apply app_eq_nil in E. destruct E as [E _].
        revert E. apply q_items_nonempty. inversion Qr; assumption.
Qed.

Lemma append_to_select_spec : forall c, q_ok c -> forall ns s j,
  append_to_select c ns (s, j) =
  (s ++ commas (map item_text (q_items ns c)), j ++ concat (map join_text (q_joins ns c))).
Proof.
  induction c as [n|c t k cols IH] using query_column_ind'; intros Hq ns s j.
  - cbn [append_to_select fst snd q_items q_joins map commas concat]. rewrite app_nil_r. reflexivity.
  - inversion Hq as [|? ? ? ? Hne Hall]; subst.
    cbn [append_to_select]. cbn zeta. rewrite inner_loop. cbn [fst snd].
    rewrite (append_columns_spec cols (ns ++ [46] ++ c) IH Hall).
    cbn [Nat.eqb orb app]. cbn [q_items q_joins map concat]. unfold join_text at 2. cbn [j_table j_alias j_left j_right].
    f_equal. unfold item_text. cbn [fst snd]. repeat (rewrite <- app_assoc; cbn [app]). reflexivity.
Qed.

Lemma own_names_columns : forall simples structs, own_names simples structs = columns_of simples structs.
Proof. intros. unfold own_names, columns_of. apply (f_equal (app simples)). apply flat_map_ext. intros [f parts]. reflexivity. Qed.

Lemma model_columns_ok : forall m, everywhere has_column m -> Forall q_ok (model_columns m) /\ model_columns m <> [].
Proof.
  induction m as [t p a simples structs refs IH] using model_ind'. intros H.
  apply everywhere_inv in H. destruct H as [Hc Hr].
  cbn [model_columns]. split.
  - apply Forall_app. split.
    + apply Forall_forall. intros x Hx. apply in_map_iff in Hx. destruct Hx as (n & <- & _). constructor.
    + clear Hc. induction refs as [|[f sub] refs IHr]; [constructor|].
      inversion IH; inversion Hr; subst. cbn [snd] in *. constructor; [|apply IHr; assumption].
      assert (Hs : Forall q_ok (model_columns sub) /\ model_columns sub <> []) by auto.
      destruct Hs. constructor; assumption.
  - cbn [has_column] in Hc. rewrite own_names_columns.
    intros E. apply app_eq_nil in E. destruct E as [E1 E2]. apply map_eq_nil in E1. apply map_eq_nil in E2.
    destruct Hc as [Hc|Hc]; apply Hc; assumption.
Qed.

Lemma flat_map_map : forall A B C (f : A -> B) (g : B -> list C) l, flat_map g (map f l) = flat_map (fun x => g (f x)) l.
Proof. induction l; cbn; f_equal; auto. Qed.

Lemma flat_map_single : forall A B (f : A -> B) l, flat_map (fun x => [f x]) l = map f l.
Proof. induction l; cbn; f_equal; auto. Qed.

Lemma flat_map_ext_Forall : forall A B (f g : A -> list B) l, Forall (fun x => f x = g x) l -> flat_map f l = flat_map g l.
Proof. induction 1; cbn; f_equal; auto. Qed.

Lemma items_selected : forall m ns, flat_map (q_items ns) (model_columns m) = selected ns m.
Proof.
  induction m as [t p a simples structs refs IH] using model_ind'. intros ns.
  cbn [model_columns selected]. rewrite flat_map_app, flat_map_map. cbn [q_items]. rewrite flat_map_single.
  rewrite own_names_columns. f_equal. rewrite flat_map_map. apply flat_map_ext_Forall.
  eapply Forall_impl; [|exact IH]. intros [f sub] H. cbn [snd q_items] in *. apply H.
Qed.

Lemma joins_joins : forall m ns, flat_map (q_joins ns) (model_columns m) = joins ns m.
Proof.
  induction m as [t p a simples structs refs IH] using model_ind'. intros ns.
  cbn [model_columns joins]. rewrite flat_map_app, flat_map_map. cbn [q_joins].
  replace (flat_map (fun _ : str => @nil joined) (own_names simples structs)) with (@nil joined)
    by (induction (own_names simples structs); auto).
  cbn [app]. rewrite flat_map_map. apply flat_map_ext_Forall.
  eapply Forall_impl; [|exact IH]. intros [f sub] H. cbn [snd q_joins] in *. rewrite H. destruct sub; reflexivity.
Qed.

Lemma plain_path : forall (ns f : str), ~ In 96 ns -> ~ In 96 f -> ~ In 96 (ns ++ s2l "." ++ f).
Proof.
  intros ns f H1 H2 H. apply in_app_or in H. destruct H as [H|H]; [auto|].
  cbn in H. destruct H as [H|H]; [discriminate|auto].
Qed.

Lemma selected_plain : forall m ns, everywhere names_plain m -> ~ In 96 ns ->
  Forall (fun i => ~ In 96 (fst i) /\ ~ In 96 (snd i)) (selected ns m).
Proof.
  induction m as [t p a simples structs refs IH] using model_ind'. intros ns H Hns.
  apply everywhere_inv in H. destruct H as [(Ht & Hp & Hc & Hf) Hr]. cbn [selected].
  apply Forall_app. split.
  - rewrite Forall_forall in *. intros x Hx. apply in_map_iff in Hx. destruct Hx as (n & <- & Hn). cbn [fst snd]. auto.
  - clear Hc. rewrite Forall_forall in *. intros x Hx. apply in_flat_map in Hx. destruct Hx as ((f & sub) & Hin & Hx).
    pose proof (IH _ Hin) as H1. pose proof (Hr _ Hin) as H2. pose proof (Hf _ Hin) as H3. cbn [fst snd] in *.
    specialize (H1 (ns ++ s2l "." ++ f) H2 (plain_path _ _ Hns H3)). rewrite Forall_forall in H1. auto.
Qed.

Lemma joins_plain : forall m ns, everywhere names_plain m -> ~ In 96 ns -> Forall join_plain (joins ns m).
Proof.
  induction m as [t p a simples structs refs IH] using model_ind'. intros ns H Hns.
  apply everywhere_inv in H. destruct H as [(Ht & Hp & Hc & Hf) Hr]. cbn [joins].
  rewrite Forall_forall in *. intros x Hx. apply in_flat_map in Hx. destruct Hx as ((f & sub) & Hin & Hx).
  pose proof (IH _ Hin) as H1. pose proof (Hr _ Hin) as H2. pose proof (Hf _ Hin) as H3. cbn [fst snd] in *.
  pose proof (plain_path _ _ Hns H3) as Hpath.
  specialize (H1 (ns ++ s2l "." ++ f) H2 Hpath). rewrite Forall_forall in H1.
  destruct sub as [t' p' a' s' st' r']. apply everywhere_inv in H2. destruct H2 as [(Ht' & Hp' & _) _].
  destruct Hx as [<-|Hx]; [|auto]. unfold join_plain. cbn [j_table j_alias j_left j_right fst snd]. auto 10.
Qed.

Lemma select_text : forall m, everywhere has_column m -> everywhere names_plain m ->
  parse_select (build_query (m_table m) (model_columns m)) =
  Some (selected (m_table m) m, m_table m, joins (m_table m) m).
Proof.
  intros m Hc Hp. destruct (model_columns_ok m Hc) as [Hq Hne].
  unfold build_query. cbn zeta.
  rewrite (append_columns_spec _ (m_table m)).
  2:{ apply Forall_forall. intros c _ Hok ns s j. apply append_to_select_spec. exact Hok. }
  2: exact Hq.
  cbn [Nat.eqb orb app fst snd]. rewrite items_selected, joins_joins.
  assert (Ht : ~ In 96 (m_table m)).
  { destruct m. apply everywhere_inv in Hp. destruct Hp as [(Ht & _) _]. exact Ht. }
  unfold parse_select. rewrite <- !app_assoc. rewrite expect_app. cbn [obind].
  rewrite comma_list_commas; [| | |cbn; lia|reflexivity|].
  - cbn [obind]. rewrite expect_app. cbn [obind]. rewrite lex_tick; [|exact Ht|].
    + cbn [obind]. rewrite parse_joins_text; [reflexivity| |apply joins_length]. apply joins_plain; assumption.
    + destruct (joins (m_table m) m); [exact I|cbn; lia].
  - rewrite <- items_selected. destruct (model_columns m) as [|c r]; [congruence|]. cbn [flat_map].
    intros E. apply app_eq_nil in E. destruct E as [E _]. revert E. apply q_items_nonempty. inversion Hq; assumption.
  - intros x r Hx Hr. pose proof (selected_plain m (m_table m) Hp Ht) as Hs. rewrite Forall_forall in Hs.
    destruct (Hs x Hx). apply column_ref_item; assumption.
  - rewrite app_length.
    pose proof (commas_length _ item_text (selected (m_table m) m)) as L.
    match goal with |- (?a <= ?b + _)%nat => assert (a <= b)%nat; [|lia] end. apply L. intros n. discriminate.
Qed.

(** ** Paths *)
Definition tail_ok (s : str) : Prop := s = [] \/ exists t, s = 46 :: t.

Lemma apart : forall (f g : str) s1 s2, ~ In 46 f -> ~ In 46 g -> tail_ok s1 -> tail_ok s2 ->
  f ++ s1 = g ++ s2 -> f = g /\ s1 = s2.
Proof.
  induction f as [|x f IH]; intros g s1 s2 Hf Hg H1 H2 E; cbn [app] in E.
  - destruct g as [|y g]; cbn [app] in E; [auto|]. subst s1.
    destruct H1 as [H1|(t & H1)]; [discriminate|]. injection H1 as -> _. exfalso. apply Hg. left. reflexivity.
  - destruct g as [|y g]; cbn [app] in E.
    + subst s2. destruct H2 as [H2|(t & H2)]; [discriminate|]. injection H2 as -> _.
      exfalso. apply Hf. left. reflexivity.
    + injection E as -> E. destruct (IH g s1 s2) as [-> ->]; auto.
      * intros H. apply Hf. right. exact H.
      * intros H. apply Hg. right. exact H.
Qed.

Lemma selected_alias : forall m ns i, In i (selected ns m) -> exists s, fst i = ns ++ s /\ tail_ok s.
Proof.
  induction m as [t p a simples structs refs IH] using model_ind'. intros ns i H. cbn [selected] in H.
  apply in_app_or in H. destruct H as [H|H].
  - apply in_map_iff in H. destruct H as (n & <- & _). exists []. split; [symmetry; apply app_nil_r|left; reflexivity].
  - apply in_flat_map in H. destruct H as ((f & sub) & Hin & H).
    rewrite Forall_forall in IH. destruct (IH _ Hin _ _ H) as (s & E & _).
    exists (46 :: f ++ s). split; [|right; eauto]. rewrite E. rewrite <- !app_assoc. reflexivity.
Qed.

Lemma NoDup_app : forall A (l1 l2 : list A), NoDup l1 -> NoDup l2 -> (forall x, In x l1 -> In x l2 -> False) -> NoDup (l1 ++ l2).
Proof.
  induction l1 as [|x l1 IH]; intros l2 H1 H2 H; [exact H2|]. cbn [app]. inversion H1; subst. constructor.
  - intros Hin. apply in_app_or in Hin. destruct Hin as [Hin|Hin]; [contradiction|]. apply (H x); [left; reflexivity|exact Hin].
  - apply IH; auto. intros y Hy. apply H. right. exact Hy.
Qed.

Lemma selected_nodup : forall m ns, everywhere names_distinct m -> NoDup (selected ns m).
Proof.
  induction m as [t p a simples structs refs IH] using model_ind'. intros ns H.
  apply everywhere_inv in H. destruct H as [(Hc & Hd & Hf) Hr]. cbn [selected]. apply NoDup_app.
  - apply Injective_map_NoDup; [|exact Hc]. intros x y E. injection E as ->. reflexivity.
  - clear Hc. induction refs as [|[f sub] refs IHr]; [constructor|]. cbn [flat_map].
    inversion IH as [|? ? I1 I2]; inversion Hr as [|? ? R1 R2]; inversion Hf as [|? ? F1 F2]; inversion Hd as [|? ? D1 D2]; subst.
    cbn [fst snd] in *. apply NoDup_app.
    + apply I1. exact R1.
    + apply IHr; auto.
    + intros i Hi Hi'. apply in_flat_map in Hi'. destruct Hi' as ((g & sub') & Hin & Hi').
      apply selected_alias in Hi. apply selected_alias in Hi'.
      destruct Hi as (s1 & E1 & T1), Hi' as (s2 & E2 & T2). rewrite E1 in E2.
      rewrite <- !app_assoc in E2. apply app_inv_head in E2. apply app_inv_head in E2.
      rewrite Forall_forall in F2. pose proof (F2 _ Hin) as [G1 G2]. cbn [fst] in *.
      destruct (apart f g s1 s2) as [-> _]; try tauto.
      apply D1. apply in_map_iff. exists (g, sub'). auto.
  - intros i H1 H2. apply in_map_iff in H1. destruct H1 as (n & <- & _).
    apply in_flat_map in H2. destruct H2 as ((f & sub) & Hin & H2). apply selected_alias in H2.
    destruct H2 as (s & E & _). cbn [fst] in E. 
    assert (L : length ns = length ((ns ++ s2l "." ++ f) ++ s)) by (rewrite <- E; reflexivity).
    rewrite !app_length in L. change (length (s2l ".")) with 1%nat in L. lia.
Qed.

Definition join_path (f r : str) : str := match r with [] => f | _ => f ++ [46] ++ r end.

Lemma join_path_tail : forall f r, exists s, join_path f r = f ++ s /\ tail_ok s.
Proof.
  intros f [|x r].
  - exists []. split; [symmetry; apply app_nil_r|left; reflexivity].
  - exists (46 :: x :: r). split; [reflexivity|right; eauto].
Qed.

(** The columns with their path inside the model. *)
Fixpoint rel_items (m : model) : list (str * str) :=
  match m with
  | Model _ _ _ simples structs refs =>
    map (@pair str str []) (columns_of simples structs) ++
    flat_map (fun r => match r with (f, sub) => map (fun i => (join_path f (fst i), snd i)) (rel_items sub) end) refs
  end.

Lemma selected_rel : forall m ns, everywhere names_distinct m ->
  selected ns m = map (fun i => (join_path ns (fst i), snd i)) (rel_items m).
Proof.
  induction m as [t p a simples structs refs IH] using model_ind'. intros ns H.
  apply everywhere_inv in H. destruct H as [(_ & _ & Hf) Hr]. cbn [selected rel_items].
  rewrite map_app, map_map. cbn [fst snd join_path].
  apply (f_equal (app (map (pair ns) (columns_of simples structs)))).
  induction refs as [|[f sub] refs IHr]; [reflexivity|]. cbn [flat_map].
  inversion IH as [|? ? I1 I2]; inversion Hr as [|? ? R1 R2]; inversion Hf as [|? ? F1 F2]; subst. cbn [fst snd] in *.
  rewrite map_app, map_map. apply (f_equal2 (@app (str * str))); [|apply IHr; assumption].
  rewrite I1 by exact R1. apply map_ext. intros [r c]. cbn [fst snd]. f_equal.
  destruct F1 as [Fne _]. destruct r as [|x r]; cbn [join_path].
  - destruct f; [congruence|reflexivity].
  - destruct f as [|y f]; [congruence|]. cbn [app]. rewrite <- !app_assoc. reflexivity.
Qed.

Lemma rel_items_path : forall m i, In i (rel_items m) ->
  match m with Model _ _ _ _ _ refs =>
    fst i = [] \/ exists f s, In f (map fst refs) /\ fst i = f ++ s /\ tail_ok s
  end.
Proof.
  intros [t p a simples structs refs] i H. cbn [rel_items] in H. apply in_app_or in H. destruct H as [H|H].
  - left. apply in_map_iff in H. destruct H as (n & <- & _). reflexivity.
  - right. apply in_flat_map in H. destruct H as ((f & sub) & Hin & H). apply in_map_iff in H.
    destruct H as ((r & c) & <- & _). cbn [fst]. destruct (join_path_tail f r) as (s & E & T).
    exists f, s. split; [|auto]. apply in_map_iff. exists (f, sub). auto.
Qed.

(** ** Setting a mapping *)
Fixpoint child_set (refs : list (str * model)) (children : list mapping) (org t : str) (i : nat) : option (list mapping) :=
  match refs, children with
  | (name, sub) :: refs', c :: children' =>
    if list_eqb t name then Some (set_mapping sub c org [] i :: children')
    else if starts_with t (name ++ [46])
    then Some (set_mapping sub c org (skipn (length (name ++ [46])) t) i :: children')
    else match child_set refs' children' org t i with Some l => Some (c :: l) | None => None end
  | _, _ => None
  end.

Definition inner (m : model) (mp : mapping) (org t : str) (i : nat) : mapping :=
  match m, mp with
  | Model _ _ _ _ _ refs, Mapping own children =>
    match child_set refs children org t i with
    | Some children' => Mapping own children'
    | None => Mapping (set_own own org i) children
    end
  end.

Lemma set_mapping_eq : forall m mp org table i,
  set_mapping m mp org table i = inner m mp org (strip_prefix_or table (m_table m ++ [46])) i.
Proof.
  intros [t p a simples structs refs] [own children] org table i. cbn [set_mapping inner m_table].
  set (tb := strip_prefix_or table (t ++ [46])). cbn zeta.
  match goal with |- match ?x with _ => _ end = match ?y with _ => _ end => assert (E : x = y); [|rewrite E; reflexivity] end.
  generalize children. clear. induction refs as [|[f sub] refs IH]; intros children; [reflexivity|].
  destruct children as [|c children]; [reflexivity|]. cbn [child_set]. rewrite IH. reflexivity.
Qed.

Lemma not_starts : forall f g s, ~ In 46 f -> ~ In 46 g -> f <> g -> tail_ok s -> starts_with (f ++ s) (g ++ [46]) = false.
Proof.
  intros f g s Hf Hg Hne Hs. destruct (starts_with (f ++ s) (g ++ [46])) eqn:E; [|reflexivity].
  apply starts_with_spec in E. destruct E as (r & E). rewrite <- app_assoc in E. cbn [app] in E.
  destruct (apart f g s (46 :: r)) as [-> _]; auto; [right; eauto|congruence].
Qed.

Lemma strip_nested : forall t p a simples structs refs i, In i (rel_items (Model t p a simples structs refs)) ->
  names_distinct (Model t p a simples structs refs) -> table_apart (Model t p a simples structs refs) ->
  strip_prefix_or (fst i) (t ++ [46]) = fst i.
Proof.
  intros t p a simples structs refs i Hi (_ & _ & Hf) (Tne & Td & Tr). apply rel_items_path in Hi.
  unfold strip_prefix_or. destruct Hi as [->|(f & s & Hin & -> & Hs)].
  - destruct t; reflexivity.
  - rewrite not_starts; auto.
    + apply in_map_iff in Hin. destruct Hin as (r & <- & Hin). rewrite Forall_forall in Hf. apply Hf. exact Hin.
    + intros ->. contradiction.
Qed.

Lemma child_own : forall refs children org t i,
  (forall f, In f (map fst refs) -> t <> f /\ starts_with t (f ++ [46]) = false) ->
  child_set refs children org t i = None.
Proof.
  induction refs as [|[f sub] refs IH]; intros children org t i H; [reflexivity|].
  destruct children as [|c children]; [reflexivity|]. cbn [child_set].
  destruct (H f) as [H1 H2]; [left; reflexivity|]. apply list_eqb_neq in H1. rewrite H1, H2.
  rewrite IH; [reflexivity|]. intros g Hg. apply H. right. exact Hg.
Qed.

Lemma inner_own : forall t p a simples structs refs own children org i,
  names_distinct (Model t p a simples structs refs) ->
  inner (Model t p a simples structs refs) (Mapping own children) org [] i = Mapping (set_own own org i) children.
Proof.
  intros t p a simples structs refs own children org i (_ & _ & Hf). cbn [inner]. rewrite child_own; [reflexivity|].
  intros f Hin. apply in_map_iff in Hin. destruct Hin as (r & <- & Hin). rewrite Forall_forall in Hf.
  destruct (Hf _ Hin) as [Hne _]. split; [congruence|]. destruct (fst r); [congruence|reflexivity].
Qed.

Lemma set_root : forall t p a simples structs refs own children i idx,
  In i (rel_items (Model t p a simples structs refs)) ->
  names_distinct (Model t p a simples structs refs) -> table_apart (Model t p a simples structs refs) ->
  set_mapping (Model t p a simples structs refs) (Mapping own children) (snd i) (join_path t (fst i)) idx =
  inner (Model t p a simples structs refs) (Mapping own children) (snd i) (fst i) idx.
Proof.
  intros t p a simples structs refs own children [r c] idx Hi Hd Ht. cbn [fst snd]. rewrite set_mapping_eq. cbn [m_table].
  destruct r as [|x r]; cbn [join_path].
  - rewrite inner_own by exact Hd. destruct Hd as (_ & _ & Hf), Ht as (Tne & Td & Tr).
    assert (E : strip_prefix_or t (t ++ [46]) = t).
    { unfold strip_prefix_or. destruct (starts_with t (t ++ [46])) eqn:E; [|reflexivity].
      apply starts_with_spec in E. destruct E as (w & E). apply (f_equal (@length Z)) in E.
      rewrite !app_length in E. cbn [length] in E. lia. }
    rewrite E. cbn [inner]. rewrite child_own; [reflexivity|].
    intros f Hin. split; [intros ->; contradiction|].
    replace t with (t ++ []) by apply app_nil_r. apply not_starts; auto; [| |left; reflexivity].
    + apply in_map_iff in Hin. destruct Hin as (r & <- & Hin). rewrite Forall_forall in Hf. apply Hf. exact Hin.
    + intros ->. contradiction.
  - f_equal. unfold strip_prefix_or. rewrite app_assoc. rewrite starts_with_app.
    rewrite skipn_app, skipn_all2, Nat.sub_diag by lia. reflexivity.
Qed.

Lemma child_ref : forall r1 f sub r2 c1 x c2 org r i,
  length c1 = length r1 -> ~ In f (map fst r1) -> Forall (fun r => fst r <> [] /\ ~ In 46 (fst r)) (r1 ++ (f, sub) :: r2) ->
  child_set (r1 ++ (f, sub) :: r2) (c1 ++ x :: c2) org (join_path f r) i =
  Some (c1 ++ set_mapping sub x org r i :: c2).
Proof.
  induction r1 as [|[g sub'] r1 IH]; intros f sub r2 c1 x c2 org r i Hl Hf Hn.
  - destruct c1; [|discriminate]. cbn [app child_set]. destruct r as [|y r]; cbn [join_path].
    + rewrite list_eqb_refl. reflexivity.
    + assert (E : list_eqb (f ++ [46] ++ y :: r) f = false).
      { apply list_eqb_neq. intros E. apply (f_equal (@length Z)) in E. rewrite app_length in E. cbn [length app] in E. lia. }
      rewrite E. rewrite app_assoc, starts_with_app. rewrite skipn_app, skipn_all2, Nat.sub_diag by lia. reflexivity.
  - destruct c1 as [|c c1]; [discriminate|]. cbn [app child_set].
    cbn [app] in Hn. inversion Hn as [|? ? G1 Hn']; subst. cbn [fst] in G1.
    assert (Hfd : ~ In 46 f).
    { apply Forall_app in Hn'. destruct Hn' as [_ Hn']. inversion Hn'; subst. tauto. }
    assert (Hne : f <> g) by (intros ->; apply Hf; left; reflexivity).
    destruct (join_path_tail f r) as (s & E & T).
    assert (E1 : list_eqb (join_path f r) g = false).
    { apply list_eqb_neq. intros E1. rewrite E in E1. replace g with (g ++ []) in E1 by apply app_nil_r.
      destruct (apart f g s []); try tauto. left. reflexivity. }
    rewrite E1. rewrite E at 1. rewrite not_starts by tauto.
    rewrite IH; [reflexivity| |intros H; apply Hf; right; exact H|exact Hn']. cbn [length] in Hl. lia.
Qed.

(** ** Setting all columns *)
Fixpoint set_rel (m : model) (mp : mapping) (k : nat) (items : list (str * str)) : mapping :=
  match items with
  | [] => mp
  | i :: r => set_rel m (inner m mp (snd i) (fst i) k) (S k) r
  end.

Lemma set_rel_app : forall m l1 l2 mp k, set_rel m mp k (l1 ++ l2) = set_rel m (set_rel m mp k l1) (k + length l1) l2.
Proof.
  induction l1 as [|i l1 IH]; intros; cbn [app set_rel length]; [rewrite Nat.add_0_r; reflexivity|].
  rewrite IH. f_equal. lia.
Qed.

Definition numbered (names : list str) (k : nat) : list (str * option nat) := combine names (map Some (seq k (length names))).

Lemma set_own_hit : forall pre n post i, ~ In n (map fst pre) ->
  set_own (pre ++ (n, None) :: post) n i = pre ++ (n, Some i) :: post.
Proof.
  induction pre as [|[x o] pre IH]; intros n post i H; cbn [app set_own].
  - rewrite list_eqb_refl. reflexivity.
  - assert (E : list_eqb n x = false) by (apply list_eqb_neq; intros ->; apply H; left; reflexivity).
    rewrite E. rewrite IH; [reflexivity|]. intros Hin. apply H. right. exact Hin.
Qed.

Lemma set_rel_own : forall t p a simples structs refs children names pre k,
  names_distinct (Model t p a simples structs refs) -> NoDup (map fst pre ++ names) ->
  set_rel (Model t p a simples structs refs) (Mapping (pre ++ map (fun n => (n, None)) names) children) k (map (@pair str str []) names) =
  Mapping (pre ++ numbered names k) children.
Proof.
  intros t p a simples structs refs children names. induction names as [|n names IH]; intros pre k Hd Hn; [reflexivity|].
  cbn [map set_rel snd fst]. rewrite inner_own by exact Hd.
  rewrite set_own_hit.
  - replace (pre ++ (n, Some k) :: map (fun n0 => (n0, None)) names)
      with ((pre ++ [(n, Some k)]) ++ map (fun n0 => (n0, None)) names) by (rewrite <- app_assoc; reflexivity).
    rewrite IH; [|exact Hd|].
    + unfold numbered. cbn [length seq map combine]. rewrite <- app_assoc. reflexivity.
    + rewrite map_app. cbn [map fst]. rewrite <- app_assoc. exact Hn.
  - intros H. apply NoDup_remove_2 in Hn. apply Hn. apply in_or_app. left. exact H.
Qed.

Lemma set_rel_child : forall t p a simples structs r1 f sub r2 own c1 x c2 items k,
  length c1 = length r1 -> names_distinct (Model t p a simples structs (r1 ++ (f, sub) :: r2)) ->
  everywhere names_distinct sub -> everywhere table_apart sub ->
  (forall i, In i items -> In i (rel_items sub)) ->
  set_rel (Model t p a simples structs (r1 ++ (f, sub) :: r2)) (Mapping own (c1 ++ x :: c2)) k
    (map (fun i => (join_path f (fst i), snd i)) items) =
  Mapping own (c1 ++ set_rel sub x k items :: c2).
Proof.
  intros t p a simples structs r1 f sub r2 own c1 x c2 items k Hl Hd Hs Ht. revert x k.
  induction items as [|[r c] items IH]; intros x k Hi; [reflexivity|].
  cbn [map set_rel fst snd]. cbn [inner].
  destruct Hd as (Hc & Hnd & Hf). rewrite child_ref; auto.
  - rewrite IH; [|intros; apply Hi; right; assumption]. cbn [set_rel fst snd].
    rewrite set_mapping_eq. destruct sub as [t' p' a' simples' structs' refs'].
    apply everywhere_inv in Hs. apply everywhere_inv in Ht. cbn [m_table].
    pose proof (strip_nested t' p' a' simples' structs' refs' (r, c)) as E. cbn [fst] in E.
    rewrite E; [reflexivity|apply Hi; left; reflexivity|tauto|tauto].
  - rewrite map_app in Hnd. cbn [map fst] in Hnd. apply NoDup_remove_2 in Hnd.
    intros H. apply Hnd. apply in_or_app. left. exact H.
Qed.

(** The mapping with every column at its index. *)
Fixpoint filled (m : model) (k : nat) : mapping :=
  match m with
  | Model _ _ _ simples structs refs =>
    Mapping (numbered (columns_of simples structs) k)
      ((fix go (refs : list (str * model)) (k : nat) : list mapping :=
          match refs with
          | [] => []
          | (f, sub) :: r => filled sub k :: go r (k + length (rel_items sub))%nat
          end) refs (k + length (columns_of simples structs))%nat)
  end.

Fixpoint filled_all (refs : list (str * model)) (k : nat) : list mapping :=
  match refs with
  | [] => []
  | (f, sub) :: r => filled sub k :: filled_all r (k + length (rel_items sub))%nat
  end.

Lemma filled_eq : forall t p a simples structs refs k,
  filled (Model t p a simples structs refs) k =
  Mapping (numbered (columns_of simples structs) k) (filled_all refs (k + length (columns_of simples structs))%nat).
Proof.
  intros. cbn [filled]. f_equal.
Qed.

Lemma filled_all_length : forall refs k, length (filled_all refs k) = length refs.
Proof. induction refs as [|[f sub] refs IH]; intros; cbn [filled_all length]; auto. Qed.

Lemma set_rel_filled : forall m k, everywhere names_distinct m -> everywhere table_apart m ->
  set_rel m (default_mapping m) k (rel_items m) = filled m k.
Proof.
  induction m as [t p a simples structs refs IH] using model_ind'. intros k Hd Ht.
  pose proof (everywhere_inv _ _ _ _ _ _ _ Hd) as [Hd1 Hd2].
  pose proof (everywhere_inv _ _ _ _ _ _ _ Ht) as [Ht1 Ht2].
  rewrite filled_eq. cbn [default_mapping rel_items]. rewrite set_rel_app. rewrite own_names_columns.
  pose proof (set_rel_own t p a simples structs refs (map (fun r : str * model => let (_, sub) := r in default_mapping sub) refs)
    (columns_of simples structs) [] k Hd1) as E.
  cbn [app map] in E. destruct Hd1 as (Hc & Hnd & Hf). unfold str in *. rewrite E by exact Hc. clear E.
  rewrite map_length.
  assert (G : forall own r2 r1 c1 k, refs = r1 ++ r2 -> length c1 = length r1 ->
    set_rel (Model t p a simples structs refs)
      (Mapping own (c1 ++ map (fun r : str * model => let (_, sub) := r in default_mapping sub) r2)) k
      (flat_map (fun r : str * model => let (f, sub) := r in map (fun i => (join_path f (fst i), snd i)) (rel_items sub)) r2) =
    Mapping own (c1 ++ filled_all r2 k)).
  { intros own. induction r2 as [|[f sub] r2 IHr]; intros r1 c1 k' E Hl; [reflexivity|].
    cbn [map flat_map filled_all]. rewrite set_rel_app. subst refs.
    assert (Hin : In (f, sub) (r1 ++ (f, sub) :: r2)) by (apply in_or_app; right; left; reflexivity).
    rewrite set_rel_child; auto.
    - rewrite Forall_forall in IH. pose proof (IH _ Hin) as IHs. cbn [snd] in IHs.
      rewrite Forall_forall in Hd2, Ht2. rewrite IHs; [|apply (Hd2 _ Hin)|apply (Ht2 _ Hin)].
      rewrite map_length.
      specialize (IHr (r1 ++ [(f, sub)]) (c1 ++ [filled sub k']) (k' + length (rel_items sub))%nat).
      rewrite <- !app_assoc in IHr. cbn [app] in IHr. apply IHr; [reflexivity|].
      rewrite !app_length. cbn [length]. lia.
    - split; [exact Hc|split; [exact Hnd|exact Hf]].
    - rewrite Forall_forall in Hd2. apply (Hd2 _ Hin).
    - rewrite Forall_forall in Ht2. apply (Ht2 _ Hin). }
  apply (G _ refs [] []); reflexivity.
Qed.

(** ** Reading rows *)
Lemma rel_items_length : forall m ns, everywhere names_distinct m -> length (selected ns m) = length (rel_items m).
Proof. intros. rewrite selected_rel by assumption. apply map_length. Qed.

Lemma take_numbered : forall names k vs pre post, length pre = k -> length vs = length names ->
  take_fields (numbered names k) (pre ++ vs ++ post) = Ok (vs, pre ++ repeat VNull (length vs) ++ post).
Proof.
  induction names as [|n names IH]; intros k vs pre post Hk Hv.
  - destruct vs; [|discriminate]. reflexivity.
  - destruct vs as [|v vs]; [discriminate|]. unfold numbered. cbn [length seq map combine take_fields].
    unfold take_field at 1. cbn [snd]. rewrite nth_error_app2 by lia. subst k. rewrite Nat.sub_diag. cbn [app nth_error rbind].
    rewrite firstn_app, firstn_all2, Nat.sub_diag by lia. cbn [firstn]. rewrite app_nil_r.
    rewrite skipn_app, skipn_all2 by lia. replace (S (length pre) - length pre)%nat with 1%nat by lia. cbn [skipn app].
    fold (numbered names (S (length pre))).
    replace (pre ++ VNull :: vs ++ post) with ((pre ++ [VNull]) ++ vs ++ post) by (rewrite <- app_assoc; reflexivity).
    rewrite IH; [|rewrite app_length; cbn [length]; lia|cbn [length] in Hv; lia]. cbn [rbind length repeat app].
    rewrite <- app_assoc. reflexivity.
Qed.

Fixpoint rows_all (cs : list mapping) (row : list value) : res parse_error (list value * list value) :=
  match cs with
  | [] => Ok ([], row)
  | c :: r =>
    rbind (from_row c row) (fun '(vs, row) =>
    rbind (rows_all r row) (fun '(ws, row) => Ok (vs ++ ws, row)))
  end.

Lemma from_row_eq : forall own children row,
  from_row (Mapping own children) row =
  rbind (take_fields own row) (fun '(vs, row) => rbind (rows_all children row) (fun '(ws, row) => Ok (vs ++ ws, row))).
Proof.
  intros. cbn [from_row]. f_equal.
Qed.

Lemma from_row_filled : forall m k vs pre post, length pre = k -> length vs = length (rel_items m) ->
  from_row (filled m k) (pre ++ vs ++ post) = Ok (vs, pre ++ repeat VNull (length vs) ++ post).
Proof.
  induction m as [t p a simples structs refs IH] using model_ind'. intros k vs pre post Hk Hv.
  rewrite filled_eq, from_row_eq. cbn [rel_items] in Hv. rewrite app_length, map_length in Hv.
  set (names := columns_of simples structs) in *.
  assert (E : exists v1 v2, vs = v1 ++ v2 /\ length v1 = length names).
  { exists (firstn (length names) vs), (skipn (length names) vs). split; [symmetry; apply firstn_skipn|].
    apply firstn_length_le. lia. }
  destruct E as (v1 & v2 & -> & L1). rewrite app_length in Hv. rewrite <- app_assoc.
  rewrite take_numbered by assumption. cbn [rbind].
  assert (L2 : length v2 = length (flat_map (fun r : str * model => let (f, sub) := r in
    map (fun i => (join_path f (fst i), snd i)) (rel_items sub)) refs)) by lia.
  rewrite app_assoc.
  assert (L3 : length (pre ++ repeat VNull (length v1)) = (k + length names)%nat)
    by (rewrite app_length, repeat_length; lia).
  enough (G : forall k v2 pre, length pre = k -> length v2 = length (flat_map (fun r : str * model => let (f, sub) := r in
    map (fun i => (join_path f (fst i), snd i)) (rel_items sub)) refs) ->
    rows_all (filled_all refs k) (pre ++ v2 ++ post) = Ok (v2, pre ++ repeat VNull (length v2) ++ post)).
  { rewrite (G _ _ _ L3 L2). cbn [rbind]. rewrite app_length, repeat_app. rewrite <- !app_assoc. reflexivity. }
  clear - IH. induction refs as [|[f sub] refs IHr]; intros k v2 pre Hk Hl.
  - destruct v2; [reflexivity|discriminate].
  - inversion IH as [|? ? I1 I2]; subst. cbn [snd] in I1. cbn [flat_map filled_all rows_all] in *.
    rewrite app_length, map_length in Hl.
    assert (E : exists w1 w2, v2 = w1 ++ w2 /\ length w1 = length (rel_items sub)).
    { exists (firstn (length (rel_items sub)) v2), (skipn (length (rel_items sub)) v2). split; [symmetry; apply firstn_skipn|].
      apply firstn_length_le. lia. }
    destruct E as (w1 & w2 & -> & L1). rewrite app_length in Hl. rewrite <- app_assoc.
    rewrite (I1 (length pre) w1 pre (w2 ++ post) eq_refl L1). cbn [rbind]. rewrite app_assoc.
    rewrite (IHr I2 (length pre + length (rel_items sub))%nat w2); [|rewrite app_length, repeat_length; lia|lia].
    cbn [rbind]. rewrite app_length, repeat_app, <- !app_assoc. reflexivity.
Qed.

Lemma inner_cases : forall m mp org t i, exists own children, inner m mp org t i = Mapping own children.
Proof. intros. destruct (inner m mp org t i). eauto. Qed.

Lemma set_columns_rel : forall m items cols mp k, everywhere names_distinct m -> everywhere table_apart m ->
  (forall i, In i items -> In i (rel_items m)) ->
  describes (map (fun i => (join_path (m_table m) (fst i), snd i)) items) cols ->
  set_columns m mp k cols = set_rel m mp k items.
Proof.
  intros [t p a simples structs refs] items. induction items as [|i items IH]; intros cols mp k Hd Ht Hi Hc.
  - inversion Hc; subst. reflexivity.
  - cbn [map] in Hc. inversion Hc as [|? ? ? ? (C1 & C2) Hc']; subst. cbn [set_columns set_rel fst snd m_table] in *.
    rewrite C1, C2. destruct mp as [own children].
    rewrite set_root; [|apply Hi; left; reflexivity| |].
    + apply IH; auto. intros; apply Hi; right; assumption.
    + apply everywhere_inv in Hd. tauto.
    + apply everywhere_inv in Ht. tauto.
Qed.

Lemma from_columns_filled : forall m cols, everywhere names_distinct m -> everywhere table_apart m ->
  describes (selected (m_table m) m) cols -> from_columns m cols = filled m O.
Proof.
  intros m cols Hd Ht Hc. rewrite selected_rel in Hc by exact Hd. unfold from_columns.
  rewrite (set_columns_rel m (rel_items m)); auto. apply set_rel_filled; assumption.
Qed.

Lemma rows_back : forall m cols row, everywhere names_distinct m -> everywhere table_apart m ->
  describes (selected (m_table m) m) cols -> length row = length cols ->
  from_row (from_columns m cols) row = Ok (row, repeat VNull (length row)).
Proof.
  intros m cols row Hd Ht Hc Hl. rewrite from_columns_filled by assumption.
  assert (L : length row = length (rel_items m)).
  { rewrite Hl. rewrite <- (rel_items_length m (m_table m)) by exact Hd.
    unfold describes in Hc. clear - Hc. induction Hc; cbn [length]; auto. }
  pose proof (from_row_filled m O row [] [] eq_refl L) as E. cbn [app] in E. rewrite !app_nil_r in E. exact E.
Qed.

(** ** Inserting *)
Lemma simple_values_sets : forall fields,
  match simple_values fields with
  | Ok vs => sets fields vs
  | _ => ~ exists vs, sets fields vs
  end.
Proof.
  induction fields as [|[n o] r IH]; [constructor|]. cbn [simple_values].
  destruct o as [[v|e|]|]; cbn [rmap_err rbind].
  - destruct (simple_values r); cbn [rmap]; [constructor; exact IH| |];
      intros (vs & H); inversion H; subst; eauto.
  - intros (vs & H). inversion H.
  - intros (vs & H). inversion H.
  - destruct (simple_values r); [constructor; exact IH| |]; intros (vs & H); inversion H; subst; eauto.
Qed.

Lemma part_values : forall (parts : list (str * res serialize_error value)) vs,
  sets (map (fun '(n, v) => (n, Some v)) parts) vs <->
  Forall2 (fun p v => fst p = fst v /\ snd p = Ok (snd v)) parts vs.
Proof.
  induction parts as [|[n x] parts IH]; intros vs; cbn [map].
  - split; intros H; inversion H; constructor.
  - split; intros H.
    + inversion H; subst. constructor; [auto|]. apply IH. assumption.
    + inversion H as [|? [n' v] ? ? (E1 & E2) H']; subst. cbn [fst snd] in *. subst. constructor. apply IH. assumption.
Qed.

Lemma struct_values_sets : forall fields,
  match struct_values fields with
  | Ok vs => struct_sets fields vs
  | _ => ~ exists vs, struct_sets fields vs
  end.
Proof.
  induction fields as [|[parts|] r IH]; [constructor| |]; cbn [struct_values].
  - pose proof (simple_values_sets (map (fun '(n, v) => (n, Some v)) parts)) as Hp.
    destruct (simple_values (map (fun '(n, v) => (n, Some v)) parts)) as [vs| |]; cbn [rbind].
    + apply part_values in Hp. destruct (struct_values r); cbn [rmap].
      * constructor; assumption.
      * intros (l & H). inversion H; subst. eauto.
      * intros (l & H). inversion H; subst. eauto.
    + intros (l & H). inversion H; subst. apply Hp. eexists. apply part_values. eassumption.
    + intros (l & H). inversion H; subst. apply Hp. eexists. apply part_values. eassumption.
  - destruct (struct_values r); [constructor; exact IH| |]; intros (vs & H); inversion H; subst; eauto.
Qed.

Lemma sets_names : forall P fields vs, sets fields vs -> Forall (fun f => P (fst f)) fields -> Forall (fun v => P (fst v)) vs.
Proof. induction 1; intros F; inversion F; subst; auto. Qed.

Lemma struct_sets_names : forall P fields vs, struct_sets fields vs ->
  Forall (fun o => forall l, o = Some l -> Forall (fun f => P (fst f)) l) fields -> Forall (fun v => P (fst v)) vs.
Proof.
  induction 1 as [|r l H IH|parts vs r l Hp H IH]; intros F; [constructor| |]; inversion F as [|? ? F1 F2]; subst; auto.
  apply Forall_app. split; [|auto]. specialize (F1 _ eq_refl). clear - Hp F1.
  induction Hp as [|p v parts vs (E & _)]; inversion F1; subst; constructor; auto. rewrite <- E. assumption.
Qed.

Lemma primary_key : forall t p simples structs refs id, NoDup (map fst simples) ->
  key_of (Active t p simples structs refs) id
    match active_primary (Active t p simples structs refs) with Some k => k | None => VULong id end.
Proof.
  intros t p simples structs refs id Hn. cbn [active_primary]. destruct p as [p|].
  2:{ apply key_assigned. discriminate. }
  destruct (find (fun f => list_eqb (fst f) p) simples) as [[n o]|] eqn:E.
  - apply find_some in E. cbn [fst] in E. destruct E as [Hin E]. apply list_eqb_eq in E. subst n.
    assert (U : forall o', In (p, o') simples -> o' = o).
    { intros o' Hin'. clear - Hn Hin Hin'. induction simples as [|[n x] r IH]; [destruct Hin|].
      cbn [map fst] in Hn. inversion Hn as [|? ? N1 N2]; subst.
      destruct Hin as [E|Hin], Hin' as [E'|Hin'].
      - congruence.
      - injection E as -> ->. exfalso. apply N1. apply in_map_iff. exists (p, o'). auto.
      - injection E' as -> ->. exfalso. apply N1. apply in_map_iff. exists (p, o). auto.
      - auto. }
    destruct o as [[v|e|]|].
    + apply key_set. exact Hin.
    + apply key_assigned. intros q Eq v H. injection Eq as <-. apply U in H. discriminate.
    + apply key_assigned. intros q Eq v H. injection Eq as <-. apply U in H. discriminate.
    + apply key_assigned. intros q Eq v H. injection Eq as <-. apply U in H. discriminate.
  - apply key_assigned. intros q Eq v H. injection Eq as <-.
    pose proof (find_none _ _ E _ H) as F. cbn [fst] in F. rewrite list_eqb_refl in F. discriminate.
Qed.

Lemma simple_conversions : forall fields rest,
  match simple_values fields with
  | Ok _ => exists vs, flat_map (fun f => match snd f with Some c => [c] | None => [] end) fields = map Ok vs
  | Err e => forall A, unconverted (A := A) (flat_map (fun f => match snd f with Some c => [c] | None => [] end) fields ++ rest) (Err e)
  | Panic => forall A, unconverted (A := A) (flat_map (fun f => match snd f with Some c => [c] | None => [] end) fields ++ rest) Panic
  end.
Proof.
  induction fields as [|[n [c|]] r IH]; intros rest; [exists []; reflexivity| |exact (IH rest)].
  cbn [simple_values flat_map snd app]. destruct c as [v|e|]; cbn [rmap_err rbind].
  - specialize (IH rest). unfold rmap. destruct (simple_values r) as [vs|e|]; cbn [rbind].
    + destruct IH as (vs' & ->). exists (v :: vs'). reflexivity.
    + intros A. destruct (IH A) as (vs & c & rest' & -> & H). exists (v :: vs), c, rest'. auto.
    + intros A. destruct (IH A) as (vs & c & rest' & -> & H). exists (v :: vs), c, rest'. auto.
  - intros A. exists [], (Err e). eexists. split; [reflexivity|]. left. eauto.
  - intros A. exists [], Panic. eexists. split; [reflexivity|]. right. auto.
Qed.

Lemma unconverted_after : forall A vs cs (r : res error A), unconverted cs r -> unconverted (map Ok vs ++ cs) r.
Proof. intros A vs cs r (vs' & c & rest & -> & H). exists (vs ++ vs'), c, rest. rewrite map_app, <- app_assoc. auto. Qed.

Lemma struct_conversions : forall fields,
  match struct_values fields with
  | Ok _ => True
  | Err e => forall A, unconverted (A := A) (flat_map (fun o => match o with Some l => map snd l | None => [] end) fields) (Err e)
  | Panic => forall A, unconverted (A := A) (flat_map (fun o => match o with Some l => map snd l | None => [] end) fields) Panic
  end.
Proof.
  induction fields as [|[l|] r IH]; [exact I| |exact IH]. cbn [struct_values flat_map].
  assert (E : map snd l = flat_map (fun f : str * option (res serialize_error value) => match snd f with Some c => [c] | None => [] end)
      (map (fun '(n, v) => (n, Some v)) l)).
  { clear. induction l as [|[n v] l IH]; [reflexivity|]. cbn [map flat_map snd app]. now rewrite IH. }
  rewrite E. pose proof (simple_conversions (map (fun '(n, v) => (n, Some v)) l)
    (flat_map (fun o => match o with Some l => map snd l | None => [] end) r)) as S.
  destruct (simple_values (map (fun '(n, v) => (n, Some v)) l)) as [vs|e|]; cbn [rbind]; [|exact S|exact S].
  destruct S as (vs' & ->). unfold rmap. destruct (struct_values r) as [ws|e|]; cbn [rbind]; [exact I| |]; intros A; apply unconverted_after, IH.
Qed.

Lemma unconverted_simples : forall A simples structs e, simple_values simples = Err e -> unconverted (A := A) (conversions simples structs) (Err e).
Proof. intros A simples structs e E. pose proof (simple_conversions simples (flat_map (fun o => match o with Some l => map snd l | None => [] end) structs)) as S. rewrite E in S. apply S. Qed.
Lemma unconverted_simples_panic : forall A simples structs, simple_values simples = Panic -> unconverted (A := A) (conversions simples structs) Panic.
Proof. intros A simples structs E. pose proof (simple_conversions simples (flat_map (fun o => match o with Some l => map snd l | None => [] end) structs)) as S. rewrite E in S. apply S. Qed.
Lemma unconverted_structs : forall A simples structs vs e, simple_values simples = Ok vs -> struct_values structs = Err e ->
  unconverted (A := A) (conversions simples structs) (Err e).
Proof.
  intros A simples structs vs e E E'. pose proof (simple_conversions simples []) as S. pose proof (struct_conversions structs) as S'.
  rewrite E in S. rewrite E' in S'. destruct S as (vs' & S). unfold conversions. rewrite S. apply unconverted_after, S'.
Qed.
Lemma unconverted_structs_panic : forall A simples structs vs, simple_values simples = Ok vs -> struct_values structs = Panic ->
  unconverted (A := A) (conversions simples structs) Panic.
Proof.
  intros A simples structs vs E E'. pose proof (simple_conversions simples []) as S. pose proof (struct_conversions structs) as S'.
  rewrite E in S. rewrite E' in S'. destruct S as (vs' & S). unfold conversions. rewrite S. apply unconverted_after, S'.
Qed.
Lemma unconverted_not_ok : forall A cs (r : res error A), unconverted cs r -> forall x, r <> Ok x.
Proof. intros A cs r (vs & c & rest & _ & [(e & _ & ->) | (_ & ->)]) x; discriminate. Qed.

Lemma insert_eq : forall db t p simples structs refs,
  insert db (Active t p simples structs refs) =
  (vs <- (fun h => (simple_values simples, h)) ;;
   ws <- (fun h => (struct_values structs, h)) ;;
   us <- reference_values db refs ;;
   run_statement db (into_insert (vs ++ ws ++ us) t) (map snd (vs ++ ws ++ us)))%io.
Proof.
  intros. cbn [insert].
  match goal with |- context [iobind (?g refs)] =>
    assert (E : forall refs, g refs = reference_values db refs) end.
  { clear. induction refs as [|[n [k|a|]] r IH]; [reflexivity| | |]; cbn [reference_values]; rewrite <- IH; reflexivity. }
  rewrite E. reflexivity.
Qed.

Lemma references_run : forall db refs, Forall (fun r => forall a, snd r = RInsert a -> active_ok a -> forall h, exists trace,
        snd (insert db a h) = h ++ trace /\ inserted a trace (fst (insert db a h))) refs ->
      Forall (fun r => ~ In 96 (fst r) /\ forall a, snd r = RInsert a -> active_ok a) refs -> forall h,
      exists trace, snd (reference_values db refs h) = h ++ trace /\
        references refs trace (fst (reference_values db refs h)) /\
        (forall us, fst (reference_values db refs h) = Ok us -> Forall (fun v => ~ In 96 (fst v)) us).
Proof.
  intros db. induction refs as [|[n x] r IHr]; intros IH Hr h.
    - exists []. cbn [reference_values fst snd]. rewrite app_nil_r. splits; [reflexivity|constructor|].
      intros us E. injection E as <-. constructor.
    - inversion IH as [|? ? I1 I2]; inversion Hr as [|? ? [R0 R1] R2]; subst. cbn [fst snd] in *.
      specialize (IHr I2 R2). destruct x as [k|a|]; cbn [reference_values].
      + destruct (IHr h) as (trace & T1 & T2 & T3). unfold iobind.
        destruct (reference_values db r h) as [[us|e|] h'] eqn:E; cbn [fst snd] in *; subst h'; exists trace.
        * splits; [reflexivity|constructor; exact T2|]. intros us' Eu. injection Eu as <-. constructor; [exact R0|auto].
        * splits; [reflexivity| |discriminate]. change trace with ([] ++ trace).
          apply refs_later_failed; auto; discriminate.
        * splits; [reflexivity| |discriminate]. change trace with ([] ++ trace).
          apply refs_later_failed; auto; discriminate.
      + pose proof (I1 a eq_refl (R1 a eq_refl) h) as (t1 & A1 & A2). unfold iobind.
        destruct (insert db a h) as [[id|e|] h1] eqn:Ei; cbn [fst snd] in *; subst h1.
        * destruct (IHr (h ++ t1)) as (trace & T1 & T2 & T3).
          destruct (reference_values db r (h ++ t1)) as [[us|e|] h'] eqn:E; cbn [fst snd] in *; subst h';
            exists (t1 ++ trace); rewrite app_assoc.
          -- splits; [reflexivity| |].
             ++ apply refs_insert with (id := id); auto.
                specialize (R1 a eq_refl). inversion R1; subst. apply primary_key. assumption.
             ++ intros us' Eu. injection Eu as <-. constructor; [exact R0|auto].
          -- splits; [reflexivity| |discriminate].
             apply refs_later_failed; auto; try discriminate. intros b Eb. injection Eb as <-. eauto.
          -- splits; [reflexivity| |discriminate].
             apply refs_later_failed; auto; try discriminate. intros b Eb. injection Eb as <-. eauto.
        * exists t1. splits; [reflexivity| |discriminate].
          exact (refs_insert_failed n a (Err e) r t1 A2 ltac:(discriminate)).
        * exists t1. splits; [reflexivity| |discriminate].
          exact (refs_insert_failed n a Panic r t1 A2 ltac:(discriminate)).
      + destruct (IHr h) as (trace & T1 & T2 & T3). exists trace. splits; auto. constructor. exact T2.
Qed.

Lemma insert_runs : forall db a, active_ok a -> forall h, exists trace,
  snd (insert db a h) = h ++ trace /\ inserted a trace (fst (insert db a h)).
Proof.
  intros db. induction a as [t p simples structs refs IH] using active_ind'. intros Hok h.
  inversion Hok as [? ? ? ? ? Ht Hn Hs Hst Hr]; subst. rewrite insert_eq.
  pose proof (simple_values_sets simples) as E1. pose proof (struct_values_sets structs) as E2.
  unfold iobind. destruct (simple_values simples) as [vs|e|] eqn:V1.
  2:{ exists []. cbn [fst snd]. rewrite app_nil_r. split; [reflexivity|]. apply ins_unconverted. now apply unconverted_simples. }
  2:{ exists []. cbn [fst snd]. rewrite app_nil_r. split; [reflexivity|]. apply ins_unconverted. now apply unconverted_simples_panic. }
  destruct (struct_values structs) as [ws|e|] eqn:V2.
  2:{ exists []. cbn [fst snd]. rewrite app_nil_r. split; [reflexivity|]. apply ins_unconverted. eapply unconverted_structs; eassumption. }
  2:{ exists []. cbn [fst snd]. rewrite app_nil_r. split; [reflexivity|]. apply ins_unconverted. eapply unconverted_structs_panic; eassumption. }
  destruct (references_run db refs IH Hr h) as (trace & T1 & T2 & T3).
  destruct (reference_values db refs h) as [[us|e|] h'] eqn:E; cbn [fst snd] in *; subst h'.
  - unfold run_statement. cbn [fst snd].
    exists (trace ++ [(into_insert (vs ++ ws ++ us) t, map snd (vs ++ ws ++ us), db (h ++ trace) (into_insert (vs ++ ws ++ us) t) (map snd (vs ++ ws ++ us)))]).
    split; [symmetry; apply app_assoc|].
    apply ins_done with (vs := vs) (ws := ws) (us := us); auto.
    unfold inserts_row. split; [|reflexivity]. rewrite map_length. apply insert_text; [exact Ht|].
    rewrite !Forall_app. splits.
    + apply (sets_names (fun n => ~ In 96 n) _ _ E1 Hs).
    + apply (struct_sets_names (fun n => ~ In 96 n) _ _ E2 Hst).
    + auto.
  - exists trace. split; [reflexivity|].
    exact (ins_failed t p simples structs refs trace (Err e) T2 ltac:(discriminate)).
  - exists trace. split; [reflexivity|].
    exact (ins_failed t p simples structs refs trace Panic T2 ltac:(discriminate)).
Qed.

Lemma references_inserted : forall db refs h,
  Forall (fun r => ~ In 96 (fst r) /\ forall a, snd r = RInsert a -> active_ok a) refs ->
  exists trace, snd (reference_values db refs h) = h ++ trace /\
    references refs trace (fst (reference_values db refs h)) /\
    (forall us, fst (reference_values db refs h) = Ok us -> Forall (fun v => ~ In 96 (fst v)) us).
Proof.
  intros db refs h Hr. apply references_run; [|exact Hr].
  apply Forall_forall. intros r _ a _ Ha. apply insert_runs. exact Ha.
Qed.

Lemma update_runs : forall db key primary a h, active_ok a -> ~ In 96 primary -> exists trace,
  snd (update_model db key primary a h) = h ++ trace /\
  updated key primary a trace (fst (update_model db key primary a h)).
Proof.
  intros db key primary [t p simples structs refs] h Hok Hp. inversion Hok as [? ? ? ? ? Ht Hn Hs Hst Hr]; subst.
  unfold update_model, iobind.
  pose proof (simple_values_sets simples) as E1. pose proof (struct_values_sets structs) as E2.
  destruct (simple_values simples) as [vs|e|] eqn:V1.
  2:{ exists []. cbn [fst snd]. rewrite app_nil_r. split; [reflexivity|]. apply upd_unconverted. now apply unconverted_simples. }
  2:{ exists []. cbn [fst snd]. rewrite app_nil_r. split; [reflexivity|]. apply upd_unconverted. now apply unconverted_simples_panic. }
  destruct (struct_values structs) as [ws|e|] eqn:V2.
  2:{ exists []. cbn [fst snd]. rewrite app_nil_r. split; [reflexivity|]. apply upd_unconverted. eapply unconverted_structs; eassumption. }
  2:{ exists []. cbn [fst snd]. rewrite app_nil_r. split; [reflexivity|]. apply upd_unconverted. eapply unconverted_structs_panic; eassumption. }
  destruct (references_inserted db refs h Hr) as (trace & T1 & T2 & T3).
  destruct (reference_values db refs h) as [[us|e|] h'] eqn:E; cbn [fst snd] in *; subst h'.
  - destruct (vs ++ ws ++ us) as [|v l] eqn:El.
    + exists trace. split; [reflexivity|]. eapply upd_nothing; eauto.
    + unfold run_statement.
      set (s := (into_update (v :: l) t primary, map snd (v :: l) ++ [key],
                 db (h ++ trace) (into_update (v :: l) t primary) (map snd (v :: l) ++ [key])) : statement).
      assert (U : updates_row s t primary (vs ++ ws ++ us) key).
      { rewrite El. unfold updates_row, s. split; [|reflexivity]. apply update_text; auto; [discriminate|].
        rewrite <- El. rewrite !Forall_app. splits.
        - apply (sets_names (fun n => ~ In 96 n) _ _ E1 Hs).
        - apply (struct_sets_names (fun n => ~ In 96 n) _ _ E2 Hst).
        - auto. }
      assert (Hne : vs ++ ws ++ us <> []) by (rewrite El; discriminate).
      pose proof (upd_done key primary t p simples structs refs vs ws us trace s E1 E2 T2 Hne U) as D.
      exists (trace ++ [s]). fold s. cbn [snd] in D. unfold s in D at 2. cbn [snd] in D.
      destruct (db (h ++ trace) (into_update (v :: l) t primary) (map snd (v :: l) ++ [key])) eqn:Ed;
        cbn [fst snd]; (split; [subst s; rewrite <- app_assoc; reflexivity|exact D]).
  - exists trace. split; [reflexivity|]. exact (upd_failed key primary t p simples structs refs trace (Err e) T2 ltac:(discriminate)).
  - exists trace. split; [reflexivity|]. exact (upd_failed key primary t p simples structs refs trace Panic T2 ltac:(discriminate)).
Qed.

(** ** Whole models *)
Fixpoint active_refs (refs : list (str * model)) (children : list instance) : list (str * reference) :=
  match refs, children with
  | (f, sub) :: refs', c :: children' => (f, RInsert (into_active_model sub c)) :: active_refs refs' children'
  | _, _ => []
  end.

Definition active_simples (auto : bool) (p : str) (simples : list str) (vs : list (res serialize_error value)) :
    list (str * option (res serialize_error value)) :=
  map (fun '(n, v) => (n, if auto && list_eqb n p then None else Some v)) (combine simples vs).

Lemma into_active_eq : forall t p auto simples structs refs vs ss children,
  into_active_model (Model t p auto simples structs refs) (Instance vs ss children) =
  Active t (Some p) (active_simples auto p simples vs)
    (map (fun '(s, l) => Some (combine (struct_names s) l)) (combine structs ss)) (active_refs refs children).
Proof. intros. cbn [into_active_model]. f_equal. Qed.

Lemma active_simples_sets : forall auto p simples vs l, sets (active_simples auto p simples vs) l ->
  Forall2 (fun c v => fst c = fst v /\ snd c = Ok (snd v))
    (filter (fun c => negb (auto && list_eqb (fst c) p)) (combine simples vs)) l.
Proof.
  intros auto p simples vs. unfold active_simples. induction (combine simples vs) as [|[n v] r IH]; intros l H; cbn [map filter fst] in *.
  - inversion H; constructor.
  - destruct (auto && list_eqb n p); cbn [negb]; inversion H; subst; auto.
Qed.

Lemma Forall2_app' : forall A B (R : A -> B -> Prop) l1 l2 m1 m2, Forall2 R l1 m1 -> Forall2 R l2 m2 -> Forall2 R (l1 ++ l2) (m1 ++ m2).
Proof. intros. apply Forall2_app; assumption. Qed.

Lemma combine_app : forall A B (a1 a2 : list A) (b1 b2 : list B), length a1 = length b1 ->
  combine (a1 ++ a2) (b1 ++ b2) = combine a1 b1 ++ combine a2 b2.
Proof. induction a1; intros a2 [|b b1] b2 H; try discriminate; [reflexivity|]. cbn. f_equal. apply IHa1. injection H. auto. Qed.

Lemma active_structs_sets : forall structs ss ws,
  Forall2 (fun (s : str * list str) (l : list (res serialize_error value)) => length (snd s) = length l) structs ss ->
  struct_sets (map (fun '(s, l) => Some (combine (struct_names s) l)) (combine structs ss)) ws ->
  Forall2 (fun c v => fst c = fst v /\ snd c = Ok (snd v)) (combine (columns_of [] structs) (concat ss)) ws.
Proof.
  intros structs ss ws F. revert ws. induction F as [|[f parts] l structs ss Hl F IH]; intros ws H.
  - cbn in H. inversion H. constructor.
  - cbn [combine map] in H. inversion H as [| |? vs' ? l' P1 P2]; subst.
    unfold columns_of. cbn [app flat_map concat]. cbn [snd] in Hl. rewrite combine_app.
    + apply Forall2_app; [exact P1|]. apply IH. exact P2.
    + rewrite map_length. exact Hl.
Qed.

Lemma combine_in : forall A B (l : list A) (m : list B) x, length l = length m -> In x l -> exists y, In (x, y) (combine l m).
Proof.
  induction l as [|a l IH]; intros [|b m] x E H; try discriminate; [destruct H|]. cbn [combine]. destruct H as [->|H].
  - exists b. left. reflexivity.
  - injection E as E. destruct (IH m x E H) as (y & Hy). exists y. right. exact Hy.
Qed.

Lemma sets_ok : forall fields l n v, sets fields l -> In (n, Some v) fields -> exists w, v = Ok w.
Proof.
  induction 1; intros H1; [destruct H1| |]; destruct H1 as [E|H1]; auto; try discriminate.
  injection E as -> <-. eauto.
Qed.

Lemma stored_key : forall m x trace id k, fits m x -> inserted (into_active_model m x) trace (Ok id) ->
  key_of (into_active_model m x) id k -> model_key m x id k.
Proof.
  intros [t p auto simples structs refs] [vs ss children] trace id k Hf Hi Hk.
  inversion Hf as [? ? ? ? ? ? ? ? ? Hp Hl Hs Hr]; subst.
  rewrite into_active_eq in Hi, Hk.
  assert (S : exists l, sets (active_simples auto p simples vs) l).
  { inversion Hi as [|? ? ? ? ? ? U|]; subst; eauto; [elim (unconverted_not_ok _ _ _ U id eq_refl)|]. destruct e; congruence. }
  destruct S as (l & S). inversion Hk as [? ? ? ? ? v ? Hin|? ? ? ? ? ? Hno]; subst.
  - unfold active_simples in Hin. apply in_map_iff in Hin. destruct Hin as ((n & w) & E & Hin).
    destruct (auto && list_eqb n p) eqn:Ea; [discriminate|]. injection E as -> ->.
    rewrite list_eqb_refl, andb_true_r in Ea. subst auto. apply model_key_own. exact Hin.
  - destruct auto; [constructor|].
    destruct (combine_in _ _ _ _ p Hl Hp) as (w & Hw).
    assert (Hin : In (p, Some w) (active_simples false p simples vs)).
    { unfold active_simples. apply in_map_iff. exists (p, w). split; [reflexivity|exact Hw]. }
    destruct (sets_ok _ _ _ _ S Hin) as (v & ->). exfalso. eapply (Hno p eq_refl v). exact Hin.
Qed.

Lemma whole_model : forall m x trace id, fits m x -> inserted (into_active_model m x) trace (Ok id) -> stored m x trace id.
Proof.
  induction m as [t p auto simples structs refs IH] using model_ind'. intros [vs ss children] trace id Hf Hi.
  inversion Hf as [? ? ? ? ? ? ? ? ? Hp Hl Hs Hr]; subst. rewrite into_active_eq in Hi.
  inversion Hi as [? ? ? ? ? own parts us tr s r S1 S2 Rf Row Res|? ? ? ? ? ? U|? ? ? ? ? ? e Re Ne]; subst; [|elim (unconverted_not_ok _ _ _ U id eq_refl)|destruct e; congruence].
  apply stored_intro with (own := own) (parts := parts) (us := us).
  - apply active_simples_sets. exact S1.
  - apply active_structs_sets; assumption.
  - clear - IH Hr Rf. revert tr us Rf. induction Hr as [|[f sub] c refs children Hf Hr IHr]; intros tr us Rf.
    + cbn [active_refs] in Rf. inversion Rf; subst. constructor.
    + cbn [active_refs] in Rf. inversion IH as [|? ? I1 I2]; subst. cbn [snd] in *.
      inversion Rf as [| | |? ? ? ? ? ? ? ? Hin Hkey Hrest|? ? e ? ? Hin Ne|? ? ? ? ? ? _ _ _ _ Ne]; subst.
      * apply stored_cons with (id := id); auto. eapply stored_key; eassumption.
      * destruct e; congruence.
      * congruence.
  - exact Row.
  - assumption.
Qed.

Lemma combine_fst_in : forall A B (l : list A) (m : list B) x, In x (map fst (combine l m)) -> In x l.
Proof.
  induction l as [|a l IH]; intros [|b m] x H; cbn [combine map] in *; try contradiction.
  destruct H as [<-|H]; [left; reflexivity|right; eauto].
Qed.

Lemma active_simples_names : forall auto p simples vs, map fst (active_simples auto p simples vs) = map fst (combine simples vs).
Proof. intros. unfold active_simples. rewrite map_map. apply map_ext. intros [n v]. reflexivity. Qed.

Lemma NoDup_combine : forall A B (l : list A) (m : list B), NoDup l -> NoDup (map fst (combine l m)).
Proof.
  induction l as [|a l IH]; intros [|b m] H; cbn [combine map]; try constructor; inversion H; subst; auto.
  intros Hin. apply combine_fst_in in Hin. contradiction.
Qed.

Lemma NoDup_app_l : forall A (l1 l2 : list A), NoDup (l1 ++ l2) -> NoDup l1.
Proof.
  induction l1; intros l2 H; [constructor|]. cbn [app] in H. inversion H; subst. constructor; [|eauto].
  intros Hin. apply H2. apply in_or_app. left. exact Hin.
Qed.

Lemma into_active_ok : forall m x, everywhere names_distinct m -> everywhere names_plain m -> active_ok (into_active_model m x).
Proof.
  induction m as [t p auto simples structs refs IH] using model_ind'. intros [vs ss children] Hd Hp.
  apply everywhere_inv in Hd. apply everywhere_inv in Hp.
  destruct Hd as [(Hc & _ & _) Hd], Hp as [(Ht & _ & Hn & Hf) Hp]. rewrite into_active_eq.
  unfold columns_of in Hc, Hn. apply Forall_app in Hn. destruct Hn as [Hn Hst].
  apply active_ok_intro.
  - exact Ht.
  - rewrite active_simples_names. apply NoDup_combine. eapply NoDup_app_l. exact Hc.
  - apply Forall_forall. intros f Hin. apply (in_map fst) in Hin. rewrite active_simples_names in Hin.
    apply combine_fst_in in Hin. rewrite Forall_forall in Hn. auto.
  - apply Forall_forall. intros o Hin l ->. apply in_map_iff in Hin. destruct Hin as ((st & v) & E & Hin).
    injection E as <-. apply Forall_forall. intros q Hq. apply (in_map fst) in Hq. apply combine_fst_in in Hq.
    apply in_combine_l in Hin. rewrite Forall_forall in Hst. apply Hst. apply in_flat_map. exists st. split; [exact Hin|].
    destruct st. exact Hq.
  - clear - IH Hd Hp Hf. revert children. induction refs as [|[f sub] refs IHr]; intros [|c children]; cbn [active_refs]; try constructor.
    + inversion IH; inversion Hd; inversion Hp; inversion Hf; subst. cbn [fst snd] in *. split; [assumption|].
      intros a E. injection E as <-. auto.
    + inversion IH; inversion Hd; inversion Hp; inversion Hf; subst. apply IHr; assumption.
Qed.
