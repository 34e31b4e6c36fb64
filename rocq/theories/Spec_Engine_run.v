(** A server as in Spec_Engine.v that can be run: a witness that there are such servers. *)
From Coq Require Import String ZArith List Bool Lia.
From Verif Require Import Base BaseFacts Types Conversion Models TypedModel Spec_Conv Conversion_proofs Spec_Model Spec_Typed Spec_Engine Engine_proofs.
Import ListNotations.
Open Scope Z_scope.

Definition number (p : prim) (n : Z) : value :=
  match p with
  | I8 => VTiny n | I16 => VShort n | I32 => VInt n | I64 => VLong n
  | U8 => VUTiny n | U16 => VUShort n | U32 => VUInt n | U64 => VULong n
  | F32 => VFloat n | F64 => VDouble n
  end.
Definition date_ok (y m d : Z) : bool :=
  (0 <=? y) && (y <=? 9999) && match from_ymd_opt y m d with Some _ => true | None => false end.
Definition clock_ok (h m s u : Z) : bool :=
  (0 <=? h) && (h <? 24) && (0 <=? m) && (m <? 60) && (0 <=? s) && (s <? 60) && (0 <=? u) && (u <? 1000000).

Fixpoint keep (k : kind) (v : value) : option value :=
  match k with
  | KNum F32 => match v with VFloat _ => Some v | _ => None end
  | KNum F64 => match v with VDouble _ => Some v | _ => None end
  | KNum p =>
    match int_range p, int_of v with
    | Some (lo, hi), Some n => if (lo <=? n) && (n <? hi) then Some (number p n) else None
    | _, _ => None
    end
  | KBytes => match v with VBytes _ => Some v | _ => None end
  | KDate => match v with VDate y m d => if date_ok y m d then Some v else None | _ => None end
  | KDatetime =>
    match v with VDatetime y m d h mi s u => if date_ok y m d && clock_ok h mi s u then Some v else None | _ => None end
  | KTime =>
    match v with
    | VTime neg d h m s u =>
      if (0 <=? d) && clock_ok h m s u && (d * 24 + h <=? 838)
      then (if time_micros neg d h m s u =? 0 then Some (VTime false 0 0 0 0 0) else Some v) else None
    | _ => None
    end
  | KNull k => if value_eq_dec v VNull then Some VNull else keep k v
  end.

Lemma keep_keeps : forall k v w, keep k v = Some w -> keeps k v w.
Proof.
  induction k as [p| | | | |k IH]; intros v w E.
  - assert (Int : forall lo hi, int_range p = Some (lo, hi) ->
      match int_range p, int_of v with
      | Some (lo, hi), Some n => if (lo <=? n) && (n <? hi) then Some (number p n) else None
      | _, _ => None
      end = Some w -> keeps (KNum p) v w).
    { intros lo hi Er. rewrite Er. destruct (int_of v) as [n|] eqn:En; [|discriminate]. destruct ((lo <=? n) && (n <? hi)) eqn:B; [|discriminate].
      intros X. injection X as <-. apply andb_true_iff in B as (B1 & B2).
      destruct p; try discriminate; eapply keeps_int; eauto; try constructor; lia. }
    destruct p; cbn [keep] in E; try (eapply Int; [reflexivity|exact E]).
    + destruct v; try discriminate. injection E as <-. constructor.
    + destruct v; try discriminate. injection E as <-. constructor.
  - destruct v; try discriminate. injection E as <-. constructor.
  - destruct v as [| | | | | | | | | | | |y m d| |]; try discriminate. cbn [keep] in E. unfold date_ok in E.
    destruct ((0 <=? y) && (y <=? 9999)) eqn:B; [|discriminate]. apply andb_true_iff in B as (B1 & B2). cbn [andb] in E.
    destruct (ymd_iff y m d ltac:(lia)) as [(C & F)|(C & F)]; rewrite F in E; [|discriminate]. injection E as <-. constructor; [exact C|lia].
  - destruct v as [| | | | | | | | | | | | | |y m d h mi s u]; try discriminate. cbn [keep] in E. unfold date_ok, clock_ok in E.
    destruct ((0 <=? y) && (y <=? 9999)) eqn:B; [|discriminate]. apply andb_true_iff in B as (B1 & B2). cbn [andb] in E.
    destruct (ymd_iff y m d ltac:(lia)) as [(C & F)|(C & F)]; rewrite F in E; [|discriminate]. cbn [andb] in E.
    match type of E with (if ?b then _ else _) = _ => destruct b eqn:D; [|discriminate] end.
    injection E as <-. constructor; [exact C|lia|]. unfold clock_time. lia.
  - destruct v as [| | | | | | | | | | | | |neg d h m s u|]; try discriminate. cbn [keep] in E. unfold clock_ok in E.
    match type of E with (if ?b then _ else _) = _ => destruct b eqn:D; [|discriminate] end.
    assert (R : 0 <= d /\ clock_time h m s u /\ d * 24 + h <= 838) by (unfold clock_time; lia). destruct R as (R1 & R2 & R3).
    destruct (time_micros neg d h m s u =? 0) eqn:Z0; injection E as <-.
    + assert (Hz : d = 0 /\ h = 0 /\ m = 0 /\ s = 0 /\ u = 0) by (unfold time_micros, clock_time in *; destruct neg; lia).
      destruct Hz as (-> & -> & -> & -> & ->). constructor.
    + constructor; auto. lia.
  - cbn [keep] in E. destruct (value_eq_dec v VNull) as [->|N]; [injection E as <-; constructor|]. apply keeps_not_null; auto.
Qed.

(** ** INSERT *)
Definition unset (v : value) : bool := if value_eq_dec v VNull then true else match int_of v with Some n => n =? 0 | None => false end.
Definition new_value (given : list (str * value)) (id : Z) (d : column_def) : option value :=
  match assoc (d_name d) given with
  | Some v => keep (d_kind d) (if d_auto d && unset v then VULong id else v)
  | None => keep (d_kind d) (if d_auto d then VULong id else VNull)
  end.
Fixpoint new_row (given : list (str * value)) (id : Z) (cols : list column_def) : option row :=
  match cols with
  | [] => Some []
  | d :: cols =>
    match new_value given id d, new_row given id cols with
    | Some w, Some r => Some ((d_name d, w) :: r)
    | _, _ => None
    end
  end.

Lemma assoc_none : forall A n (l : list (str * A)), assoc n l = None -> ~ In n (map fst l).
Proof.
  induction l as [|[m x] l IH]; intros E Hin; [destruct Hin|]. cbn [assoc] in E. destruct (list_eq_dec Z.eq_dec n m) as [->|Nm]; [discriminate|].
  destruct Hin as [X|Hin]; [now destruct Nm|now apply IH].
Qed.

Lemma new_value_cell : forall given id d w, NoDup (map fst given) -> new_value given id d = Some w -> new_cell given id d (d_name d, w).
Proof.
  intros given id d w N E. unfold new_value in E. destruct (assoc (d_name d) given) as [v|] eqn:Ea.
  - apply assoc_in in Ea. destruct (d_auto d && unset v) eqn:B.
    + apply andb_true_iff in B as (B1 & B2). apply cell_assigned; [exact B1| |now apply keep_keeps].
      intros v' Hv. rewrite (nodup_fst _ _ _ _ _ N Hv Ea). unfold unset in B2. destruct (value_eq_dec v VNull) as [Hn|Hn]; [now left|right].
      destruct (int_of v) as [z|]; [f_equal; lia|discriminate].
    + apply (cell_given _ _ _ v); [exact Ea| |now apply keep_keeps]. intros Hd. rewrite Hd in B. cbn [andb] in B. unfold unset in B.
      destruct (value_eq_dec v VNull) as [|Nv]; [discriminate|]. split; [exact Nv|]. intros X. rewrite X in B. discriminate.
  - apply assoc_none in Ea. destruct (d_auto d) eqn:A.
    + apply cell_assigned; [exact A| |now apply keep_keeps]. intros v Hv. destruct Ea. now apply (in_map fst) in Hv.
    + apply cell_default; [exact A|exact Ea|now apply keep_keeps].
Qed.

Lemma new_row_cells : forall given id, NoDup (map fst given) -> forall cols r, new_row given id cols = Some r -> Forall2 (new_cell given id) cols r.
Proof.
  intros given id N. induction cols as [|d cols IH]; intros r E; cbn [new_row] in E; [injection E as <-; constructor|].
  destruct (new_value given id d) as [w|] eqn:Ew; [|discriminate]. destruct (new_row given id cols) as [r'|] eqn:Er; [|discriminate].
  injection E as <-. constructor; [now apply new_value_cell|auto].
Qed.

(** The next number: one more than the greatest key. *)
Definition next_id (tb : table) : Z :=
  fold_right (fun r m => match assoc (t_key tb) r with Some k => match int_of k with Some n => Z.max m (n + 1) | None => m end | None => m end)
    1 (t_rows tb).

Definition same_key (key : value) (o : option value) : bool := match o with Some k => if value_eq_dec k key then true else false | None => false end.

Fixpoint distinct (l : list str) : bool :=
  match l with
  | [] => true
  | n :: r => negb (existsb (list_eqb n) r) && distinct r
  end.
Lemma distinct_nodup : forall l, distinct l = true -> NoDup l.
Proof.
  induction l as [|n l IH]; intros E; [constructor|]. cbn [distinct] in E. apply andb_true_iff in E as (E1 & E2). constructor; [|auto].
  intros Hin. apply negb_true_iff in E1. assert (X : existsb (list_eqb n) l = true); [|congruence].
  apply existsb_exists. exists n. split; [exact Hin|apply list_eqb_refl].
Qed.

Definition step_insert (T : tables) (text : str) (params : list value) : option (tables * Z) :=
  match parse_insert text with
  | Some (t, names, n) =>
    if (n =? length params)%nat && (length names =? length params)%nat then
    if distinct names then
    match T t with
    | Some tb =>
      if forallb (fun n => existsb (list_eqb n) (map d_name (t_cols tb))) names then
      match new_row (combine names params) (next_id tb) (t_cols tb) with
      | Some r =>
        match assoc (t_key tb) r with
        | Some key =>
          if value_eq_dec key VNull then None else
          if existsb (fun o => same_key key (assoc (t_key tb) o)) (t_rows tb) then None else
          Some (fun t' => if list_eq_dec Z.eq_dec t' t then Some (mkTable (t_cols tb) (t_key tb) (t_rows tb ++ [r])) else T t', next_id tb)
        | None => None
        end
      | None => None
      end else None
    | None => None
    end else None else None
  | None => None
  end.

Lemma step_insert_executes : forall T text params T' id, step_insert T text params = Some (T', id) -> executes T text params T' id.
Proof.
  intros T text params T' id E. unfold step_insert in E.
  destruct (parse_insert text) as [[[t names] n]|] eqn:P; [|discriminate].
  destruct ((n =? length params)%nat && (length names =? length params)%nat) eqn:L; [|discriminate].
  apply andb_true_iff in L as (L1 & L2). apply Nat.eqb_eq in L1, L2. subst n.
  destruct (distinct names) eqn:Ed; [|discriminate]. pose proof (distinct_nodup _ Ed) as N.
  destruct (T t) as [tb|] eqn:Et; [|discriminate].
  match type of E with (if ?b then _ else _) = _ => destruct b eqn:I; [|discriminate] end.
  destruct (new_row (combine names params) (next_id tb) (t_cols tb)) as [r|] eqn:R; [|discriminate].
  destruct (assoc (t_key tb) r) as [key|] eqn:K; [|discriminate].
  destruct (value_eq_dec key VNull) as [|Kn]; [discriminate|].
  match type of E with (if ?b then _ else _) = _ => destruct b eqn:X; [discriminate|] end. injection E as <- <-.
  assert (Nc : NoDup (map fst (combine names params))).
  { replace (map fst (combine names params)) with names; [exact N|]. clear - L2. revert params L2.
    induction names as [|a names IH]; intros [|v params] L; try discriminate; [reflexivity|]. cbn [combine map fst]. f_equal. apply IH. now injection L. }
  apply (ex_insert T text params t names tb (t_rows tb) [] r key); auto.
  - intros m Hm. rewrite forallb_forall in I. specialize (I m Hm). apply existsb_exists in I as (c & Hc & Ec).
    apply list_eqb_eq in Ec. now subst.
  - now apply new_row_cells.
  - symmetry. apply app_nil_r.
  - intros o Ho Eo. assert (Y : existsb (fun o => same_key key (assoc (t_key tb) o)) (t_rows tb) = true); [|congruence].
    apply existsb_exists. exists o. split; [exact Ho|]. rewrite Eo. cbn [same_key]. destruct (value_eq_dec key key); congruence.
  - destruct (list_eq_dec Z.eq_dec t t); [reflexivity|contradiction].
  - intros t' Nt. destruct (list_eq_dec Z.eq_dec t' t); [contradiction|reflexivity].
Qed.

(** ** UPDATE *)
Definition is_same (v w : value) : bool :=
  match int_of v, int_of w with
  | Some a, Some b => a =? b
  | None, None => if value_eq_dec v w then (if value_eq_dec v VNull then false else true) else false
  | _, _ => false
  end.
Lemma is_same_same : forall v w, is_same v w = true <-> same_value v w.
Proof.
  intros v w. unfold is_same, same_value. destruct (int_of v) as [a|], (int_of w) as [b|]; [lia|split; [discriminate|intros []]..|].
  destruct (value_eq_dec v w), (value_eq_dec v VNull); split; try discriminate; try tauto; auto.
Qed.

Definition set_cell (cols : list column_def) (given : list (str * value)) (n : str) (c : value) : option value :=
  match assoc n given with
  | Some v => match find (fun d => list_eqb (d_name d) n) cols with Some d => keep (d_kind d) v | None => None end
  | None => Some c
  end.
Fixpoint set_row (cols : list column_def) (given : list (str * value)) (o : row) : option row :=
  match o with
  | [] => Some []
  | (n, c) :: o =>
    match set_cell cols given n c, set_row cols given o with
    | Some w, Some o' => Some ((n, w) :: o')
    | _, _ => None
    end
  end.

Lemma set_row_assoc : forall cols given o o' n, set_row cols given o = Some o' ->
  match assoc n o with
  | Some c => exists w, set_cell cols given n c = Some w /\ assoc n o' = Some w
  | None => assoc n o' = None
  end.
Proof.
  intros cols given. induction o as [|[m c] o IH]; intros o' n E; cbn [set_row] in E; [injection E as <-; reflexivity|].
  destruct (set_cell cols given m c) as [w|] eqn:Ec; [|discriminate]. destruct (set_row cols given o) as [o1|] eqn:Eo; [|discriminate]. injection E as <-.
  cbn [assoc]. destruct (list_eq_dec Z.eq_dec n m) as [->|Ne]; [eauto|]. exact (IH o1 n eq_refl).
Qed.

Lemma set_row_cells : forall cols given o o', forallb (fun n => match assoc n o with Some _ => true | None => false end) (map fst given) = true ->
  set_row cols given o = Some o' -> set_cells cols given o o'.
Proof.
  intros cols given o o' A E n. pose proof (set_row_assoc _ _ _ _ n E) as X. unfold set_cell in X. destruct (assoc n given) as [v|] eqn:Eg.
  - rewrite forallb_forall in A. pose proof (assoc_in _ _ _ _ Eg) as Hin. specialize (A n (in_map fst _ _ Hin)).
    destruct (assoc n o) as [c|]; [|discriminate]. destruct X as (w & X1 & X2).
    destruct (find (fun d => list_eqb (d_name d) n) cols) as [d|] eqn:Ef; [|discriminate]. apply find_some in Ef as (F1 & F2).
    apply list_eqb_eq in F2. exists d, w. split; [exact F1|]. split; [exact F2|]. split; [now apply keep_keeps|exact X2].
  - destruct (assoc n o) as [c|]; [|exact X]. destruct X as (w & X1 & X2). congruence.
Qed.

Fixpoint set_rows (cols : list column_def) (given : list (str * value)) (column : str) (k : value) (rows : list row) : option (list row) :=
  match rows with
  | [] => Some []
  | o :: rows =>
    match assoc column o with
    | Some c =>
      match (if is_same c k
             then (if forallb (fun n => match assoc n o with Some _ => true | None => false end) (map fst given) then set_row cols given o else None)
             else Some o), set_rows cols given column k rows with
      | Some o', Some rows' => Some (o' :: rows')
      | _, _ => None
      end
    | None => None
    end
  end.

Lemma set_rows_set : forall cols given column k rows rows', set_rows cols given column k rows = Some rows' ->
  Forall2 (fun o o' => exists c, assoc column o = Some c /\
      ((same_value c k /\ set_cells cols given o o') \/ (~ same_value c k /\ o' = o))) rows rows'.
Proof.
  intros cols given column k. induction rows as [|o rows IH]; intros rows' E; cbn [set_rows] in E; [injection E as <-; constructor|].
  destruct (assoc column o) as [c|] eqn:Ec; [|discriminate].
  match type of E with match ?x with _ => _ end = _ => destruct x as [o'|] eqn:Eo; [|discriminate] end.
  destruct (set_rows cols given column k rows) as [rows1|]; [|discriminate]. injection E as <-. constructor; [|auto].
  exists c. split; [exact Ec|]. destruct (is_same c k) eqn:S.
  - left. split; [now apply is_same_same|].
    destruct (forallb (fun n => match assoc n o with Some _ => true | None => false end) (map fst given)) eqn:A; [|discriminate]. now apply set_row_cells.
  - right. split; [|congruence]. intros X. apply is_same_same in X. congruence.
Qed.

Fixpoint check_keys (key : str) (rows : list row) : bool :=
  match rows with
  | [] => true
  | r :: rows =>
    match assoc key r with
    | Some k => (if value_eq_dec k VNull then false else true) && negb (existsb (fun o => same_key k (assoc key o)) rows) && check_keys key rows
    | None => false
    end
  end.
Lemma check_keys_ok : forall key rows, check_keys key rows = true -> keys_ok key rows.
Proof.
  intros key. induction rows as [|r rows IH]; intros E; [split; constructor|]. cbn [check_keys] in E.
  destruct (assoc key r) as [k|] eqn:K; [|discriminate]. apply andb_true_iff in E as (E & E3). apply andb_true_iff in E as (E1 & E2).
  destruct (IH E3) as (N & F). split.
  - cbn [map]. rewrite K. constructor; [|exact N]. intros Hin. apply in_map_iff in Hin as (o & Eo & Ho). apply negb_true_iff in E2.
    assert (X : existsb (fun o => same_key k (assoc key o)) rows = true); [|congruence].
    apply existsb_exists. exists o. split; [exact Ho|]. rewrite Eo. cbn [same_key]. destruct (value_eq_dec k k); congruence.
  - constructor; [|exact F]. exists k. split; [exact K|]. destruct (value_eq_dec k VNull); [discriminate|assumption].
Qed.

Definition step_update (T : tables) (text : str) (params : list value) : option (tables * Z) :=
  match parse_update text, rev params with
  | Some (t, names, column), k :: vs =>
    if (length names =? length (rev vs))%nat && distinct names then
    match T t with
    | Some tb =>
      if forallb (fun n => existsb (list_eqb n) (map d_name (t_cols tb))) (column :: names) then
      match set_rows (t_cols tb) (combine names (rev vs)) column k (t_rows tb) with
      | Some rows =>
        if check_keys (t_key tb) rows then
          Some (fun t' => if list_eq_dec Z.eq_dec t' t then Some (mkTable (t_cols tb) (t_key tb) rows) else T t', 0)
        else None
      | None => None
      end else None
    | None => None
    end else None
  | _, _ => None
  end.

Lemma step_update_executes : forall T text params T' id, step_update T text params = Some (T', id) -> executes T text params T' id.
Proof.
  intros T text params T' id E. unfold step_update in E.
  destruct (parse_update text) as [[[t names] column]|] eqn:P; [|discriminate]. destruct (rev params) as [|k vs] eqn:R; [discriminate|].
  assert (Ep : params = rev vs ++ [k]) by (rewrite <- (rev_involutive params), R; reflexivity). subst params.
  destruct ((length names =? length (rev vs))%nat && distinct names) eqn:L; [|discriminate]. apply andb_true_iff in L as (L1 & L2). apply Nat.eqb_eq in L1.
  destruct (T t) as [tb|] eqn:Et; [|discriminate].
  match type of E with (if ?b then _ else _) = _ => destruct b eqn:I; [|discriminate] end.
  destruct (set_rows (t_cols tb) (combine names (rev vs)) column k (t_rows tb)) as [rows|] eqn:Er; [|discriminate].
  destruct (check_keys (t_key tb) rows) eqn:C; [|discriminate]. injection E as <- <-.
  apply (ex_update T text (rev vs) k t names column tb rows); auto.
  - now apply distinct_nodup.
  - intros m Hm. rewrite forallb_forall in I. specialize (I m Hm). apply existsb_exists in I as (c & Hc & Ec).
    apply list_eqb_eq in Ec. now subst.
  - now apply set_rows_set.
  - now apply check_keys_ok.
  - destruct (list_eq_dec Z.eq_dec t t); [reflexivity|contradiction].
  - intros t' Nt. destruct (list_eq_dec Z.eq_dec t' t); [contradiction|reflexivity].
Qed.

Definition step (T : tables) (text : str) (params : list value) : option (tables * Z) :=
  match step_insert T text params with Some r => Some r | None => step_update T text params end.
Lemma step_executes : forall T text params T' id, step T text params = Some (T', id) -> executes T text params T' id.
Proof.
  intros T text params T' id E. unfold step in E. destruct (step_insert T text params) as [[T1 n]|] eqn:I.
  - injection E as <- <-. now apply step_insert_executes.
  - now apply step_update_executes.
Qed.

(** ** The server *)
Definition after (T : tables) (s : statement) : tables :=
  match s with
  | (text, params, Ok _) => match step T text params with Some (T', _) => T' | None => T end
  | _ => T
  end.
Definition engine_tables (T0 : tables) (h : list statement) : tables := fold_left after h T0.
Definition engine (T0 : tables) : database := fun h text params =>
  match step (engine_tables T0 h) text params with
  | Some (_, id) => Ok id
  | None => Err (EServer (ErrError 1062 None []))
  end.

Lemma engine_serves : forall T0, serves (engine T0) (engine_tables T0).
Proof.
  intros T0 h text params. unfold engine. destruct (step (engine_tables T0 h) text params) as [[T' id]|] eqn:E.
  - replace (engine_tables T0 (h ++ [(text, params, Ok id)])) with T'; [now apply step_executes|].
    unfold engine_tables in *. rewrite fold_left_app. cbn [fold_left after]. now rewrite E.
  - intros t. unfold engine_tables. rewrite fold_left_app. reflexivity.
Qed.

(** ** SELECT *)
Definition select (T : tables) (text : str) : option (list (list (option value))) :=
  match parse_select text with
  | Some (cols, t, js) =>
    match T t with
    | Some tb => Some (map (fun e => map (value_in e) cols) (fold_left (join T) js (map (fun r => [(t, r)]) (t_rows tb))))
    | None => None
    end
  | None => None
  end.

Lemma select_answers : forall T text rows, select T text = Some (map (map Some) rows) -> answers T text rows.
Proof.
  intros T text rows E. unfold select in E. destruct (parse_select text) as [[[cols t] js]|] eqn:P; [|discriminate].
  destruct (T t) as [tb|] eqn:Et; [|discriminate]. injection E as E.
  exists cols, t, js, tb, (fold_left (join T) js (map (fun r => [(t, r)]) (t_rows tb))).
  split; [exact P|]. split; [exact Et|]. split; [apply Permutation.Permutation_refl|].
  revert E. generalize (fold_left (join T) js (map (fun r => [(t, r)]) (t_rows tb))) as es. intros es. revert rows.
  induction es as [|e es IH]; intros [|vs rows] E; try discriminate; [constructor|]. cbn [map] in E. injection E as E1 E2.
  constructor; [|auto]. clear - E1. revert vs E1. induction cols as [|c cols IH]; intros [|v vs] E; try discriminate; [constructor|].
  cbn [map] in E. injection E as E1 E2. constructor; auto.
Qed.
