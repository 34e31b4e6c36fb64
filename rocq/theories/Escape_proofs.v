(** Lemmas about escapers and Display. *)
From Coq Require Import ZArith List Bool Lia.
From Verif Require Import Base BaseFacts Types Utf8 ParseBuf ParseBuf_proofs
  ValueText Spec_Wire Spec_Stmt Spec_Text ValueText_proofs.
Import ListNotations.
Open Scope Z_scope.

(** ** String literals *)

(** What a string becomes: the code writes Control+Z as backslash z, which stands for z. *)
Definition read_back (s : str) : str := map (fun c => if c =? 26 then 122 else c) s.

Definition not_starting (q : Z) (l : list Z) : Prop := match l with c :: _ => c <> q | [] => True end.

Lemma lex_close : forall b q rest, q <> 92 -> not_starting q rest ->
  lex_quoted b q (q :: rest) = Some ([], rest).
Proof.
  intros b q rest Hq H. cbn [lex_quoted].
  replace (b && (q =? 92)) with false by (destruct (Z.eqb_spec q 92); [congruence | destruct b; reflexivity]).
  rewrite Z.eqb_refl. destruct rest as [|c r]; [reflexivity|].
  cbn in H. destruct (Z.eqb_spec c q); [congruence | reflexivity].
Qed.

Lemma lex_char : forall c l s rest, lex_quoted true 34 l = Some (s, rest) ->
  lex_quoted true 34 (escape_char c ++ l) = Some ((if c =? 26 then 122 else c) :: s, rest).
Proof.
  intros c l s rest H. unfold escape_char.
  repeat match goal with
  | |- context [if ?c =? ?n then s2l _ else _] =>
    destruct (Z.eqb_spec c n); [subst c; cbn [s2l app]; cbn; rewrite H; reflexivity|]
  | |- context [if ?c =? ?n then [_; _] else _] =>
    destruct (Z.eqb_spec c n); [subst c; cbn [app]; cbn; rewrite H; reflexivity|]
  end.
  replace (c =? 26) with false by lia.
  cbn [app lex_quoted]. replace (c =? 92) with false by lia. replace (c =? 34) with false by lia.
  cbn [andb]. rewrite H. reflexivity.
Qed.

Lemma string_escape_lex : forall s rest, not_starting 34 rest ->
  lex_string true (string_escape s ++ rest) = Some (read_back s, rest).
Proof.
  intros s rest H. unfold string_escape. cbn [app lex_string]. rewrite <- app_assoc. cbn [app].
  induction s as [|c s IH]; [apply lex_close; [lia | assumption]|].
  cbn [write_escaped_chars flat_map]. fold (write_escaped_chars s). rewrite <- app_assoc.
  apply lex_char. exact IH.
Qed.

Lemma read_back_id : forall s, read_back s = s <-> ~ In 26 s.
Proof.
  induction s as [|c s IH]; cbn [read_back map In]; [tauto|]. split.
  - intros H [->|Hi]; [discriminate|]. injection H as Hc Hs. apply IH in Hs. tauto.
  - intros H. replace (c =? 26) with false by lia. f_equal. apply IH. tauto.
Qed.

Lemma string_escape_exact : forall s rest, not_starting 34 rest ->
  (lex_string true (string_escape s ++ rest) = Some (s, rest) <-> ~ In 26 s).
Proof.
  intros s rest H. rewrite string_escape_lex by assumption. rewrite <- read_back_id. split.
  - intros E. injection E as E. exact E.
  - intros ->. reflexivity.
Qed.

(** ** Quoted identifiers *)

Definition double_tick (s : str) : str := flat_map (fun c => if c =? 96 then [96; 96] else [c]) s.

Lemma ident_write_spec : forall s i last, ident_write i last s =
  double_tick (filter ident_char_valid (takeZ (last - i + 1) s)).
Proof.
  induction s as [|c s IH]; intros i last; [reflexivity|].
  cbn [ident_write takeZ]. rewrite IH.
  destruct (i <=? last) eqn:E.
  - replace (last - i + 1 <=? 0) with false by lia.
    replace (last - i + 1 - 1) with (last - (i + 1) + 1) by lia.
    cbn [andb filter]. destruct (ident_char_valid c); [|reflexivity].
    cbn [double_tick flat_map]. destruct (Z.eqb_spec c 96); [subst|]; reflexivity.
  - replace (last - i + 1 <=? 0) with true by lia.
    cbn [andb app filter]. rewrite takeZ_0 by lia. reflexivity.
Qed.

Lemma lex_tick : forall k rest, not_starting 96 rest ->
  lex_quoted false 96 (double_tick k ++ 96 :: rest) = Some (k, rest).
Proof.
  intros k rest H. induction k as [|c k IH]; [apply lex_close; [lia | assumption]|].
  cbn [double_tick flat_map]. fold (double_tick k). destruct (Z.eqb_spec c 96).
  - subst. cbn [app lex_quoted andb]. rewrite !Z.eqb_refl. rewrite IH. reflexivity.
  - cbn [app lex_quoted andb]. replace (c =? 96) with false by lia. rewrite IH. reflexivity.
Qed.

(** The characters that are kept. *)
Definition ident_kept (s : str) : str :=
  filter ident_char_valid (takeZ (ident_last_char 0 0 s + 1) s).

Lemma identifier_lex : forall s rest, not_starting 96 rest ->
  lex_identifier (identifier_escape s ++ rest) = Some (ident_kept s, rest).
Proof.
  intros s rest H. unfold identifier_escape. cbn [app lex_identifier]. rewrite <- app_assoc. cbn [app].
  rewrite ident_write_spec, Z.sub_0_r. apply lex_tick. assumption.
Qed.

Definition good (c : Z) : bool := negb (is_whitespace c) && ident_char_valid c.

Lemma last_char_spec : forall s i last,
  (Forall (fun c => good c = false) s /\ ident_last_char i last s = last) \/
  (exists a c b, s = a ++ c :: b /\ good c = true /\ Forall (fun c => good c = false) b /\
     ident_last_char i last s = i + lenZ a).
Proof.
  induction s as [|c s IH]; intros i last; [left; split; [constructor | reflexivity]|].
  cbn [ident_last_char]. fold (good c).
  destruct (IH (i + 1) (if good c then i else last)) as [(F & E)|(a & d & b & -> & G & F & E)].
  - destruct (good c) eqn:G.
    + right. exists [], c, s. splits; auto. rewrite E, lenZ_nil. lia.
    + left. split; [constructor; assumption | assumption].
  - right. exists (c :: a), d, b. splits; auto. rewrite E, lenZ_cons. lia.
Qed.

Lemma space_iff : forall c, is_whitespace c = true <-> space c.
Proof.
  intros c. unfold is_whitespace, space. cbn [In]. split; intros H; [|lia].
  repeat (apply orb_true_iff in H; destruct H as [H|H]); lia.
Qed.

Lemma allowed_iff : forall c, ident_char_valid c = true <-> ident_allowed c.
Proof. intros c. unfold ident_char_valid, ident_allowed. lia. Qed.

Lemma selects_filter : forall (f : Z -> bool) (P : Z -> Prop) s, (forall c, f c = true <-> P c) ->
  selects P s (filter f s).
Proof.
  intros f P s H. induction s as [|c s IH]; cbn [filter]; [constructor|].
  destruct (f c) eqn:E; constructor; auto.
  - apply H; assumption.
  - intros Hp. apply H in Hp. congruence.
Qed.

Lemma selects_unique : forall P s a b, selects P s a -> selects P s b -> a = b.
Proof.
  intros P s a b H. revert b. induction H; intros b Hb; inversion Hb; subst; try contradiction; auto.
  f_equal. auto.
Qed.

Lemma filter_bad : forall s, Forall (fun c => good c = false) s -> Forall space (filter ident_char_valid s).
Proof.
  intros s H. induction H as [|c s Hc Hs IH]; cbn [filter]; [constructor|].
  destruct (ident_char_valid c) eqn:E; [|assumption]. constructor; [|assumption].
  apply space_iff. unfold good in Hc. rewrite E, andb_true_r in Hc. now apply negb_false_iff in Hc.
Qed.

(** The input contains an allowed character that is not whitespace, or does not begin with an
    allowed whitespace character. *)
Definition ident_normal (s : str) : Prop :=
  (exists c, In c s /\ ident_allowed c /\ ~ space c) \/
  match s with c :: _ => ~ (ident_allowed c /\ space c) | [] => True end.

Lemma good_iff : forall c, good c = true <-> ident_allowed c /\ ~ space c.
Proof.
  intros c. unfold good. rewrite andb_true_iff, negb_true_iff, allowed_iff, <- space_iff.
  destruct (is_whitespace c); intuition congruence.
Qed.

Lemma ident_name_iff : forall s, ident_name s (ident_kept s) <-> ident_normal s.
Proof.
  intros s. unfold ident_kept.
  destruct (last_char_spec s 0 0) as [(F & E)|(a & c & b & -> & G & F & E)].
  - rewrite E. split.
    + intros (tail & Hs & Ht & Hn). right. destruct s as [|c s]; [exact I|]. intros (Ha & Hsp).
      replace (takeZ (0 + 1) (c :: s)) with [c] in *.
      2:{ cbn [takeZ]. change (0 + 1 <=? 0) with false. cbn match. now rewrite takeZ_0 by lia. }
      cbn [filter] in *. apply allowed_iff in Ha. rewrite Ha in *.
      destruct Hn as [Hn|(n & d & Hn & Hd)]; [discriminate|].
      destruct n as [|x n]; [|destruct n; discriminate]. cbn in Hn. injection Hn as <-. contradiction.
    + intros [(c & Hi & Hc)|Hf].
      { rewrite Forall_forall in F. specialize (F c Hi). apply good_iff in Hc. congruence. }
      assert (K : filter ident_char_valid (takeZ (0 + 1) s) = []).
      { destruct s as [|c s]; [reflexivity|]. cbn [takeZ]. change (0 + 1 <=? 0) with false. cbn match.
        rewrite takeZ_0 by lia. cbn [filter]. destruct (ident_char_valid c) eqn:V; [|reflexivity].
        exfalso. apply Hf. split; [now apply allowed_iff|].
        inversion F; subst. apply space_iff. unfold good in *. rewrite V, andb_true_r in *.
        now apply negb_false_iff. }
      rewrite K. exists (filter ident_char_valid s). splits.
      * cbn [app]. apply selects_filter, allowed_iff.
      * apply filter_bad; assumption.
      * left; reflexivity.
  - split; intros _.
    + left. exists c. split; [apply in_or_app; right; left; reflexivity | now apply good_iff].
    + rewrite E.
      replace (takeZ (0 + lenZ a + 1) (a ++ c :: b)) with (a ++ [c]).
      2:{ replace (a ++ c :: b) with ((a ++ [c]) ++ b) by (rewrite <- app_assoc; reflexivity).
          symmetry. apply takeZ_app_exact. rewrite lenZ_app, lenZ_cons, lenZ_nil. lia. }
      assert (V : ident_char_valid c = true) by (unfold good in G; apply andb_true_iff in G; tauto).
      rewrite filter_app. cbn [filter]. rewrite V.
      exists (filter ident_char_valid b). splits.
      * rewrite <- app_assoc. cbn [app].
        pose proof (selects_filter ident_char_valid ident_allowed (a ++ c :: b) allowed_iff) as S.
        rewrite filter_app in S. cbn [filter] in S. rewrite V in S. exact S.
      * apply filter_bad; assumption.
      * right. exists (filter ident_char_valid a), c. split; [reflexivity|]. apply good_iff in G. tauto.
Qed.


(** ** Unquoted identifiers *)

Lemma unquoted_iff : forall c, unquoted_char_valid c = true <-> unquoted_allowed c.
Proof. intros c. unfold unquoted_char_valid, unquoted_allowed. lia. Qed.

Lemma unquoted_filter : forall s, unquoted_identifier_escape s = filter unquoted_char_valid s.
Proof.
  induction s as [|c s IH]; [reflexivity|]. cbn [unquoted_identifier_escape filter]. rewrite IH.
  destruct (unquoted_char_valid c); reflexivity.
Qed.

Lemma unquoted_selects : forall s, selects unquoted_allowed s (unquoted_identifier_escape s).
Proof. intros s. rewrite unquoted_filter. apply selects_filter, unquoted_iff. Qed.

Lemma unquoted_same : forall s, unquoted_identifier_escape s = s <-> Forall unquoted_allowed s.
Proof.
  intros s. rewrite unquoted_filter. split.
  - intros H. rewrite <- H. apply Forall_forall. intros c Hc. apply filter_In in Hc. now apply unquoted_iff.
  - intros H. induction H as [|c s Hc Hs IH]; [reflexivity|]. cbn [filter].
    apply unquoted_iff in Hc. rewrite Hc. f_equal. exact IH.
Qed.

(** ** Numbers *)

Lemma dec_digits_spec : forall f n, 0 <= n < 10 ^ Z.of_nat f ->
  Forall digit (dec_digits f n) /\ dec_val (dec_digits f n) = n /\
  (f <> 0%nat -> dec_digits f n <> []) /\
  (forall w, (0 < w)%nat -> n < 10 ^ Z.of_nat w -> (length (dec_digits f n) <= w)%nat).
Proof.
  induction f as [|f IH]; intros n Hn.
  - change (10 ^ Z.of_nat 0) with 1 in Hn. cbn. splits; [constructor | unfold dec_val; cbn; lia | congruence | lia].
  - cbn [dec_digits]. destruct (n <? 10) eqn:E.
    + splits; [constructor; [unfold digit; lia | constructor] | unfold dec_val; cbn; lia | discriminate | cbn; lia].
    + rewrite Nat2Z.inj_succ, Z.pow_succ_r in Hn by lia.
      destruct (IH (n / 10) ltac:(lia)) as (A & B & C & D). splits.
      * apply Forall_app. split; [assumption|]. constructor; [unfold digit; lia | constructor].
      * unfold dec_val in *. rewrite fold_left_app, B. cbn [fold_left]. lia.
      * intros _ H. destruct (dec_digits f (n / 10)); discriminate.
      * intros w Hw Hlt. rewrite app_length. cbn [length].
        destruct w as [|w]; [lia|]. destruct w as [|w].
        { change (10 ^ Z.of_nat 1) with 10 in Hlt. lia. }
        rewrite (Nat2Z.inj_succ (S w)), Z.pow_succ_r in Hlt by lia.
        specialize (D (S w) ltac:(lia) ltac:(lia)). lia.
Qed.

Lemma dec_fuel : forall n, 0 <= n -> n < 10 ^ Z.of_nat (S (Z.to_nat (Z.log2 n))).
Proof.
  intros n Hn. rewrite Nat2Z.inj_succ, Z2Nat.id by apply Z.log2_nonneg.
  destruct (Z.eq_dec n 0) as [->|Hz]; [reflexivity|].
  pose proof (Z.log2_spec n ltac:(lia)) as [_ H].
  eapply Z.lt_le_trans; [exact H|]. apply Z.pow_le_mono_l. lia.
Qed.

Lemma dec_nat : forall n, 0 <= n -> nat_text n (dec n).
Proof.
  intros n Hn. destruct (dec_digits_spec (S (Z.to_nat (Z.log2 n))) n) as (A & B & C & D).
  { split; [assumption | now apply dec_fuel]. }
  splits; auto. split; [apply C; discriminate | split; assumption].
Qed.

Lemma dec_len : forall n w, 0 <= n -> (0 < w)%nat -> n < 10 ^ Z.of_nat w -> (length (dec n) <= w)%nat.
Proof.
  intros n w Hn Hw Hl. destruct (dec_digits_spec (S (Z.to_nat (Z.log2 n))) n) as (A & B & C & D); auto.
  split; [assumption | now apply dec_fuel].
Qed.

Lemma dec_signed_text : forall n, signed_text n (dec_signed n).
Proof.
  intros n. unfold dec_signed. destruct (n <? 0) eqn:E.
  - right. eexists. split; [reflexivity|]. apply dec_nat. lia.
  - left. apply dec_nat. lia.
Qed.

Lemma dval_zeros : forall k l, dval 0 (repeat 48 k ++ l) = dval 0 l.
Proof. induction k as [|k IH]; intros l; [reflexivity|]. cbn. apply IH. Qed.

Lemma pad_fixed : forall n w, 0 <= n -> (0 < w)%nat -> n < 10 ^ Z.of_nat w ->
  fixed_text w n (pad0 (Z.of_nat w) (dec n)).
Proof.
  intros n w Hn Hw Hl. pose proof (dec_len n w Hn Hw Hl) as L.
  destruct (dec_nat n Hn) as (A & B & C). unfold pad0, repeatZ, lenZ. splits.
  unfold fixed_text. splits.
  - rewrite app_length, repeat_length. lia.
  - apply Forall_app. split; [|assumption]. apply Forall_forall. intros x Hx.
    apply repeat_spec in Hx. subst. unfold digit. lia.
  - unfold dec_val. fold (dval 0 (repeat 48 (Z.to_nat (Z.of_nat w - Z.of_nat (length (dec n)))) ++ dec n)).
    rewrite dval_zeros. exact C.
Qed.

Lemma pad_nat : forall n w, 0 <= n -> (0 < w)%nat ->
  nat_text n (pad0 (Z.of_nat w) (dec n)) /\ (w <= length (pad0 (Z.of_nat w) (dec n)))%nat.
Proof.
  intros n w Hn Hw. destruct (dec_nat n Hn) as (A & B & C). unfold pad0, repeatZ, lenZ. split.
  - unfold nat_text. splits.
    + intros H. apply app_eq_nil in H. tauto.
    + apply Forall_app. split; [|assumption]. apply Forall_forall. intros x Hx.
      apply repeat_spec in Hx. subst. unfold digit. lia.
    + unfold dec_val. fold (dval 0 (repeat 48 (Z.to_nat (Z.of_nat w - Z.of_nat (length (dec n)))) ++ dec n)).
      rewrite dval_zeros. exact C.
  - rewrite app_length, repeat_length. lia.
Qed.

(** ** Dates and times *)

Lemma format_date_spec : forall y m d, 0 <= y < 10000 -> 0 <= m < 100 -> 0 <= d < 100 ->
  spec_date y m d (format_date y m d).
Proof.
  intros. unfold format_date. eexists _, _, _. splits; [reflexivity | | |].
  - apply (pad_fixed y 4); cbn; lia.
  - apply (pad_fixed m 2); cbn; lia.
  - apply (pad_fixed d 2); cbn; lia.
Qed.

Lemma format_time_spec : forall h m s u, 0 <= h -> 0 <= m < 100 -> 0 <= s < 100 -> 0 <= u < 1000000 ->
  spec_clock h m s u (format_time h m s u).
Proof.
  intros h m s u Hh Hm Hs Hu. unfold format_time.
  destruct (pad_nat h 2 Hh ltac:(lia)) as (A & B).
  eexists _, _, _, _. splits; [reflexivity | exact B | exact A | | |].
  - apply (pad_fixed m 2); cbn; lia.
  - apply (pad_fixed s 2); cbn; lia.
  - destruct (Z.eqb_spec u 0); [left; split; [assumption | reflexivity]|]. right.
    destruct (pad_fixed u 6) as (X & Y & W); [lia | lia | cbn; lia |].
    exists (pad0 (Z.of_nat 6) (dec u)). split; [reflexivity|]. rewrite X, W. splits; [lia | lia | exact Y | lia].
Qed.

(** Text without quotes or backslashes inside double quotes is one literal. *)
Lemma lex_plain : forall l rest, Forall (fun c => c <> 34 /\ c <> 92) l -> not_starting 34 rest ->
  lex_string true (34 :: l ++ 34 :: rest) = Some (l, rest).
Proof.
  intros l rest H Hr. cbn [lex_string]. induction H as [|c l [Hc Hb] Hl IH]; [apply lex_close; [lia | assumption]|].
  cbn [app lex_quoted]. replace (c =? 92) with false by lia. replace (c =? 34) with false by lia.
  cbn [andb]. rewrite IH. reflexivity.
Qed.

Definition plain (l : list Z) : Prop := Forall (fun c => c <> 34 /\ c <> 92) l.

Lemma plain_digits : forall l, Forall digit l -> plain l.
Proof. intros l H. eapply Forall_impl; [|exact H]. unfold digit. intros; lia. Qed.

Lemma plain_date : forall y m d l, spec_date y m d l -> plain l.
Proof.
  intros y m d l (a & b & c & -> & (_ & A & _) & (_ & B & _) & (_ & C & _)). unfold plain.
  repeat (apply Forall_app; split); try (apply plain_digits; assumption);
    (constructor; [lia | constructor]).
Qed.

Lemma plain_clock : forall h m s u l, spec_clock h m s u l -> plain l.
Proof.
  intros h m s u l (a & b & c & f & -> & _ & (_ & A & _) & (_ & B & _) & (_ & C & _) & F). unfold plain.
  repeat (apply Forall_app; split); try (apply plain_digits; assumption);
    try (constructor; [lia | constructor]).
  destruct F as [(_ & ->)|(g & -> & _ & G & _)]; [constructor|].
  constructor; [lia | apply plain_digits; assumption].
Qed.

Lemma display_date : forall debug f32 f64 y m d, 0 <= y < 10000 -> 0 <= m < 100 -> 0 <= d < 100 ->
  exists t, value_display debug f32 f64 (VDate y m d) = Some ([34] ++ t ++ [34]) /\
    date_text t = Ok (VDate y m d) /\ plain t.
Proof.
  intros. pose proof (format_date_spec y m d ltac:(lia) ltac:(lia) ltac:(lia)) as S.
  eexists. splits; [reflexivity | now apply date_ok | eapply plain_date; eassumption].
Qed.

Lemma display_time : forall debug f32 f64 neg days h m s u, 0 <= days -> 0 <= h < 24 ->
  days * 24 + h < 2 ^ 32 -> 0 <= m < 100 -> 0 <= s < 100 -> 0 <= u < 1000000 ->
  exists t, value_display debug f32 f64 (VTime neg days h m s u) = Some ([34] ++ t ++ [34]) /\
    time_text debug t = Ok (VTime neg days h m s u) /\ plain t.
Proof.
  intros debug f32 f64 neg days h m s u Hd Hh Hr Hm Hs Hu. cbn [value_display].
  change (2 ^ 32) with 4294967296 in Hr.
  unfold total_hours, u32_checked.
  replace (days * 24 <? 4294967296) with true by lia.
  replace (days * 24 + h <? 4294967296) with true by lia.
  pose proof (format_time_spec (days * 24 + h) m s u ltac:(lia) Hm Hs Hu) as S.
  exists ((if neg then [45] else []) ++ format_time (days * 24 + h) m s u). splits.
  - rewrite <- app_assoc. reflexivity.
  - apply time_ok. destruct neg; constructor; assumption || lia.
  - unfold plain. apply Forall_app. split; [|eapply plain_clock; eassumption].
    destruct neg; [constructor; [lia | constructor] | constructor].
Qed.

Lemma display_datetime : forall debug f32 f64 y mo d h m s u, 0 <= y < 10000 -> 0 <= mo < 100 ->
  0 <= d < 100 -> 0 <= h < 24 -> 0 <= m < 100 -> 0 <= s < 100 -> 0 <= u < 1000000 ->
  exists t, value_display debug f32 f64 (VDatetime y mo d h m s u) = Some ([34] ++ t ++ [34]) /\
    datetime_text debug t = Ok (VDatetime y mo d h m s u) /\ plain t.
Proof.
  intros debug f32 f64 y mo d h m s u Hy Hmo Hd Hh Hm Hs Hu. cbn [value_display].
  pose proof (format_date_spec y mo d Hy Hmo Hd) as S.
  pose proof (format_time_spec h m s u ltac:(lia) Hm Hs Hu) as T.
  exists (format_date y mo d ++ [32] ++ format_time h m s u). splits.
  - rewrite <- !app_assoc. reflexivity.
  - apply datetime_ok. eexists _, _. splits; [reflexivity | assumption | lia | lia | assumption |].
    unfold format_time. eexists _, _. split; [reflexivity|]. apply (pad_fixed h 2); cbn; lia.
  - unfold plain. apply Forall_app. split; [eapply plain_date; eassumption|].
    apply Forall_app. split; [constructor; [lia | constructor] | eapply plain_clock; eassumption].
Qed.

(** ** Integers *)

Lemma signed_text_unique : forall n k l, signed_text n l -> signed_text k l -> n = k.
Proof.
  assert (N : forall n k l, nat_text n l -> nat_text k l -> n = k)
    by (intros n k l (_ & _ & A) (_ & _ & B); congruence).
  intros n k l [H|(l' & E & H)] [K|(l'' & E' & K)]; subst.
  - eauto.
  - apply nat_text_head in H. unfold digit in H. lia.
  - apply nat_text_head in K. unfold digit in K. lia.
  - injection E' as <-. pose proof (N _ _ _ H K). lia.
Qed.

Lemma btoi_neg_loop_inv : forall l min acc n, 0 <= acc <= - min -> btoi_neg_loop min (- acc) l = Some n ->
  Forall digit l /\ n = - dval acc l /\ min <= n.
Proof.
  induction l as [|c l IH]; intros min acc n Ha H; cbn [btoi_neg_loop dval fold_left] in *.
  - injection H as <-. splits; [constructor | reflexivity | lia].
  - destruct ((48 <=? c) && (c <=? 57)) eqn:D; [|discriminate]. apply digit_b_inv in D.
    cbv zeta in H. fold (dval (acc * 10 + (c - 48)) l).
    destruct (- acc * 10 <? min) eqn:E; [discriminate|].
    destruct (- acc * 10 - (c - 48) <? min) eqn:E'; [discriminate|].
    replace (- acc * 10 - (c - 48)) with (- (acc * 10 + (c - 48))) in H by lia.
    apply IH in H; [|unfold digit in D; lia]. destruct H as (Hf & Hn & Hm).
    splits; [constructor; assumption | exact Hn | exact Hm].
Qed.

Lemma btoi_inv : forall min max l n, min <= 0 <= max -> btoi min max l = Some n ->
  min <= n <= max /\ (signed_text n l \/ exists l', l = 43 :: l' /\ nat_text n l').
Proof.
  intros min max l n Hr H. unfold btoi in H. destruct l as [|c r]; [discriminate|].
  destruct (Z.eqb_spec c 43).
  - subst. apply btou_iff in H; [|lia]. pose proof (nat_text_nonneg _ _ (proj1 H)).
    split; [lia|]. right. exists r. tauto.
  - destruct (Z.eqb_spec c 45).
    + subst. destruct r as [|d r]; [discriminate|].
      change 0 with (- 0) in H at 1. apply btoi_neg_loop_inv in H; [|lia]. destruct H as (F & -> & L).
      pose proof (dval_ge (d :: r) 0 ltac:(lia) F).
      split; [lia|]. left. right. exists (d :: r). split; [reflexivity|].
      unfold nat_text, dec_val. fold (dval 0 (d :: r)). splits; [discriminate | assumption | lia].
    + apply btou_iff in H; [|lia]. pose proof (nat_text_nonneg _ _ (proj1 H)).
      split; [lia|]. left. left. tauto.
Qed.

Lemma int_rejects_signed : forall k i u n l, (0 < k)%nat -> signed_text n l -> ~ signed_ok k n ->
  int_text k i u false l = Err (PIo IoInvalidData).
Proof.
  intros k i u n l Hk Hs Hr. unfold int_text. cbv zeta.
  pose proof (pow256_pos k). pose proof (pow256_even k Hk).
  destruct (btoi _ _ l) as [x|] eqn:E; [exfalso | reflexivity].
  apply btoi_inv in E; [|lia]. destruct E as (R & [T|(l' & -> & T)]).
  - pose proof (signed_text_unique _ _ _ Hs T). subst. apply Hr. unfold signed_ok. lia.
  - destruct Hs as [Hs|(l'' & Hl & _)]; [|discriminate]. apply nat_text_head in Hs. unfold digit in Hs. lia.
Qed.

Lemma int_rejects_unsigned : forall k i u n l, signed_text n l -> ~ unsigned_ok k n ->
  int_text k i u true l = Err (PIo IoInvalidData).
Proof.
  intros k i u n l Hs Hr. unfold int_text. cbv zeta. pose proof (pow256_pos k).
  destruct (btou _ l) as [x|] eqn:E; [exfalso | reflexivity].
  apply btou_iff in E; [|lia]. destruct E as (T & L). pose proof (nat_text_nonneg _ _ T).
  pose proof (signed_text_unique _ _ _ Hs (or_introl T)). subst. apply Hr. unfold unsigned_ok. lia.
Qed.

(** Column type and width of an integer value. *)
Definition int_value (v : value) : option (Z * nat * bool) :=
  match v with
  | VTiny x => Some (x, 1%nat, false) | VShort x => Some (x, 2%nat, false)
  | VInt x => Some (x, 4%nat, false) | VLong x => Some (x, 8%nat, false)
  | VUTiny x => Some (x, 1%nat, true) | VUShort x => Some (x, 2%nat, true)
  | VUInt x => Some (x, 4%nat, true) | VULong x => Some (x, 8%nat, true)
  | _ => None
  end.

Lemma display_int : forall debug ff32 ff64 f32 f64 flags v n k u, value_ok v -> int_value v = Some (n, k, u) ->
  has_flag flags UNSIGNED_FLAG = u ->
  exists t, value_display debug ff32 ff64 v = Some t /\ signed_text n t /\
    text_value debug f32 f64 (value_column_type v) flags t = Ok v.
Proof.
  intros debug ff32 ff64 f32 f64 flags v n k u Hv Hi Hf.
  assert (S : forall k i u x, signed_ok k x -> int_text k i u false (dec_signed x) = Ok (i x)).
  { intros k0 i u0 x Hx. unfold int_text. cbv zeta. unfold signed_ok in Hx.
    rewrite (btoi_ok _ _ _ _ (dec_signed_text x)) by lia. reflexivity. }
  assert (U : forall k i u x, unsigned_ok k x -> int_text k i u true (dec x) = Ok (u x)).
  { intros k0 i u0 x Hx. unfold int_text. cbv zeta. unfold unsigned_ok in Hx.
    rewrite (btou_ok _ _ _ (dec_nat x ltac:(lia))) by lia. reflexivity. }
  destruct v; try discriminate; cbn [int_value] in Hi; injection Hi as <- <- <-;
    cbn [value_ok] in Hv; cbn [value_display value_column_type text_value];
    (eexists; splits; [reflexivity | | rewrite Hf; (apply S || apply U); assumption]);
    try apply dec_signed_text; (left; apply dec_nat; unfold unsigned_ok in Hv; lia).
Qed.

(** ** Hexadecimal literals *)

Lemma hex_digit_val : forall n, 0 <= n < 16 -> hex_val (hex_digit n) = Some n.
Proof.
  intros n H. unfold hex_digit, hex_val. destruct (n <? 10) eqn:E.
  - replace ((48 <=? 48 + n) && (48 + n <=? 57)) with true by lia. f_equal. lia.
  - replace ((48 <=? 87 + n) && (87 + n <=? 57)) with false by lia.
    replace ((97 <=? 87 + n) && (87 + n <=? 102)) with true by lia. f_equal. lia.
Qed.

Lemma hex_encode_pairs : forall b, bytes_ok b -> hex_pairs b (hex_encode b).
Proof.
  intros b H. induction H as [|x b Hx Hb IH]; cbn [hex_encode flat_map]; [constructor|].
  unfold byte_ok in Hx. cbn [app].
  replace (x :: b) with ((16 * (x / 16) + x mod 16) :: b) by (f_equal; lia).
  constructor; [apply hex_digit_val; lia | apply hex_digit_val; lia | exact IH].
Qed.

Lemma display_bytes : forall debug f32 f64 b, bytes_ok b ->
  exists t, value_display debug f32 f64 (VBytes b) = Some t /\ (hex_literal b t <-> b <> []).
Proof.
  intros debug f32 f64 b H. eexists. split; [reflexivity|]. cbn [s2l app].
  change (Z.of_nat _) with 48 at 1. change (Z.of_nat _) with 120. split.
  - intros L ->. cbn [hex_encode flat_map] in L. inversion L; subst.
    + congruence.
    + match goal with P : hex_pairs _ [48] |- _ => inversion P end.
  - intros Hb. apply hl_even; [|now apply hex_encode_pairs]. destruct b; [congruence | discriminate].
Qed.

(** ** Statements used by the properties *)

Lemma ident_kept_allowed : forall s, Forall ident_allowed (ident_kept s).
Proof.
  intros s. apply Forall_forall. intros c H. unfold ident_kept in H. apply filter_In in H.
  now apply allowed_iff.
Qed.

Lemma identifier_exact : forall s rest, not_starting 96 rest ->
  ((exists name, lex_identifier (identifier_escape s ++ rest) = Some (name, rest) /\ ident_name s name)
   <-> ident_normal s).
Proof.
  intros s rest H. rewrite <- ident_name_iff, identifier_lex by assumption. split.
  - intros (name & E & N). injection E as <-. exact N.
  - intros N. eexists. split; [reflexivity | exact N].
Qed.

Lemma lit : forall t rest, plain t -> not_starting 34 rest ->
  lex_string true (([34] ++ t ++ [34]) ++ rest) = Some (t, rest).
Proof. intros t rest H Hr. rewrite <- !app_assoc. cbn [app]. now apply lex_plain. Qed.

Lemma display_date_lit : forall debug f32 f64 y m d, 0 <= y < 10000 -> 0 <= m < 100 -> 0 <= d < 100 ->
  exists t, value_display debug f32 f64 (VDate y m d) = Some ([34] ++ t ++ [34]) /\
    date_text t = Ok (VDate y m d) /\
    forall rest, not_starting 34 rest -> lex_string true (([34] ++ t ++ [34]) ++ rest) = Some (t, rest).
Proof.
  intros. destruct (display_date debug f32 f64 y m d) as (t & A & B & C); auto.
  exists t. splits; auto. intros; now apply lit.
Qed.

Lemma display_time_lit : forall debug f32 f64 neg days h m s u, 0 <= days -> 0 <= h < 24 ->
  days * 24 + h < 2 ^ 32 -> 0 <= m < 100 -> 0 <= s < 100 -> 0 <= u < 1000000 ->
  exists t, value_display debug f32 f64 (VTime neg days h m s u) = Some ([34] ++ t ++ [34]) /\
    time_text debug t = Ok (VTime neg days h m s u) /\
    forall rest, not_starting 34 rest -> lex_string true (([34] ++ t ++ [34]) ++ rest) = Some (t, rest).
Proof.
  intros. destruct (display_time debug f32 f64 neg days h m s u) as (t & A & B & C); auto.
  exists t. splits; auto. intros; now apply lit.
Qed.

Lemma display_datetime_lit : forall debug f32 f64 y mo d h m s u, 0 <= y < 10000 -> 0 <= mo < 100 ->
  0 <= d < 100 -> 0 <= h < 24 -> 0 <= m < 100 -> 0 <= s < 100 -> 0 <= u < 1000000 ->
  exists t, value_display debug f32 f64 (VDatetime y mo d h m s u) = Some ([34] ++ t ++ [34]) /\
    datetime_text debug t = Ok (VDatetime y mo d h m s u) /\
    forall rest, not_starting 34 rest -> lex_string true (([34] ++ t ++ [34]) ++ rest) = Some (t, rest).
Proof.
  intros. destruct (display_datetime debug f32 f64 y mo d h m s u) as (t & A & B & C); auto.
  exists t. splits; auto. intros; now apply lit.
Qed.

Lemma int_out_of_range : forall debug f32 f64 t k flags n l,
  In (t, k) [(CTiny, 1%nat); (CShort, 2%nat); (CYear, 2%nat); (CLong, 4%nat); (CInt24, 4%nat); (CLongLong, 8%nat)] ->
  signed_text n l ->
  ~ (if has_flag flags UNSIGNED_FLAG then 0 <= n < 256 ^ Z.of_nat k
     else - (256 ^ Z.of_nat k / 2) <= n < 256 ^ Z.of_nat k / 2) ->
  text_value debug f32 f64 t flags l = Err (PIo IoInvalidData).
Proof.
  intros debug f32 f64 t k flags n l Ht Hs Hr.
  assert (Hk : (0 < k)%nat).
  { cbn [In] in Ht. repeat destruct Ht as [Ht|Ht]; try (injection Ht as <- <-; lia). contradiction. }
  assert (G : forall i u, int_text k i u (has_flag flags UNSIGNED_FLAG) l = Err (PIo IoInvalidData)).
  { intros i u. destruct (has_flag flags UNSIGNED_FLAG).
    - eapply int_rejects_unsigned; eassumption.
    - eapply int_rejects_signed; eassumption. }
  cbn [In] in Ht. repeat destruct Ht as [Ht|Ht]; try (injection Ht as <- <-; apply G). contradiction.
Qed.
