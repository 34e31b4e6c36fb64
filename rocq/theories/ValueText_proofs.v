From Coq Require Import ZArith List Bool Lia.
From Verif Require Import Base BaseFacts Types Utf8 ParseBuf ParseBuf_proofs ValueBin ValueBin_proofs
  ValueText Rows Spec_Wire Spec_Stmt Spec_Text.
Import ListNotations.
Open Scope Z_scope.

(** ** Decimal numbers *)

Definition dval (acc : Z) (l : list Z) : Z := fold_left (fun a c => a * 10 + (c - 48)) l acc.

Lemma dval_app : forall l r acc, dval acc (l ++ r) = dval (dval acc l) r.
Proof. intros; unfold dval; apply fold_left_app. Qed.

Lemma dval_ge : forall l acc, 0 <= acc -> Forall digit l -> acc <= dval acc l.
Proof.
  induction l as [|c l IH]; intros acc Ha H; cbn [dval fold_left]; [lia|].
  inversion H; subst. unfold digit in *. fold (dval (acc * 10 + (c - 48)) l).
  specialize (IH (acc * 10 + (c - 48))). lia.
Qed.

Lemma dval_lt : forall l acc, 0 <= acc -> Forall digit l ->
  dval acc l < (acc + 1) * 10 ^ lenZ l.
Proof.
  induction l as [|c l IH]; intros acc Ha H.
  - cbn. rewrite Z.mul_1_r. lia.
  - inversion H; subst. unfold digit in *. cbn [dval fold_left]. fold (dval (acc * 10 + (c - 48)) l).
    rewrite lenZ_cons, Z.pow_add_r by (pose proof (lenZ_nonneg _ l); lia).
    specialize (IH (acc * 10 + (c - 48)) ltac:(lia) ltac:(assumption)).
    assert (0 < 10 ^ lenZ l) by (apply Z.pow_pos_nonneg; [lia | apply lenZ_nonneg]).
    nia.
Qed.

Lemma digit_b : forall c, digit c -> (48 <=? c) && (c <=? 57) = true.
Proof. unfold digit; intros; lia. Qed.

Lemma digit_b_inv : forall c, (48 <=? c) && (c <=? 57) = true -> digit c.
Proof. unfold digit; intros; lia. Qed.

Lemma btou_loop_ok : forall l max acc, 0 <= acc -> Forall digit l -> dval acc l <= max ->
  btou_loop max acc l = Some (dval acc l).
Proof.
  induction l as [|c l IH]; intros max acc Ha H Hm; cbn [btou_loop dval fold_left] in *; [reflexivity|].
  inversion H; subst. rewrite digit_b by assumption. unfold digit in *.
  fold (dval (acc * 10 + (c - 48)) l) in *.
  pose proof (dval_ge l (acc * 10 + (c - 48)) ltac:(lia) ltac:(assumption)).
  cbv zeta.
  destruct (acc * 10 >? max) eqn:E; [lia|].
  destruct (acc * 10 + (c - 48) >? max) eqn:E'; [lia|].
  apply IH; lia || assumption.
Qed.

Lemma btou_loop_inv : forall l max acc n, 0 <= acc <= max -> btou_loop max acc l = Some n ->
  Forall digit l /\ n = dval acc l /\ n <= max.
Proof.
  induction l as [|c l IH]; intros max acc n Ha H; cbn [btou_loop dval fold_left] in *.
  - injection H as <-. splits; [constructor | reflexivity | lia].
  - destruct ((48 <=? c) && (c <=? 57)) eqn:D; [|discriminate]. apply digit_b_inv in D.
    cbv zeta in H.
    destruct (acc * 10 >? max) eqn:E; [discriminate|].
    destruct (acc * 10 + (c - 48) >? max) eqn:E'; [discriminate|].
    apply IH in H; [|unfold digit in D; lia]. destruct H as (Hf & Hn & Hm).
    splits; [constructor; assumption | exact Hn | exact Hm].
Qed.

Lemma btou_iff : forall max l n, 0 <= max -> (btou max l = Some n <-> nat_text n l /\ n <= max).
Proof.
  intros max l n Hm. unfold nat_text, dec_val. fold (dval 0 l). split.
  - destruct l as [|c l]; [discriminate|]. intros H. unfold btou in H.
    apply btou_loop_inv in H; [|lia]. destruct H as (A & B & C). splits; auto. discriminate.
  - intros ((A & B & C) & D). destruct l as [|c l]; [congruence|].
    unfold btou. rewrite btou_loop_ok; [congruence | lia | assumption | lia].
Qed.

Lemma btou_ok : forall max l n, nat_text n l -> n <= max -> btou max l = Some n.
Proof.
  intros max l n H Hm. apply btou_iff; auto.
  destruct H as (A & B & C). unfold dec_val in C. fold (dval 0 l) in C.
  pose proof (dval_ge l 0 ltac:(lia) B). lia.
Qed.

Lemma nat_text_nonneg : forall n l, nat_text n l -> 0 <= n.
Proof.
  intros n l (A & B & C). unfold dec_val in C. fold (dval 0 l) in C.
  pose proof (dval_ge l 0 ltac:(lia) B). lia.
Qed.

Lemma btoi_neg_loop_ok : forall l min acc, 0 <= acc -> Forall digit l -> dval acc l <= - min ->
  btoi_neg_loop min (- acc) l = Some (- dval acc l).
Proof.
  induction l as [|c l IH]; intros min acc Ha H Hm; cbn [btoi_neg_loop dval fold_left] in *; [reflexivity|].
  inversion H; subst. rewrite digit_b by assumption. unfold digit in *.
  fold (dval (acc * 10 + (c - 48)) l) in *.
  pose proof (dval_ge l (acc * 10 + (c - 48)) ltac:(lia) ltac:(assumption)).
  cbv zeta.
  destruct (- acc * 10 <? min) eqn:E; [lia|].
  destruct (- acc * 10 - (c - 48) <? min) eqn:E'; [lia|].
  replace (- acc * 10 - (c - 48)) with (- (acc * 10 + (c - 48))) by lia.
  apply IH; lia || assumption.
Qed.

Lemma nat_text_head : forall n c l, nat_text n (c :: l) -> digit c.
Proof. intros n c l (A & B & C). inversion B; assumption. Qed.

Lemma btoi_ok : forall min max l n, signed_text n l -> min <= n <= max -> btoi min max l = Some n.
Proof.
  intros min max l n [H|(l' & -> & H)] Hr.
  - destruct l as [|c l]; [destruct H; congruence|].
    pose proof (nat_text_head _ _ _ H) as D. unfold digit in D.
    unfold btoi. destruct (Z.eqb_spec c 43); [lia|]. destruct (Z.eqb_spec c 45); [lia|].
    apply btou_ok; [assumption | lia].
  - pose proof (nat_text_nonneg _ _ H). destruct H as (A & B & C).
    unfold btoi. change (45 =? 43) with false. change (45 =? 45) with true. cbn match.
    destruct l' as [|c l]; [congruence|].
    unfold dec_val in C. fold (dval 0 (c :: l)) in C.
    change 0 with (- 0) at 1. rewrite btoi_neg_loop_ok; [f_equal; lia | lia | assumption | lia].
Qed.

(** ** Dates and times *)

Lemma fixed_nat : forall w n l, (0 < w)%nat -> fixed_text w n l -> nat_text n l.
Proof.
  intros w n l Hw (A & B & C). splits; auto. split; auto. intros ->. cbn in A. lia.
Qed.

Lemma fixed_lt : forall w n l, fixed_text w n l -> n < 10 ^ Z.of_nat w.
Proof.
  intros w n l (A & B & C). unfold dec_val in C. fold (dval 0 l) in C.
  pose proof (dval_lt l 0 ltac:(lia) B). unfold lenZ in H. rewrite A in H. lia.
Qed.

Lemma fixed_lenZ : forall w n l, fixed_text w n l -> lenZ l = Z.of_nat w.
Proof. intros w n l (A & _). unfold lenZ. congruence. Qed.

Lemma btou_fixed2 : forall n l, fixed_text 2 n l -> btou 255 l = Some n.
Proof.
  intros n l H. pose proof (fixed_lt _ _ _ H). cbn in H0.
  apply btou_ok; [eapply fixed_nat; [|eassumption]; lia | lia].
Qed.

Lemma btou_fixed4 : forall n l, fixed_text 4 n l -> btou 65535 l = Some n.
Proof.
  intros n l H. pose proof (fixed_lt _ _ _ H). cbn in H0.
  apply btou_ok; [eapply fixed_nat; [|eassumption]; lia | lia].
Qed.

Lemma slice_mid : forall a b c from to, lenZ a = from -> lenZ b = to - from ->
  slice (a ++ b ++ c) from to = b.
Proof.
  intros. unfold slice. rewrite dropZ_app_exact by assumption. apply takeZ_app_exact; assumption.
Qed.

Lemma at_mid : forall a x c i, lenZ a = i -> at_ (a ++ x :: c) i = x.
Proof.
  intros a x c i <-. unfold at_, lenZ. rewrite Nat2Z.id, app_nth2 by lia.
  rewrite Nat.sub_diag. reflexivity.
Qed.

Lemma digits_no : forall c l, Forall digit l -> ~ digit c -> ~ In c l.
Proof. intros c l H Hc Hi. apply Hc. rewrite Forall_forall in H. auto. Qed.

Lemma date_inner_ok : forall y m d l, spec_date y m d l -> date_text_inner l = Ok (y, m, d).
Proof.
  intros y m d l (a & b & c & -> & Ha & Hb & Hc).
  pose proof (fixed_lenZ _ _ _ Ha) as La. pose proof (fixed_lenZ _ _ _ Hb) as Lb.
  pose proof (fixed_lenZ _ _ _ Hc) as Lc. cbn in La, Lb, Lc.
  unfold date_text_inner.
  rewrite !lenZ_app, La, Lb, Lc, !lenZ_cons, !lenZ_nil.
  change (negb (4 + (1 + 0 + (2 + (1 + 0 + 2))) =? 10)) with false. cbn match.
  replace (at_ (a ++ [45] ++ b ++ [45] ++ c) 4) with 45 by (symmetry; exact (at_mid a 45 _ 4 La)).
  change (negb (45 =? 45)) with false. cbn match.
  replace (a ++ [45] ++ b ++ [45] ++ c) with ((a ++ [45] ++ b) ++ 45 :: c)
    by (rewrite <- !app_assoc; reflexivity).
  rewrite at_mid by (rewrite !lenZ_app, La, Lb; reflexivity).
  change (negb (45 =? 45)) with false. cbn match.
  replace (slice ((a ++ [45] ++ b) ++ 45 :: c) 0 4) with a.
  2:{ rewrite <- !app_assoc. symmetry. apply (slice_mid [] a); [reflexivity | lia]. }
  replace (slice ((a ++ [45] ++ b) ++ 45 :: c) 5 7) with b.
  2:{ replace ((a ++ [45] ++ b) ++ 45 :: c) with ((a ++ [45]) ++ b ++ 45 :: c)
        by (rewrite <- !app_assoc; reflexivity).
      symmetry. apply slice_mid; [rewrite lenZ_app, La; reflexivity | lia]. }
  replace (slice ((a ++ [45] ++ b) ++ 45 :: c) 8 10) with c.
  2:{ replace ((a ++ [45] ++ b) ++ 45 :: c) with ((a ++ [45] ++ b ++ [45]) ++ c ++ [])
        by (rewrite app_nil_r, <- !app_assoc; reflexivity).
      symmetry. apply slice_mid; [rewrite !lenZ_app, La, Lb; reflexivity | lia]. }
  rewrite (btou_fixed4 _ _ Ha), (btou_fixed2 _ _ Hb), (btou_fixed2 _ _ Hc). reflexivity.
Qed.

Lemma clock_inner_ok : forall debug h m s u l, spec_clock h m s u l -> h < 2 ^ 32 ->
  time_text_inner debug l = Ok (h / 24, h mod 24, m, s, u).
Proof.
  intros debug h m s u l (a & b & c & f & -> & L2 & Ha & Hb & Hc & Hf) Hh.
  pose proof (fixed_lenZ _ _ _ Hb) as Lb. pose proof (fixed_lenZ _ _ _ Hc) as Lc. cbn in Lb, Lc.
  pose proof (lenZ_nonneg _ a) as La0. pose proof (lenZ_nonneg _ f) as Lf0.
  unfold time_text_inner.
  assert (Pos : position 58 (a ++ [58] ++ b ++ [58] ++ c ++ f) = Some (lenZ a)).
  { apply position_app. destruct Ha as (_ & Da & _).
    apply digits_no; [assumption | unfold digit; lia]. }
  rewrite Pos. set (n := lenZ a) in *.
  assert (Len : lenZ (a ++ [58] ++ b ++ [58] ++ c ++ f) = n + 6 + lenZ f).
  { rewrite !lenZ_app, Lb, Lc, !lenZ_cons, !lenZ_nil. fold n. lia. }
  rewrite Len. destruct (n + 6 + lenZ f <? n + 6) eqn:E; [lia|]. clear E.
  replace (at_ (a ++ [58] ++ b ++ [58] ++ c ++ f) (n + 3)) with 58.
  2:{ replace (a ++ [58] ++ b ++ [58] ++ c ++ f) with ((a ++ [58] ++ b) ++ 58 :: c ++ f)
        by (rewrite <- !app_assoc; reflexivity).
      symmetry. apply at_mid. rewrite !lenZ_app, Lb, lenZ_cons, lenZ_nil. fold n. lia. }
  change (negb (58 =? 58)) with false. cbn match.
  replace (slice (a ++ [58] ++ b ++ [58] ++ c ++ f) 0 n) with a.
  2:{ symmetry. apply (slice_mid [] a); [reflexivity | fold n; lia]. }
  replace (slice (a ++ [58] ++ b ++ [58] ++ c ++ f) (n + 1) (n + 3)) with b.
  2:{ replace (a ++ [58] ++ b ++ [58] ++ c ++ f) with ((a ++ [58]) ++ b ++ ([58] ++ c ++ f))
        by (rewrite <- !app_assoc; reflexivity).
      symmetry. apply slice_mid; [rewrite lenZ_app, lenZ_cons, lenZ_nil; fold n; lia | lia]. }
  replace (slice (a ++ [58] ++ b ++ [58] ++ c ++ f) (n + 4) (n + 6)) with c.
  2:{ replace (a ++ [58] ++ b ++ [58] ++ c ++ f) with ((a ++ [58] ++ b ++ [58]) ++ c ++ f)
        by (rewrite <- !app_assoc; reflexivity).
      symmetry. apply slice_mid; [rewrite !lenZ_app, Lb, !lenZ_cons, lenZ_nil; fold n; lia | lia]. }
  rewrite (btou_ok _ _ _ Ha) by lia.
  rewrite (btou_fixed2 _ _ Hb), (btou_fixed2 _ _ Hc). cbn [or_invalid rbind].
  destruct Hf as [(-> & ->)|(f' & -> & Lf & Df & ->)].
  - rewrite lenZ_nil. destruct (n + 6 + 0 >? n + 7) eqn:E; [lia|]. reflexivity.
  - rewrite lenZ_cons.
    assert (Lf' : 1 <= lenZ f' <= 6) by (unfold lenZ; lia).
    destruct (n + 6 + (1 + lenZ f') >? n + 7) eqn:E.
    2:{ (* exactly one digit: n+8 > n+7 *) lia. }
    replace (at_ (a ++ [58] ++ b ++ [58] ++ c ++ 46 :: f') (n + 6)) with 46.
    2:{ replace (a ++ [58] ++ b ++ [58] ++ c ++ 46 :: f') with ((a ++ [58] ++ b ++ [58] ++ c) ++ 46 :: f')
          by (rewrite <- !app_assoc; reflexivity).
        symmetry. apply at_mid. rewrite !lenZ_app, Lb, Lc, !lenZ_cons, lenZ_nil. fold n. lia. }
    change (negb (46 =? 46)) with false. cbn match. cbv zeta.
    replace (dropZ (n + 7) (a ++ [58] ++ b ++ [58] ++ c ++ 46 :: f')) with f'.
    2:{ replace (a ++ [58] ++ b ++ [58] ++ c ++ 46 :: f') with ((a ++ [58] ++ b ++ [58] ++ c ++ [46]) ++ f')
          by (rewrite <- !app_assoc; reflexivity).
        symmetry. apply dropZ_app_exact. rewrite !lenZ_app, Lb, Lc, !lenZ_cons, lenZ_nil. fold n. lia. }
    assert (Hn : nat_text (dec_val f') f').
    { splits; auto. split; auto. intros ->. cbn in Lf. lia. }
    assert (dec_val f' < 10 ^ 6).
    { unfold dec_val. fold (dval 0 f'). pose proof (dval_lt f' 0 ltac:(lia) Df).
      assert (10 ^ lenZ f' <= 10 ^ 6) by (apply Z.pow_le_mono_r; lia). lia. }
    rewrite (btou_ok _ _ _ Hn) by (change (10 ^ 6) with 1000000 in *; lia).
    cbn [or_invalid rbind]. unfold scale_micros.
    destruct (Z.leb_spec (lenZ f') 6); [|lia]. reflexivity.
Qed.

Lemma time_ok : forall debug v l, spec_time v l -> time_text debug l = Ok v.
Proof.
  intros debug v l H. destruct H as [days h m s u l Hh Hd Hr Hc|days h m s u l Hh Hd Hr Hc].
  - pose proof Hc as (a & b & c & f & El & L2 & (_ & Da & _) & _).
    destruct a as [|x a]; [cbn in L2; lia|].
    pose proof (clock_inner_ok debug _ _ _ _ _ Hc Hr) as I.
    inversion Da; subst. unfold digit in *. cbn [app] in *. unfold time_text.
    destruct (Z.eqb_spec x 45); [lia|]. cbv zeta. cbn match.
    rewrite I. cbn [rbind]. do 2 f_equal; lia.
  - unfold time_text. change (45 =? 45) with true. cbv zeta. cbn match.
    rewrite (clock_inner_ok debug _ _ _ _ _ Hc Hr). cbn [rbind].
    do 2 f_equal; lia.
Qed.

Lemma date_ok : forall y m d l, spec_date y m d l -> date_text l = Ok (VDate y m d).
Proof. intros. unfold date_text. erewrite date_inner_ok by eassumption. reflexivity. Qed.

Lemma spec_date_len : forall y m d l, spec_date y m d l -> lenZ l = 10.
Proof.
  intros y m d l (a & b & c & -> & Ha & Hb & Hc).
  rewrite !lenZ_app, (fixed_lenZ _ _ _ Ha), (fixed_lenZ _ _ _ Hb), (fixed_lenZ _ _ _ Hc). reflexivity.
Qed.

Lemma spec_clock_len : forall h m s u l, spec_clock h m s u l -> 8 <= lenZ l.
Proof.
  intros h m s u l (a & b & c & f & -> & L & _ & Hb & Hc & _).
  rewrite !lenZ_app, (fixed_lenZ _ _ _ Hb), (fixed_lenZ _ _ _ Hc), !lenZ_cons, !lenZ_nil.
  pose proof (lenZ_nonneg _ f). unfold lenZ at 1. lia.
Qed.

Lemma datetime_ok : forall debug y mo d h mi s u l, spec_datetime y mo d h mi s u l ->
  datetime_text debug l = Ok (VDatetime y mo d h mi s u).
Proof.
  intros debug y mo d h mi s u l (a & b & -> & Ha & Hh & Hb & _).
  pose proof (spec_date_len _ _ _ _ Ha). pose proof (spec_clock_len _ _ _ _ _ Hb).
  unfold datetime_text. rewrite !lenZ_app, lenZ_cons, lenZ_nil.
  destruct (lenZ a + (1 + 0 + lenZ b) <? 19) eqn:E; [lia|].
  rewrite takeZ_app_exact by assumption.
  replace (dropZ 11 (a ++ [32] ++ b)) with b.
  2:{ rewrite app_assoc. symmetry. apply dropZ_app_exact. rewrite lenZ_app, lenZ_cons, lenZ_nil. lia. }
  erewrite date_inner_ok by eassumption. erewrite clock_inner_ok by (eassumption || lia).
  cbn [rbind]. do 2 f_equal. lia.
Qed.

(** ** Text values and rows *)

Section Text.
  Variable f32_text f64_text : Z -> list Z -> Prop.
  Variable f32_from_str f64_from_str : str -> option Z.
  Hypothesis f32_reads : forall x l, f32_text x l ->
    Forall (fun c => 0 <= c < 128) l /\ f32_from_str l = Some x.
  Hypothesis f64_reads : forall x l, f64_text x l ->
    Forall (fun c => 0 <= c < 128) l /\ f64_from_str l = Some x.
  Variable debug : bool.

  Lemma text_value_ok : forall t flags v l, text_enc f32_text f64_text t (has_flag flags UNSIGNED_FLAG) v l ->
    t <> CLongBlob -> text_value debug f32_from_str f64_from_str t flags l = Ok v.
  Proof.
    intros t flags v l H Ht. unfold text_value. remember (has_flag flags UNSIGNED_FLAG) as un eqn:Eun.
    clear Eun. cbv zeta. unfold u8, u16, u32, u64 in *.
    assert (S : forall k i u x l, (0 < k)%nat -> - (256 ^ Z.of_nat k / 2) <= x < 256 ^ Z.of_nat k / 2 ->
      signed_text x l -> int_text k i u false l = Ok (i x)).
    { intros k i u x l0 _ Hx Hs. unfold int_text. cbv zeta. rewrite (btoi_ok _ _ _ _ Hs) by lia. reflexivity. }
    assert (U : forall k i u x l, 0 <= x < 256 ^ Z.of_nat k ->
      nat_text x l -> int_text k i u true l = Ok (u x)).
    { intros k i u x l0 Hx Hs. unfold int_text. cbv zeta. rewrite (btou_ok _ _ _ Hs) by lia. reflexivity. }
    destruct H.
    - apply S; [lia | exact H | assumption].
    - apply U; [exact H | assumption].
    - destruct H; subst; apply S; lia || assumption.
    - destruct H; subst; apply U; [exact H0 | assumption | exact H0 | assumption].
    - destruct H; subst; apply S; lia || assumption.
    - destruct H; subst; apply U; [exact H0 | assumption | exact H0 | assumption].
    - apply S; [lia | exact H | assumption].
    - apply U; [exact H | assumption].
    - destruct (f32_reads _ _ H) as (A & B). unfold float_text.
      rewrite utf8_ascii by assumption. rewrite B. reflexivity.
    - destruct (f64_reads _ _ H) as (A & B). unfold float_text.
      rewrite utf8_ascii by assumption. rewrite B. reflexivity.
    - destruct H; reflexivity || congruence.
    - apply date_ok; assumption.
    - destruct H; subst; apply datetime_ok; assumption.
    - apply time_ok; assumption.
  Qed.

  Lemma lenenc_head : forall n w, lenenc n w -> exists c r, w = c :: r /\ c <> 251.
  Proof.
    intros n w H. destruct H; eexists _, _; split; try reflexivity; lia.
  Qed.

  Lemma text_row_ok : forall cs cols vs w tail,
    text_row f32_text f64_text cs vs w ->
    cs = map (fun c => (col_type c, has_flag (col_flags c) UNSIGNED_FLAG)) cols ->
    Forall (fun c => col_type c <> CLongBlob) cols ->
    text_values debug f32_from_str f64_from_str cols (w ++ tail) = (Ok vs, tail).
  Proof.
    intros cs cols vs w tail H. revert cols. induction H; intros cols Ec Hb.
    - destruct cols; [|discriminate]. reflexivity.
    - destruct cols as [|c cols]; [discriminate|]. cbn [map] in Ec. injection Ec as -> -> Ec.
      inversion Hb; subst. cbn [text_values app]. unfold pbind at 1. unfold deserialize_text at 1.
      change (251 =? 251) with true. cbn match. unfold pbind at 1, skip, pret at 1.
      rewrite lenZ_cons. pose proof (lenZ_nonneg _ (w ++ tail)).
      replace (Z.min 1 (1 + lenZ (w ++ tail))) with 1 by lia.
      change (dropZ 1 (251 :: w ++ tail)) with (dropZ 0 (w ++ tail)). rewrite dropZ_0 by lia.
      unfold pbind. rewrite IHtext_row by auto. reflexivity.
    - destruct cols as [|c cols]; [discriminate|]. cbn [map] in Ec. injection Ec as -> -> Ec.
      inversion Hb; subst. cbn [text_values].
      rewrite <- !app_assoc.
      assert (D : deserialize_text debug f32_from_str f64_from_str (col_type c) (col_flags c)
        (pre ++ l ++ w ++ tail) = (Ok v, w ++ tail)).
      { unfold deserialize_text. destruct (lenenc_head _ _ H0) as (x & r & -> & Hx).
        cbn [app]. destruct (Z.eqb_spec x 251); [congruence|].
        change (x :: r ++ l ++ w ++ tail) with ((x :: r) ++ l ++ w ++ tail).
        unfold pbind, checked_eat_lenenc_slice, pbind.
        rewrite (checked_eat_lenenc_int_spec _ _ _ H0).
        rewrite checked_eat_app by reflexivity.
        unfold plift. rewrite (text_value_ok _ _ _ _ H) by assumption. reflexivity. }
      unfold pbind at 1. rewrite D. unfold pbind. rewrite IHtext_row by auto. reflexivity.
  Qed.
End Text.
