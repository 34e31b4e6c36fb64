(** Lemmas for C105: the errors of rows that cannot be read. *)
From Coq Require Import ZArith List Bool Lia.
From Verif Require Import Base BaseFacts Types Utf8 ParseBuf BufMut Spec_Wire ParseBuf_proofs ValueBin NullBitmap NullBitmap_proofs
  Packets Spec_Conv Spec_Packets Packets_proofs ValueText Spec_Stmt Spec_Text ValueText_proofs Rows Rows_proofs
  Spec_TextForms TextForms_proofs Properties_TextForms Framing_proofs Report_proofs Spec_RowForms RowForms_proofs Spec_RowErrors.
Import ListNotations.
Open Scope Z_scope.

(** ** Readers whose only error is the end of the packet *)
Definition only_eof {A} (p : P A) : Prop := forall b e, fst (p b) = Err e -> e = ends_early.

Lemma eof_bind : forall A B (p : P A) (f : A -> P B), only_eof p -> (forall a, only_eof (f a)) -> only_eof (pbind p f).
Proof.
  intros A B p f Hp Hf b e H. unfold pbind in H. specialize (Hp b). destruct (p b) as [[a|x|] r]; cbn [fst] in *.
  - exact (Hf a r e H).
  - apply Hp. injection H as ->. reflexivity.
  - discriminate.
Qed.
Lemma eof_ret : forall A (a : A), only_eof (pret a). Proof. intros A a b e H. discriminate. Qed.
Lemma eof_panic : forall A, only_eof (@ppanic A). Proof. intros A b e H. discriminate. Qed.
Lemma eof_eat : forall n, only_eof (eat n).
Proof. intros n b e H. unfold eat in H. destruct (lenZ b <? n); discriminate. Qed.
Lemma eof_checked_eat : forall n, only_eof (checked_eat n).
Proof. intros n b e H. unfold checked_eat in H. destruct (lenZ b >=? n); [now apply eof_eat in H|]. cbn [fst] in H. now injection H as <-. Qed.
Lemma eof_skip : forall n, only_eof (skip n).
Proof. intros n b e H. unfold skip in H. discriminate. Qed.
Lemma eof_check_len : forall n, only_eof (check_len n).
Proof. intros n b e H. unfold check_len in H. destruct (lenZ b <? n) eqn:E; cbn [fst] in H; [now injection H as <-|discriminate]. Qed.

Ltac eof := repeat first
  [ apply eof_bind; [|intro] | apply eof_ret | apply eof_panic | apply eof_checked_eat | apply eof_eat | apply eof_skip | apply eof_check_len
  | match goal with |- only_eof (if ?c then _ else _) => destruct c end
  | match goal with |- only_eof (match ?c with _ => _ end) => destruct c end ].

Lemma eof_checked_uint : forall k, only_eof (checked_eat_uint k). Proof. intros k. unfold checked_eat_uint. eof. Qed.
Lemma eof_uint : forall k, only_eof (eat_uint k). Proof. intros k. unfold eat_uint. eof. Qed.
Lemma eof_checked_int : forall k, only_eof (checked_eat_int k). Proof. intros k. unfold checked_eat_int. eof. Qed.
Lemma eof_lenenc : only_eof checked_eat_lenenc_int.
Proof. unfold checked_eat_lenenc_int. apply eof_bind; [apply eof_checked_uint|]. intros x. eof; apply eof_checked_uint. Qed.
Lemma eof_slice : only_eof checked_eat_lenenc_slice.
Proof. unfold checked_eat_lenenc_slice. apply eof_bind; [apply eof_lenenc|]. intros. apply eof_checked_eat. Qed.

Ltac eofs := repeat first [ progress eof | apply eof_checked_uint | apply eof_uint | apply eof_checked_int | apply eof_lenenc | apply eof_slice ].

Lemma eof_bin : forall t flags, only_eof (deserialize_bin t flags).
Proof.
  intros t flags. unfold deserialize_bin. cbv zeta. destruct t; unfold deserialize_num, deserialize_date, deserialize_datetime, deserialize_time; eofs.
Qed.

Lemma eof_bin_values : forall bm cols i, only_eof (bin_row_values bm i cols).
Proof.
  intros bm. induction cols as [|c cols IH]; intros i; cbn [bin_row_values]; [apply eof_ret|].
  destruct (is_null false bm i) as [[]|]; [| |apply eof_panic].
  - apply eof_bind; [apply IH|]. intros. apply eof_ret.
  - apply eof_bind; [apply eof_bin|]. intros. apply eof_bind; [apply IH|]. intros. apply eof_ret.
Qed.

Lemma bin_row_errors : forall pkt cols e, read_bin_row pkt cols = Err e -> e = ends_early.
Proof.
  intros pkt cols e H. destruct (bin_row_start pkt cols) as [(bm & body & P & E) | (N & E)]; rewrite E in H.
  - exact (eof_bin_values bm cols 0 body e H).
  - now injection H as <-.
Qed.

(** ** Texts *)
Lemma position_in : forall x l, position x l = None <-> ~ In x l.
Proof.
  intros x. induction l as [|y l IH]; cbn [position In]; [tauto|].
  destruct (Z.eqb_spec y x) as [->|N]; [split; [discriminate|tauto]|].
  destruct (position x l) as [k|]; split; try discriminate; try (intros; reflexivity).
  - intros H. exfalso. apply H. right. destruct (in_dec Z.eq_dec x l) as [I|I]; [exact I|]. exfalso. apply IH in I. discriminate.
  - intros _ [E|I]; [congruence|]. now apply (proj1 IH eq_refl).
Qed.

Lemma inner_errors : forall debug l e, time_text_inner debug l = Err e ->
  (~ In 58 l /\ e = ends_early) \/ (In 58 l /\ e = PParse (EInvalidValue TTime l)).
Proof.
  intros debug l e H. unfold time_text_inner in H. destruct (position 58 l) as [c|] eqn:P.
  2:{ left. split; [now apply position_in|]. now injection H as <-. }
  right. split. { destruct (in_dec Z.eq_dec 58 l) as [I|I]; [exact I|]. apply position_in in I. congruence. }
  assert (V : forall A (o : option A) (f : A -> res protocol_error (Z * Z * Z * Z * Z)) , rbind (or_invalid o TTime l) f = Err e ->
    e = PParse (EInvalidValue TTime l) \/ exists a, o = Some a /\ f a = Err e).
  { intros A [a|] f E; cbn [or_invalid rbind] in E; [right; eauto|left]. unfold invalid_value in E. cbn [rbind] in E. now injection E as <-. }
  destruct (lenZ l <? c + 6); [unfold invalid_value in H; now injection H as <-|].
  destruct (negb (at_ l (c + 3) =? 58)); [unfold invalid_value in H; now injection H as <-|].
  apply V in H as [H|(h & _ & H)]; [exact H|]. apply V in H as [H|(m & _ & H)]; [exact H|]. apply V in H as [H|(s & _ & H)]; [exact H|].
  destruct (lenZ l >? c + 7); [|discriminate]. destruct (negb (at_ l (c + 6) =? 46)); [unfold invalid_value in H; cbn [rbind] in H; now injection H as <-|].
  cbv zeta in H. destruct (btou 4294967295 (dropZ (c + 7) l)) as [n|]; cbn [or_invalid rbind] in H; [|unfold invalid_value in H; cbn [rbind] in H; now injection H as <-].
  unfold scale_micros in H. destruct (lenZ (dropZ (c + 7) l) <=? 6); [discriminate|]. destruct debug; discriminate.
Qed.

Lemma date_errors : forall l e, date_text_inner l = Err e -> e = PParse (EInvalidValue TDate l).
Proof.
  intros l e H. unfold date_text_inner in H.
  assert (V : forall A (o : option A) (f : A -> res protocol_error (Z * Z * Z)) , rbind (or_invalid o TDate l) f = Err e ->
    e = PParse (EInvalidValue TDate l) \/ exists a, o = Some a /\ f a = Err e).
  { intros A [a|] f E; cbn [or_invalid rbind] in E; [right; eauto|left]. unfold invalid_value in E. cbn [rbind] in E. now injection E as <-. }
  repeat match type of H with (if ?c then _ else _) = _ => destruct c; [unfold invalid_value in H; now injection H as <-|] end.
  apply V in H as [H|(h & _ & H)]; [exact H|]. apply V in H as [H|(m & _ & H)]; [exact H|]. apply V in H as [H|(s & _ & H)]; [exact H|]. discriminate.
Qed.

Lemma time_errors : forall debug l e, time_text debug l = Err e -> text_refused CTime l e.
Proof.
  intros debug [|c r] e H; [injection H as <-; apply tr_time_none; auto|]. unfold time_text in H. cbv zeta in H.
  destruct (Z.eqb_spec c 45) as [->|N].
  - destruct (time_text_inner debug r) as [[[[[a b] c] d] f]|x|] eqn:E; cbn [rbind] in H; try discriminate. injection H as <-.
    apply inner_errors in E as [(I & ->)|(I & ->)].
    + apply tr_time_none. intros [X|X]; [discriminate|contradiction].
    + apply (tr_time true r); [exact I|discriminate].
  - destruct (time_text_inner debug (c :: r)) as [[[[[a b] c'] d] f]|x|] eqn:E; cbn [rbind] in H; try discriminate. injection H as <-.
    apply inner_errors in E as [(I & ->)|(I & ->)]; [now apply tr_time_none|].
    apply (tr_time false (c :: r)); [exact I|]. intros _ r' X. congruence.
Qed.

Lemma datetime_errors : forall debug t l e, t = CDatetime \/ t = CTimestamp -> datetime_text debug l = Err e -> text_refused t l e.
Proof.
  intros debug t l e Ht H. unfold datetime_text in H. destruct (Z.ltb_spec (lenZ l) 19) as [S|S].
  { unfold invalid_value in H. injection H as <-. apply tr_dt_short; [exact Ht|]. unfold lenZ in S. lia. }
  unfold lenZ in S.
  destruct l as [|x0 [|x1 [|x2 [|x3 [|x4 [|x5 [|x6 [|x7 [|x8 [|x9 [|x10 b]]]]]]]]]]]; cbn [length] in S; try lia.
  change (takeZ 10 (x0 :: x1 :: x2 :: x3 :: x4 :: x5 :: x6 :: x7 :: x8 :: x9 :: x10 :: b)) with [x0; x1; x2; x3; x4; x5; x6; x7; x8; x9] in H.
  replace (dropZ 11 (x0 :: x1 :: x2 :: x3 :: x4 :: x5 :: x6 :: x7 :: x8 :: x9 :: x10 :: b)) with b in H by (destruct b; reflexivity).
  change (x0 :: x1 :: x2 :: x3 :: x4 :: x5 :: x6 :: x7 :: x8 :: x9 :: x10 :: b) with ([x0; x1; x2; x3; x4; x5; x6; x7; x8; x9] ++ x10 :: b).
  set (a := [x0; x1; x2; x3; x4; x5; x6; x7; x8; x9]) in *.
  pose proof (date_iff a) as D. unfold date_text in D.
  destruct (date_text_inner a) as [[[y m] d]|x|] eqn:E; cbn [rbind] in H, D; [| |discriminate].
  - destruct (proj1 (D _) eq_refl) as (y' & m' & d' & _ & Sd).
    destruct (time_text_inner debug b) as [[[[[h mi] s] u] f]|x|] eqn:E2; cbn [rbind] in H; try discriminate. injection H as <-.
    apply inner_errors in E2 as [(I & ->)|(I & ->)].
    + apply (tr_dt_none t y' m' d' a x10 b); auto. lia.
    + apply (tr_dt_time t y' m' d' a x10 b); auto. lia.
  - injection H as <-. apply date_errors in E as ->. apply tr_dt_date; auto; [cbn [length]; lia|].
    intros y m d Sd. assert (X : Err (PParse (EInvalidValue TDate a)) = Ok (VDate y m d)) by (apply D; eauto). discriminate.
Qed.

Lemma text_errors : forall debug f32 f64 t flags l e, text_value debug f32 f64 t flags l = Err e -> text_refused t l e.
Proof.
  intros debug f32 f64 t flags l e H.
  assert (I : forall A (o : option A), or_invalid_data o = Err e -> e = PIo IoInvalidData).
  { intros A [a|] E; cbn [or_invalid_data] in E; [discriminate|now injection E as <-]. }
  destruct t; cbn [text_value] in H; try discriminate; cbv zeta in H.
  all: try (apply I in H as ->; eapply tr_integer; constructor).
  all: try (apply time_errors in H; exact H).
  all: try (apply (datetime_errors debug); [tauto|exact H]).
  - unfold float_text in H. replace e with (PIo IoInvalidData); [apply tr_float; auto|].
    destruct (utf8_decode l); [now apply I in H|now injection H as <-].
  - unfold float_text in H. replace e with (PIo IoInvalidData); [apply tr_float; auto|].
    destruct (utf8_decode l); [now apply I in H|now injection H as <-].
  - unfold date_text in H. destruct (date_text_inner l) as [[[y m] d]|x|] eqn:E; cbn [rbind] in H; try discriminate. injection H as <-.
    apply date_errors in E as ->. apply tr_date.
Qed.

Lemma refused_fun : forall t l e, text_refused t l e -> forall e', text_refused t l e' -> e = e'.
Proof.
  assert (SD : forall y m d a, spec_date y m d a -> length a = 10%nat) by (intros y m d a H; apply spec_date_len in H; unfold lenZ in H; lia).
  assert (Cut : forall y m d a a' (b b' : list Z), spec_date y m d a -> length a' = 10%nat -> a ++ b = a' ++ b' -> a = a' /\ b = b').
  { intros y m d a a' b b' H L E. apply app_inj_len in E; [exact E|]. rewrite (SD _ _ _ _ H). lia. }
  intros t l e H e' H'. inversion H; subst; inversion H'; subst; try reflexivity;
    repeat match goal with X : int_column _ _ _ _ |- _ => inversion X; subst; clear X end; try (intuition discriminate); try reflexivity.
  all: try (exfalso; match goal with A : _ = CFloat \/ _, B : _ = CDatetime \/ _ |- _ => destruct A, B; congruence end).
  all: try (exfalso; match goal with A : ~ In _ (_ ++ _), B : In _ _ |- _ => apply A; apply in_or_app; now right end).
  all: try (match goal with E : (if ?a then _ else _) ++ _ = (if ?b then _ else _) ++ _ |- _ => destruct a, b; cbn [app] in E; try congruence; subst;
    exfalso; match goal with F : false = false -> _ |- _ => now apply (F eq_refl _ eq_refl) end end).
  all: repeat match goal with X : spec_date _ _ _ ?a |- _ => lazymatch goal with Y : length a = 10%nat |- _ => fail | _ => pose proof (SD _ _ _ _ X) end end.
  all: try (exfalso; repeat match goal with X : (length (_ ++ _) < 19)%nat |- _ => rewrite app_length in X; cbn [length] in X end; lia).
  all: match goal with E : ?a ++ _ = ?b ++ _ |- _ => apply app_inj_len in E; [|lia]; destruct E as [E1 E2]; try injection E2 as ?; subst end.
  all: try reflexivity; exfalso; try contradiction.
  all: match goal with A : forall y m d, ~ spec_date y m d ?a, B : spec_date _ _ _ ?a |- _ => now apply A in B end.
Qed.

Lemma text_value_errors : forall debug f32 f64 t flags l e, bytes_ok l ->
  text_value debug f32 f64 t flags l = Err e <->
  (forall v, ~ text_form f32 f64 (negb debug) t (has_flag flags UNSIGNED_FLAG) v l) /\ ~ text_breaks debug t l /\ text_refused t l e.
Proof.
  intros debug f32 f64 t flags l e Hl. split.
  - intros H. splits.
    + intros v F. apply text_value_iff in F; [congruence|exact Hl].
    + intros B. apply (text_value_panics debug f32 f64 t flags) in B. congruence.
    + exact (text_errors _ _ _ _ _ _ _ H).
  - intros (F & B & R). destruct (text_value debug f32 f64 t flags l) as [v|x|] eqn:E.
    + apply text_value_iff in E; [|exact Hl]. now apply F in E.
    + f_equal. apply text_errors in E. eapply refused_fun; eauto.
    + apply text_value_panics in E. contradiction.
Qed.

(** ** Cells and rows *)
Lemma cell_text_slice : forall c b l, bytes_ok (c :: b) -> c <> 251 -> (cell_text (c :: b) l <-> exists r, checked_eat_lenenc_slice (c :: b) = (Ok l, r)).
Proof.
  intros c b l Hb N. split.
  - intros (pre & r & E & L & P). exists r. apply checked_slice_iff; [exact Hb|]. exists pre. auto.
  - intros (r & E). apply checked_slice_iff in E; [|exact Hb]. destruct E as (pre & L & E). exists pre, r. splits; auto. intros ->. cbn in E. congruence.
Qed.

Lemma null_no_text : forall b l, ~ cell_text (251 :: b) l.
Proof.
  intros b l (pre & r & H & L & P). apply P. clear -H L.
  destruct L as [n w L| |]; [|reflexivity|discriminate]. destruct L; cbn [app] in H; try discriminate. injection H as H _. lia.
Qed.

Lemma text_cell_errors : forall debug f32 f64 t flags b e, bytes_ok b ->
  fst (deserialize_text debug f32 f64 t flags b) = Err e <-> cell_refused f32 f64 debug t (has_flag flags UNSIGNED_FLAG) b e.
Proof.
  intros debug f32 f64 t flags b e Hb. unfold deserialize_text, cell_refused. destruct b as [|c b].
  - assert (X : forall l, ~ cell_text [] l).
    { intros l (pre & r & H & L & _). destruct pre; [|discriminate]. inversion L; subst. inversion H0. }
    split.
    + intros H. left. splits; [discriminate|exact X|]. now injection H as <-.
    + intros [(_ & _ & ->)|(l & C & _)]; [reflexivity|]. now apply X in C.
  - destruct (Z.eqb_spec c 251) as [-> | N].
    + erewrite pbind_ok by apply skip_cons. split; [discriminate|].
      intros [(A & _)|(l & C & _)]; [now elim (A b)|]. now apply null_no_text in C.
    + assert (B : forall l r, checked_eat_lenenc_slice (c :: b) = (Ok l, r) -> bytes_ok l).
      { intros l r E. apply checked_slice_iff in E; [|exact Hb]. destruct E as (pre & _ & E). rewrite E in Hb. unfold bytes_ok in *. rewrite !Forall_app in Hb. tauto. }
      unfold pbind. destruct (checked_eat_lenenc_slice (c :: b)) as [[l|x|] r] eqn:E.
      * specialize (B l r eq_refl). unfold plift. cbn [fst]. rewrite text_value_errors by exact B.
        assert (C : forall l', cell_text (c :: b) l' <-> l' = l).
        { intros l'. rewrite cell_text_slice by assumption. rewrite E. split; [intros (r' & X); congruence|intros ->; eauto]. }
        split.
        -- intros H. right. exists l. split; [now apply C|exact H].
        -- intros [(_ & X & _)|(l' & X & H)]; [elim (X l); now apply C|]. apply C in X as ->. exact H.
      * cbn [fst]. assert (C : forall l', ~ cell_text (c :: b) l').
        { intros l' X. apply cell_text_slice in X; [|assumption..]. destruct X as (r' & X). congruence. }
        assert (Ex : x = ends_early) by (apply (eof_slice (c :: b)); now rewrite E). subst x. split.
        -- intros H. left. splits; [intros r' X; congruence|exact C|now injection H as <-].
        -- intros [(_ & _ & ->)|(l' & X & _)]; [reflexivity|]. now apply C in X.
      * exfalso. apply (np_checked_eat_lenenc_slice (c :: b)). now rewrite E.
Qed.

Lemma text_row_errors : forall debug f32 f64 cols b e, bytes_ok b ->
  fst (text_values debug f32 f64 cols b) = Err e <->
  exists before c after vs w r, cols = before ++ c :: after /\ b = w ++ r /\
    text_cells f32 f64 (negb debug) (map sig_of before) vs w /\
    cell_refused f32 f64 debug (col_type c) (has_flag (col_flags c) UNSIGNED_FLAG) r e.
Proof.
  intros debug f32 f64. induction cols as [|c cols IH]; intros b e Hb; cbn [text_values].
  - split; [discriminate|]. intros (before & c & after & vs & w & r & H & _). destruct before; discriminate.
  - split.
    + intros H. unfold pbind at 1 in H. destruct (deserialize_text debug f32 f64 (col_type c) (col_flags c) b) as [[v|x|] b1] eqn:E.
      * unfold pbind in H. destruct (text_values debug f32 f64 cols b1) as [[vs|x|] b2] eqn:E2; try discriminate.
        assert (B1 : bytes_ok b1).
        { apply text_cell_iff in E; [|exact Hb]. destruct E as [(_ & ->) | (? & ? & -> & _)];
            [now inversion Hb | unfold bytes_ok in *; rewrite !Forall_app in Hb; tauto]. }
        pose proof (proj1 (IH b1 x B1)) as K. rewrite E2 in K. destruct (K eq_refl) as (before & c' & after & vs & w & r & -> & -> & W & R).
        cbn [fst] in H. injection H as <-.
        apply text_cell_iff in E; [|exact Hb]. destruct E as [(-> & ->) | (pre1 & l1 & -> & L1 & P1 & F1)].
        -- exists (c :: before), c', after, (VNull :: vs), (251 :: w), r. splits; auto. now constructor.
        -- exists (c :: before), c', after, (v :: vs), (pre1 ++ l1 ++ w), r. splits; auto; [now rewrite <- !app_assoc | now constructor].
      * cbn [fst] in H. injection H as <-. exists [], c, cols, [], [], b. splits; auto; [constructor|].
        apply text_cell_errors; [exact Hb|]. now rewrite E.
      * discriminate.
    + intros (before & c' & after & vs & w & r & E & -> & W & R). destruct before as [|c0 before].
      * injection E as <- <-. inversion W; subst. cbn [app] in *. unfold pbind at 1.
        apply (text_cell_errors debug f32 f64 (col_type c) (col_flags c)) in R; [|exact Hb].
        destruct (deserialize_text debug f32 f64 (col_type c) (col_flags c) r) as [[v|x|] b1]; cbn [fst] in *; [discriminate|congruence|discriminate].
      * injection E as <- ->. cbn [map] in W.
        assert (G : exists b1 v, deserialize_text debug f32 f64 (col_type c) (col_flags c) (w ++ r) = (Ok v, b1) /\
          bytes_ok b1 /\ exists vs1 w1, b1 = w1 ++ r /\ text_cells f32 f64 (negb debug) (map sig_of before) vs1 w1).
        { inversion W as [|t u cs vs1 w1 W1|t u cs v vs1 l1 pre1 w1 F1 L1 P1 W1]; subst.
          - exists (w1 ++ r), VNull. split; [apply text_cell_iff; auto|]. split; [now inversion Hb | eauto].
          - exists (w1 ++ r), v. split; [|split; [|eauto]].
            + apply text_cell_iff; [exact Hb|]. right. exists pre1, l1. rewrite <- !app_assoc. eauto.
            + unfold bytes_ok in *. rewrite !Forall_app in *. tauto. }
        destruct G as (b1 & v & E1 & B1 & vs1 & w1 & Eb & W1). erewrite pbind_ok by exact E1. unfold pbind.
        assert (K : fst (text_values debug f32 f64 (before ++ c' :: after) b1) = Err e)
          by (apply (IH b1 e B1); exists before, c', after, vs1, w1, r; auto 8).
        destruct (text_values debug f32 f64 (before ++ c' :: after) b1) as [[x|x|] b2]; cbn [fst] in *; [discriminate|congruence|discriminate].
Qed.
