(** Lemmas for C105: exactly which packets are read as rows. *)
From Coq Require Import ZArith List Bool Lia.
From Verif Require Import Base BaseFacts Types Utf8 ParseBuf BufMut Spec_Wire ParseBuf_proofs ValueBin NullBitmap NullBitmap_proofs
  Packets Spec_Conv Spec_Packets Packets_proofs ValueText Spec_Stmt Spec_Text ValueText_proofs Rows Rows_proofs
  Spec_TextForms TextForms_proofs Properties_TextForms Framing_proofs Report_proofs Spec_RowForms.
Import ListNotations.
Open Scope Z_scope.

(** ** Texts *)

(** The two builds differ in fractions of more than six digits only. *)
Lemma time_inner_builds : forall l, time_text_inner true l = time_text_inner false l \/
  (time_text_inner true l = Panic /\ exists t, time_text_inner false l = Ok t).
Proof.
  intros l. unfold time_text_inner. destruct (position 58 l) as [c|]; [|auto].
  destruct (lenZ l <? c + 6); [auto|]. destruct (negb (at_ l (c + 3) =? 58)); [auto|].
  destruct (or_invalid (btou 4294967295 (slice l 0 c)) TTime l) as [h|e|]; cbn [rbind]; auto.
  destruct (or_invalid (btou 255 (slice l (c + 1) (c + 3))) TTime l) as [m|e|]; cbn [rbind]; auto.
  destruct (or_invalid (btou 255 (slice l (c + 4) (c + 6))) TTime l) as [s|e|]; cbn [rbind]; auto.
  destruct (lenZ l >? c + 7); cbn [rbind]; [|auto]. destruct (negb (at_ l (c + 6) =? 46)); cbn [rbind]; [auto|].
  destruct (or_invalid (btou 4294967295 (dropZ (c + 7) l)) TTime l) as [u|e|]; cbn [rbind]; auto.
  unfold scale_micros. destruct (lenZ (dropZ (c + 7) l) <=? 6); cbn [rbind]; [auto|]. right. eauto.
Qed.

Lemma time_builds : forall l, time_text true l = time_text false l \/
  (time_text true l = Panic /\ exists v, time_text false l = Ok v).
Proof.
  intros [|c r]; [now left|]. unfold time_text. cbv zeta.
  destruct (time_inner_builds (if c =? 45 then r else c :: r)) as [-> | (-> & t & ->)]; [now left|].
  right. split; [reflexivity|]. destruct t as [[[[? ?] ?] ?] ?]. cbn [rbind]. eauto.
Qed.

Lemma datetime_builds : forall l, datetime_text true l = datetime_text false l \/
  (datetime_text true l = Panic /\ exists v, datetime_text false l = Ok v).
Proof.
  intros l. unfold datetime_text. destruct (lenZ l <? 19); [now left|].
  pose proof (date_inner_np (takeZ 10 l)). destruct (date_text_inner (takeZ 10 l)) as [[[y m] d]|e|]; cbn [rbind]; try (now left).
  destruct (time_inner_builds (dropZ 11 l)) as [-> | (-> & t & ->)]; [now left|].
  right. split; [reflexivity|]. destruct t as [[[[? ?] ?] ?] ?]. cbn [rbind]. eauto.
Qed.

Lemma time_text_np : forall l, time_text false l <> Panic.
Proof. intros l. apply (text_value_np false (fun _ => None) (fun _ => None) CTime 0 l); [cbn; intuition congruence | now left]. Qed.

Lemma datetime_text_np : forall l, datetime_text false l <> Panic.
Proof. intros l. apply (text_value_np false (fun _ => None) (fun _ => None) CDatetime 0 l); [cbn; intuition congruence | now left]. Qed.

Lemma time_panics : forall l, time_text true l = Panic <-> (exists v, time_form true v l) /\ forall v, ~ time_form false v l.
Proof.
  intros l. pose proof (time_iff true l) as T. pose proof (time_iff false l) as F. cbn [negb] in T, F. split.
  - intros H. destruct (time_builds l) as [E | (_ & v & E)]; [rewrite H in E; now apply eq_sym, time_text_np in E|].
    split; [exists v; now apply F|]. intros v' K. apply T in K. congruence.
  - intros ((v & K) & N). apply F in K. destruct (time_builds l) as [E | (E & _)]; [|exact E].
    exfalso. rewrite K in E. apply T in E. now apply N in E.
Qed.

Lemma datetime_panics : forall l,
  datetime_text true l = Panic <-> (exists v, datetime_form true v l) /\ forall v, ~ datetime_form false v l.
Proof.
  intros l. pose proof (datetime_iff true l) as T. pose proof (datetime_iff false l) as F. cbn [negb] in T, F. split.
  - intros H. destruct (datetime_builds l) as [E | (_ & v & E)]; [rewrite H in E; now apply eq_sym, datetime_text_np in E|].
    split; [exists v; now apply F|]. intros v' K. apply T in K. congruence.
  - intros ((v & K) & N). apply F in K. destruct (datetime_builds l) as [E | (E & _)]; [|exact E].
    exfalso. rewrite K in E. apply T in E. now apply N in E.
Qed.

Lemma column_type_eq_dec : forall a b : column_type, {a = b} + {a <> b}.
Proof. decide equality. Qed.

Lemma text_value_panics : forall debug f32 f64 t flags l,
  text_value debug f32 f64 t flags l = Panic <-> text_breaks debug t l.
Proof.
  intros debug f32 f64 t flags l. split.
  - intros H. destruct (in_dec column_type_eq_dec t [CNull; CLongBlob; CNewDate; CTimestamp2; CDatetime2; CTime2; CTypedArray; CUnknown])
      as [I | N]; [now apply tb_type|].
    destruct debug.
    2:{ exfalso. revert H. apply text_value_np; [exact N | now left]. }
    destruct (in_dec column_type_eq_dec t [CTime; CDatetime; CTimestamp]) as [I | C].
    2:{ exfalso. revert H. apply text_value_np; [exact N | now right]. }
    cbn [In] in I. destruct I as [<- | [<- | [<- | []]]]; cbn [text_value] in H.
    + apply time_panics in H. destruct H as ((v & K) & M). now apply (tb_time true l v).
    + apply datetime_panics in H. destruct H as ((v & K) & M). apply (tb_datetime true CDatetime l v); auto.
    + apply datetime_panics in H. destruct H as ((v & K) & M). apply (tb_datetime true CTimestamp l v); auto.
  - intros H. destruct H as [t l I | l v D K M | t l v D I K M].
    + cbn [In] in I. repeat destruct I as [<- | I]; try reflexivity. contradiction.
    + subst debug. cbn [text_value]. apply time_panics. eauto.
    + subst debug. destruct I as [-> | ->]; cbn [text_value]; apply datetime_panics; eauto.
Qed.

Lemma float_text_iff : forall f mk l v, bytes_ok l ->
  float_text f mk l = Ok v <-> exists s x, utf8_text s l /\ f s = Some x /\ v = mk x.
Proof.
  intros f mk l v Hl. unfold float_text. split.
  - destruct (utf8_decode l) as [s|] eqn:E; [|discriminate]. unfold or_invalid_data. destruct (f s) as [x|] eqn:Ef; [|discriminate].
    intros [= <-]. exists s, x. split; [now apply decode_text|]. auto.
  - intros (s & x & T & F & ->). rewrite (from_utf8_text _ _ T), F. reflexivity.
Qed.

Ltac no_form :=
  match goal with
  | X : int_column _ _ _ _ |- _ => inversion X
  | X : str_type _ |- _ => inversion X
  | X : _ = _ \/ _ = _ |- _ => destruct X; discriminate
  end.

Lemma text_value_iff : forall debug f32 f64 t flags l v, bytes_ok l ->
  text_value debug f32 f64 t flags l = Ok v <-> text_form f32 f64 (negb debug) t (has_flag flags UNSIGNED_FLAG) v l.
Proof.
  intros debug f32 f64 t flags l v Hl.
  assert (I : forall k i u, int_column t k i u ->
    text_value debug f32 f64 t flags l = Ok v <-> text_form f32 f64 (negb debug) t (has_flag flags UNSIGNED_FLAG) v l).
  { intros k i u C. rewrite (C91_integer debug f32 f64 t k i u flags l v).
    2:{ destruct C; cbn; tauto. }
    split.
    - intros H. destruct (has_flag flags UNSIGNED_FLAG).
      + destruct H as (n & -> & B & T). now apply (tf_unsigned _ _ _ t k i u).
      + destruct H as (n & -> & B & T). now apply (tf_signed _ _ _ t k i u).
    - intros H. destruct (has_flag flags UNSIGNED_FLAG); destruct C; inversion H; subst;
        repeat match goal with
        | X : int_column _ _ _ _ |- _ => inversion X; subst; clear X
        | X : str_type _ |- _ => inversion X; fail
        | X : _ = _ \/ _ = _ |- _ => destruct X; discriminate
        end; eauto. }
  assert (S : str_type t -> t <> CLongBlob -> text_value debug f32 f64 t flags l = Ok (VBytes l) /\
    (text_form f32 f64 (negb debug) t (has_flag flags UNSIGNED_FLAG) v l <-> v = VBytes l)).
  { intros St N. split; [destruct St; try reflexivity; contradiction|]. split.
    - intros H. destruct St; inversion H; subst; try reflexivity;
        try match goal with X : int_column _ _ _ _ |- _ => inversion X end; match goal with X : _ = _ \/ _ = _ |- _ => destruct X; discriminate end.
    - intros ->. now apply tf_str. }
  assert (N : text_breaks debug t l -> text_value debug f32 f64 t flags l = Ok v <-> False).
  { intros B. apply (text_value_panics debug f32 f64 t flags) in B. rewrite B. split; [discriminate | contradiction]. }
  destruct t;
    try (eapply I; constructor);
    try (destruct S as (-> & ->); [constructor | discriminate | split; [now intros [= <-] | now intros ->]]);
    try (rewrite N by (apply tb_type; cbn; tauto); split; [contradiction|]; intros H; inversion H; subst;
         try match goal with X : int_column _ _ _ _ |- _ => inversion X end;
         try match goal with X : str_type _ |- _ => inversion X end; try congruence;
         match goal with X : _ = _ \/ _ = _ |- _ => destruct X; discriminate end).

  all: cbn [text_value]; clear I S N.
  - rewrite float_text_iff by assumption. split.
    + intros (s & x & T & F & ->). now apply (tf_float _ _ _ _ s).
    + intros H. inversion H; subst; try solve [no_form]. eauto.
  - rewrite float_text_iff by assumption. split.
    + intros (s & x & T & F & ->). now apply (tf_double _ _ _ _ s).
    + intros H. inversion H; subst; try solve [no_form]. eauto.
  - rewrite datetime_iff. split; [apply tf_datetime; now right|]. intros H. inversion H; subst; try solve [no_form]; assumption.
  - rewrite date_iff. split; [intros (y & m & d & -> & K); now apply tf_date|]. intros H. inversion H; subst; try solve [no_form]. eauto.
  - rewrite time_iff. split; [apply tf_time|]. intros H. inversion H; subst; try solve [no_form]; assumption.
  - rewrite datetime_iff. split; [apply tf_datetime; now left|]. intros H. inversion H; subst; try solve [no_form]; assumption.
Qed.

(** ** Text rows *)

Lemma text_cell_iff : forall debug f32 f64 t flags b v r, bytes_ok b ->
  deserialize_text debug f32 f64 t flags b = (Ok v, r) <->
  (v = VNull /\ b = 251 :: r) \/
  exists pre l, b = pre ++ l ++ r /\ loose_int (lenZ l) pre /\ pre <> [251] /\
    text_form f32 f64 (negb debug) t (has_flag flags UNSIGNED_FLAG) v l.
Proof.
  intros debug f32 f64 t flags b v r Hb. unfold deserialize_text. destruct b as [|c b].
  { split; [discriminate|]. intros [(_ & H) | (pre & l & H & L & _)]; [discriminate|].
    destruct pre; [|discriminate]. inversion L; subst. inversion H0. }
  destruct (Z.eqb_spec c 251) as [-> | N].
  - erewrite pbind_ok by apply skip_cons. split.
    + intros [= <- <-]. now left.
    + intros [(-> & [= <-]) | (pre & l & H & L & P & _)]; [reflexivity|]. exfalso. apply P. clear -H L.
      destruct L as [n w L| |]; [|reflexivity|discriminate]. destruct L; cbn [app] in H; try discriminate. injection H as H _. lia.
  - split.
    + intros H. right. apply pbind_inv in H. destruct H as (l & b1 & E & H). apply checked_slice_iff in E; [|exact Hb].
      destruct E as (pre & L & E). unfold plift in H. injection H as H <-. exists pre, l. rewrite E in Hb. split; [exact E|]. split; [exact L|].
      split; [intros ->; cbn in E; congruence|]. apply text_value_iff in H; [exact H|]. unfold bytes_ok in *. rewrite !Forall_app in Hb. tauto.
    + intros [(_ & [= -> _]) | (pre & l & E & L & P & F)]; [congruence|].
      erewrite pbind_ok by (apply checked_slice_iff; eauto). unfold plift. f_equal. apply text_value_iff; [|exact F].
      rewrite E in Hb. unfold bytes_ok in *. rewrite !Forall_app in Hb. tauto.
Qed.

Lemma text_cells_iff : forall debug f32 f64 cols b vs r, bytes_ok b ->
  text_values debug f32 f64 cols b = (Ok vs, r) <->
  exists w, b = w ++ r /\ text_cells f32 f64 (negb debug) (map sig_of cols) vs w.
Proof.
  intros debug f32 f64. induction cols as [|c cols IH]; intros b vs r Hb; cbn [text_values map].
  - split.
    + intros [= <- <-]. exists []. split; [reflexivity | constructor].
    + intros (w & -> & H). inversion H. reflexivity.
  - split.
    + intros H. apply pbind_inv in H. destruct H as (v & b1 & E & H). apply pbind_inv in H. destruct H as (vs1 & b2 & E2 & H).
      injection H as <- <-. apply text_cell_iff in E; [|exact Hb]. destruct E as [(-> & ->) | (pre & l & -> & L & P & F)].
      * apply IH in E2; [|now inversion Hb]. destruct E2 as (w & -> & W). exists (251 :: w). split; [reflexivity | now constructor].
      * apply IH in E2; [|unfold bytes_ok in *; rewrite !Forall_app in Hb; tauto]. destruct E2 as (w & -> & W). exists (pre ++ l ++ w).
        split; [now rewrite <- !app_assoc | now constructor].
    + intros (w & -> & H). inversion H as [|t u cs vs1 w1 W|t u cs v vs1 l pre w1 F L P W]; subst.
      * erewrite pbind_ok by (apply text_cell_iff; [exact Hb | now left]).
        erewrite pbind_ok by (apply IH; [now inversion Hb | eauto]). reflexivity.
      * rewrite <- !app_assoc in Hb. erewrite pbind_ok.
        2:{ apply text_cell_iff; [now rewrite <- !app_assoc|]. right. exists pre, l. rewrite <- !app_assoc. eauto. }
        erewrite pbind_ok by (apply IH; [unfold bytes_ok in *; rewrite !Forall_app in *; tauto | eauto]). reflexivity.
Qed.

Lemma text_cell_panics : forall debug f32 f64 t flags b, bytes_ok b ->
  fst (deserialize_text debug f32 f64 t flags b) = Panic <->
  exists pre l r, b = pre ++ l ++ r /\ loose_int (lenZ l) pre /\ pre <> [251] /\ text_breaks debug t l.
Proof.
  intros debug f32 f64 t flags b Hb. unfold deserialize_text. destruct b as [|c b].
  { split; [discriminate|]. intros (pre & l & r & H & L & _). destruct pre; [|discriminate]. inversion L; subst. inversion H0. }
  destruct (Z.eqb_spec c 251) as [-> | N].
  - erewrite pbind_ok by apply skip_cons. split; [discriminate|].
    intros (pre & l & r & H & L & P & _). exfalso. apply P. clear -H L.
    destruct L as [n w L| |]; [|reflexivity|discriminate]. destruct L; cbn [app] in H; try discriminate. injection H as H _. lia.
  - split.
    + unfold pbind. destruct (checked_eat_lenenc_slice (c :: b)) as [[l|e|] r] eqn:E; intros H.
      * unfold plift in H. cbn [fst] in H. apply text_value_panics in H. apply checked_slice_iff in E; [|exact Hb]. destruct E as (pre & L & E).
        exists pre, l, r. split; [exact E|]. split; [exact L|]. split; [intros ->; cbn in E; congruence | exact H].
      * discriminate.
      * exfalso. apply (np_checked_eat_lenenc_slice (c :: b)). now rewrite E.
    + intros (pre & l & r & E & L & P & B). erewrite pbind_ok by (apply checked_slice_iff; eauto).
      unfold plift. cbn [fst]. now apply text_value_panics.
Qed.

Lemma text_row_panics : forall debug f32 f64 cols b, bytes_ok b ->
  fst (text_values debug f32 f64 cols b) = Panic <->
  exists before c after vs w pre l r, cols = before ++ c :: after /\ b = w ++ pre ++ l ++ r /\
    text_cells f32 f64 (negb debug) (map sig_of before) vs w /\ loose_int (lenZ l) pre /\ pre <> [251] /\
    text_breaks debug (col_type c) l.
Proof.
  intros debug f32 f64. induction cols as [|c cols IH]; intros b Hb; cbn [text_values].
  - split; [discriminate|]. intros (before & c & after & vs & w & pre & l & r & H & _). destruct before; discriminate.
  - split.
    + intros H. unfold pbind at 1 in H. destruct (deserialize_text debug f32 f64 (col_type c) (col_flags c) b) as [[v|e|] b1] eqn:E.
      * unfold pbind in H. destruct (text_values debug f32 f64 cols b1) as [[vs|e|] b2] eqn:E2; try discriminate.
        assert (B1 : bytes_ok b1).
        { apply text_cell_iff in E; [|exact Hb]. destruct E as [(_ & ->) | (? & ? & -> & _)];
            [now inversion Hb | unfold bytes_ok in *; rewrite !Forall_app in Hb; tauto]. }
        pose proof (proj1 (IH b1 B1)) as K. rewrite E2 in K. destruct (K eq_refl) as (before & c' & after & vs & w & pre & l & r & -> & -> & W & L & P & B).
        apply text_cell_iff in E; [|exact Hb]. destruct E as [(-> & ->) | (pre1 & l1 & -> & L1 & P1 & F1)].
        -- exists (c :: before), c', after, (VNull :: vs), (251 :: w), pre, l, r. splits; auto. now constructor.
        -- exists (c :: before), c', after, (v :: vs), (pre1 ++ l1 ++ w), pre, l, r. splits; auto; [now rewrite <- !app_assoc | now constructor].
      * discriminate.
      * assert (K : fst (deserialize_text debug f32 f64 (col_type c) (col_flags c) b) = Panic) by now rewrite E.
        apply text_cell_panics in K; [|exact Hb]. destruct K as (pre & l & r & -> & L & P & B).
        exists [], c, cols, [], [], pre, l, r. splits; auto. constructor.
    + intros (before & c' & after & vs & w & pre & l & r & E & -> & W & L & P & B). destruct before as [|c0 before].
      * injection E as <- <-. inversion W; subst. cbn [app] in *. unfold pbind at 1.
        assert (K : fst (deserialize_text debug f32 f64 (col_type c) (col_flags c) (pre ++ l ++ r)) = Panic)
          by (apply text_cell_panics; [exact Hb | exists pre, l, r; auto]).
        destruct (deserialize_text debug f32 f64 (col_type c) (col_flags c) (pre ++ l ++ r)) as [[v|e|] b1]; cbn [fst] in *; auto; discriminate.
      * injection E as <- ->. cbn [map] in W.
        assert (G : exists b1 v, deserialize_text debug f32 f64 (col_type c) (col_flags c) (w ++ pre ++ l ++ r) = (Ok v, b1) /\
          bytes_ok b1 /\ exists vs1 w1, b1 = w1 ++ pre ++ l ++ r /\ text_cells f32 f64 (negb debug) (map sig_of before) vs1 w1).
        { inversion W as [|t u cs vs1 w1 W1|t u cs v vs1 l1 pre1 w1 F1 L1 P1 W1]; subst.
          - exists (w1 ++ pre ++ l ++ r), VNull. split; [apply text_cell_iff; auto|]. split; [now inversion Hb | eauto].
          - exists (w1 ++ pre ++ l ++ r), v. split; [|split; [|eauto]].
            + apply text_cell_iff; [exact Hb|]. right. exists pre1, l1. rewrite <- !app_assoc. eauto.
            + unfold bytes_ok in *. rewrite !Forall_app in *. tauto. }
        destruct G as (b1 & v & E1 & B1 & vs1 & w1 & Eb & W1). erewrite pbind_ok by exact E1. unfold pbind.
        assert (K : fst (text_values debug f32 f64 (before ++ c' :: after) b1) = Panic)
          by (apply (IH b1 B1); exists before, c', after, vs1, w1, pre, l, r; auto 8).
        destruct (text_values debug f32 f64 (before ++ c' :: after) b1) as [[x|e|] b2]; cbn [fst] in *; auto; discriminate.
Qed.

(** ** Binary values *)

Lemma checked_sint_iff : forall k b n r, (0 < k)%nat -> bytes_ok b ->
  checked_eat_int k b = (Ok n, r) <-> - half k <= n < half k /\ b = wire_uint k n ++ r.
Proof.
  intros k b n r Hk Hb. unfold half. split.
  - intros H. unfold checked_eat_int in H. apply pbind_inv in H. destruct H as (x & b1 & E & H). injection H as <- <-.
    apply checked_eat_inv in E; [|lia]. destruct E as (-> & L). unfold bytes_ok in Hb. rewrite Forall_app in Hb. destruct Hb as (Hx & _).
    pose proof (le_val_range _ Hx) as R. rewrite L in R. split; [exact (to_signed_range k _ Hk R)|]. f_equal. rewrite wire_uint_le.
    transitivity (le_bytes k (le_val x)).
    + replace k with (length x) by (unfold lenZ in L; lia). symmetry. now apply le_bytes_val.
    + apply le_bytes_mod. unfold to_signed. destruct (le_val x <? 256 ^ Z.of_nat k / 2).
      * rewrite Z.sub_diag. apply Z.mod_0_l. pose proof (Z.pow_pos_nonneg 256 (Z.of_nat k)). lia.
      * replace (le_val x - (le_val x - 256 ^ Z.of_nat k)) with (256 ^ Z.of_nat k) by ring. apply Z.mod_same.
        pose proof (Z.pow_pos_nonneg 256 (Z.of_nat k)). lia.
  - intros (R & ->). rewrite wire_uint_le. now apply checked_eat_int_app.
Qed.

Lemma eat_iff : forall k b n r, bytes_ok b ->
  eat_uint k b = (Ok n, r) <-> 0 <= n < 256 ^ Z.of_nat k /\ b = wire_uint k n ++ r.
Proof.
  intros k b n r Hb. split.
  - intros H. apply eat_uint_inv in H; [|exact Hb]. tauto.
  - intros (R & ->). now apply eat_wire.
Qed.

Lemma wire_ok : forall k n r, bytes_ok (wire_uint k n ++ r) -> bytes_ok r.
Proof. intros k n r H. unfold bytes_ok in *. rewrite Forall_app in H. tauto. Qed.

Ltac eats H B :=
  let n := fresh "n" in let b := fresh "b" in let E := fresh "E" in let R := fresh "R" in
  apply pbind_inv in H; destruct H as (n & b & E & H);
  apply eat_iff in E; [|exact B]; destruct E as (R & ->); apply wire_ok in B.

Lemma len_wire : forall k n r, lenZ (wire_uint k n ++ r) = Z.of_nat k + lenZ r.
Proof. intros. now rewrite lenZ_app, wire_len. Qed.

Lemma date_bin_iff : forall u b v r, bytes_ok b ->
  deserialize_date b = (Ok v, r) <-> exists w, b = w ++ r /\ bin_form CDate u v w r.
Proof.
  intros u b v r Hb. unfold deserialize_date. split.
  - intros H. apply pbind_inv in H. destruct H as (n & b1 & E & H). apply checked_uint_iff in E; [|exact Hb]. destruct E as (R & ->).
    pose proof (wire_ok _ _ _ Hb) as B. change (256 ^ Z.of_nat 1) with 256 in R. rewrite wire_1 by exact R.
    apply pbind_inv in H. destruct H as (u0 & b2 & E & H). apply check_len_inv in E. destruct E as (-> & L).
    destruct (n >=? 4) eqn:Ge.
    + eats H B. eats H B. eats H B. injection H as <- <-. rewrite !len_wire in L.
      exists ([n] ++ wire_uint 2 n0 ++ [n1; n2]). split.
      { rewrite (wire_1 n1), (wire_1 n2) by assumption. cbn [app]. now rewrite <- !app_assoc. }
      apply bf_date; auto; unfold lenZ in *; lia.
    + injection H as <- <-. exists [n]. split; [reflexivity|]. apply bf_date_none; unfold lenZ in *; lia.
  - intros (w & -> & H). inversion H; subst; try solve [no_form].
    + cbn [app]. erewrite pbind_ok by apply checked_eat_u8_cons. rewrite pbind_ok with (a := tt) (b' := r) by (apply check_len_ok; unfold lenZ; lia).
      replace (n >=? 4) with false by (symmetry; rewrite Z.geb_leb; apply Z.leb_gt; lia). reflexivity.
    + cbn [app]. erewrite pbind_ok by apply checked_eat_u8_cons. rewrite <- app_assoc. cbn [app].
      erewrite pbind_ok by (apply check_len_ok; rewrite len_wire; unfold lenZ; cbn [length]; lia).
      replace (n >=? 4) with true by (symmetry; rewrite Z.geb_leb; apply Z.leb_le; lia).
      erewrite pbind_ok by (apply eat_wire; assumption).
      erewrite pbind_ok by apply eat_u8_cons. erewrite pbind_ok by apply eat_u8_cons. reflexivity.
Qed.

Lemma geb_true : forall a b, b <= a -> (a >=? b) = true.
Proof. intros a b H. rewrite Z.geb_leb. now apply Z.leb_le. Qed.
Lemma geb_false : forall a b, a < b -> (a >=? b) = false.
Proof. intros a b H. rewrite Z.geb_leb. now apply Z.leb_gt. Qed.

Lemma datetime_bin_iff : forall t u b v r, t = CDatetime \/ t = CTimestamp -> bytes_ok b ->
  deserialize_datetime b = (Ok v, r) <-> exists w, b = w ++ r /\ bin_form t u v w r.
Proof.
  intros t u b v r Ht Hb. unfold deserialize_datetime. split.
  - intros H. apply pbind_inv in H. destruct H as (n & b1 & E & H). apply checked_uint_iff in E; [|exact Hb]. destruct E as (R & ->).
    pose proof (wire_ok _ _ _ Hb) as B. change (256 ^ Z.of_nat 1) with 256 in R. rewrite wire_1 by exact R.
    apply pbind_inv in H. destruct H as (u0 & b2 & E & H). apply check_len_inv in E. destruct E as (-> & L).
    apply pbind_inv in H. destruct H as (date & b2 & Ed & H).
    destruct (Z.lt_ge_cases n 4) as [L4 | G4].
    { rewrite (geb_false n 4) in Ed by exact L4. injection Ed as <- <-.
      rewrite (geb_false n 7) in H by lia. replace (n =? 11) with false in H by (symmetry; apply Z.eqb_neq; lia).
      injection H as <- <-. exists [n]. split; [reflexivity|]. apply bf_dt_none; auto; unfold lenZ in *; lia. }
    rewrite (geb_true n 4) in Ed by exact G4. eats Ed B. eats Ed B. eats Ed B. injection Ed as <- <-.
    rewrite (wire_1 n1), (wire_1 n2) by assumption. rewrite !len_wire in L.
    destruct (Z.lt_ge_cases n 7) as [L7 | G7].
    { rewrite (geb_false n 7) in H by exact L7. replace (n =? 11) with false in H by (symmetry; apply Z.eqb_neq; lia).
      injection H as <- <-. exists ([n] ++ wire_uint 2 n0 ++ [n1; n2]). split; [cbn [app]; now rewrite <- !app_assoc|].
      apply bf_dt_date; auto; unfold lenZ in *; lia. }
    apply pbind_inv in H. destruct H as (time & b4 & Et & H). rewrite (geb_true n 7) in Et by exact G7.
    eats Et B. eats Et B. eats Et B. injection Et as <- <-.
    rewrite (wire_1 n3), (wire_1 n4), (wire_1 n5) by assumption. rewrite !len_wire in L.
    destruct (Z.eqb_spec n 11) as [-> | N].
    + eats H B. injection H as <- <-.
      exists ([11] ++ wire_uint 2 n0 ++ [n1; n2; n3; n4; n5] ++ wire_uint 4 n). split; [cbn [app]; now rewrite <- !app_assoc|].
      apply bf_dt_full; auto.
    + injection H as <- <-. exists ([n] ++ wire_uint 2 n0 ++ [n1; n2; n3; n4; n5]). split; [cbn [app]; now rewrite <- !app_assoc|].
      apply bf_dt_time; auto; unfold lenZ in *; lia.
  - intros (w & -> & H). destruct H; try solve [destruct Ht; congruence]; try solve [destruct Ht; subst; no_form];
      cbn [app]; (erewrite pbind_ok by apply checked_eat_u8_cons); rewrite <- ?app_assoc; cbn [app].
    + erewrite pbind_ok by (apply check_len_ok; unfold lenZ; lia).
      rewrite (geb_false n 4), (geb_false n 7) by lia. replace (n =? 11) with false by (symmetry; apply Z.eqb_neq; lia). reflexivity.
    + erewrite pbind_ok by (apply check_len_ok; rewrite len_wire; unfold lenZ; cbn [length]; lia).
      rewrite (geb_true n 4), (geb_false n 7) by lia. replace (n =? 11) with false by (symmetry; apply Z.eqb_neq; lia).
      erewrite pbind_ok; [|erewrite pbind_ok by (apply eat_wire; assumption);
        erewrite pbind_ok by apply eat_u8_cons; erewrite pbind_ok by apply eat_u8_cons; reflexivity]. reflexivity.
    + erewrite pbind_ok by (apply check_len_ok; rewrite len_wire; unfold lenZ; cbn [length]; lia).
      rewrite (geb_true n 4), (geb_true n 7) by lia. replace (n =? 11) with false by (symmetry; now apply Z.eqb_neq).
      erewrite pbind_ok.
      2:{ erewrite pbind_ok by (apply eat_wire; assumption). erewrite pbind_ok by apply eat_u8_cons. erewrite pbind_ok by apply eat_u8_cons. reflexivity. }
      erewrite pbind_ok; [|erewrite pbind_ok by apply eat_u8_cons; erewrite pbind_ok by apply eat_u8_cons;
        erewrite pbind_ok by apply eat_u8_cons; reflexivity]. reflexivity.
    + erewrite pbind_ok by (apply check_len_ok; rewrite len_wire; unfold lenZ; cbn [length]; rewrite app_length, wire_uint_le, le_bytes_length; lia).
      change (11 >=? 4) with true. change (11 >=? 7) with true. change (11 =? 11) with true. cbn match.
      erewrite pbind_ok.
      2:{ erewrite pbind_ok by (apply eat_wire; assumption). erewrite pbind_ok by apply eat_u8_cons. erewrite pbind_ok by apply eat_u8_cons. reflexivity. }
      erewrite pbind_ok.
      2:{ erewrite pbind_ok by apply eat_u8_cons. erewrite pbind_ok by apply eat_u8_cons. erewrite pbind_ok by apply eat_u8_cons. reflexivity. }
      erewrite pbind_ok by (apply eat_wire; assumption). reflexivity.
Qed.

Lemma time_bin_iff : forall u b v r, bytes_ok b ->
  deserialize_time b = (Ok v, r) <-> exists w, b = w ++ r /\ bin_form CTime u v w r.
Proof.
  intros u b v r Hb. unfold deserialize_time. split.
  - intros H. apply pbind_inv in H. destruct H as (n & b1 & E & H). apply checked_uint_iff in E; [|exact Hb]. destruct E as (R & ->).
    pose proof (wire_ok _ _ _ Hb) as B. change (256 ^ Z.of_nat 1) with 256 in R. rewrite wire_1 by exact R.
    apply pbind_inv in H. destruct H as (u0 & b2 & E & H). apply check_len_inv in E. destruct E as (-> & L).
    apply pbind_inv in H. destruct H as (t & b2 & Et & H).
    destruct (Z.lt_ge_cases n 8) as [L8 | G8].
    { rewrite (geb_false n 8) in Et by exact L8. injection Et as <- <-.
      replace (n =? 12) with false in H by (symmetry; apply Z.eqb_neq; lia).
      injection H as <- <-. exists [n]. split; [reflexivity|]. apply bf_time_none; unfold lenZ in *; lia. }
    rewrite (geb_true n 8) in Et by exact G8. eats Et B. eats Et B. eats Et B. eats Et B. eats Et B. injection Et as <- <-.
    rewrite (wire_1 n0), (wire_1 n2), (wire_1 n3), (wire_1 n4) by assumption. rewrite !len_wire in L.
    destruct (Z.eqb_spec n 12) as [-> | N].
    + eats H B. injection H as <- <-.
      exists ([12; n0] ++ wire_uint 4 n1 ++ [n2; n3; n4] ++ wire_uint 4 n). split; [cbn [app]; now rewrite <- !app_assoc|].
      now apply bf_time_full.
    + injection H as <- <-. exists ([n; n0] ++ wire_uint 4 n1 ++ [n2; n3; n4]). split; [cbn [app]; now rewrite <- !app_assoc|].
      apply bf_time; auto; unfold lenZ in *; lia.
  - intros (w & -> & H). inversion H; subst; try solve [no_form];
      cbn [app]; (erewrite pbind_ok by apply checked_eat_u8_cons); rewrite <- ?app_assoc; cbn [app].
    + erewrite pbind_ok by (apply check_len_ok; unfold lenZ; lia).
      rewrite (geb_false n 8) by lia. replace (n =? 12) with false by (symmetry; apply Z.eqb_neq; lia). reflexivity.
    + erewrite pbind_ok by (apply check_len_ok; change (sign :: ?x) with ([sign] ++ x); rewrite lenZ_app, len_wire; unfold lenZ; cbn [length]; lia).
      rewrite (geb_true n 8) by lia. replace (n =? 12) with false by (symmetry; now apply Z.eqb_neq).
      erewrite pbind_ok; [|erewrite pbind_ok by apply eat_u8_cons; erewrite pbind_ok by (apply eat_wire; assumption);
        erewrite pbind_ok by apply eat_u8_cons; erewrite pbind_ok by apply eat_u8_cons; erewrite pbind_ok by apply eat_u8_cons; reflexivity]. reflexivity.
    + erewrite pbind_ok by (apply check_len_ok; unfold lenZ; cbn [length]; rewrite app_length; cbn [length];
        rewrite app_length, !wire_uint_le, !le_bytes_length; lia).
      change (12 >=? 8) with true. change (12 =? 12) with true. cbn match.
      erewrite pbind_ok.
      2:{ erewrite pbind_ok by apply eat_u8_cons. erewrite pbind_ok by (apply eat_wire; assumption).
          erewrite pbind_ok by apply eat_u8_cons. erewrite pbind_ok by apply eat_u8_cons. erewrite pbind_ok by apply eat_u8_cons. reflexivity. }
      erewrite pbind_ok by (apply eat_wire; assumption). reflexivity.
Qed.

Lemma num_bin_iff : forall t k i u uns b v r, int_column t k i u -> bytes_ok b ->
  deserialize_num k i u uns b = (Ok v, r) <-> exists w, b = w ++ r /\ bin_form t uns v w r.
Proof.
  intros t k i u uns b v r C Hb. assert (Hk : (0 < k)%nat) by (destruct C; lia). unfold deserialize_num. split.
  - intros H. destruct uns; apply pbind_inv in H; destruct H as (n & b1 & E & H); injection H as <- <-.
    + apply checked_uint_iff in E; [|exact Hb]. destruct E as (R & ->). exists (wire_uint k n). split; [reflexivity|]. now apply (bf_unsigned t k i u).
    + apply checked_sint_iff in E; [|exact Hk|exact Hb]. destruct E as (R & ->). exists (wire_uint k n). split; [reflexivity|].
      now apply (bf_signed t k i u).
  - intros (w & -> & H). destruct C; inversion H; subst; try solve [no_form];
      match goal with X : int_column _ _ _ _ |- _ => inversion X; subst end;
      try (erewrite pbind_ok by (apply checked_uint_iff; [exact Hb|]; split; [eassumption | reflexivity]); reflexivity);
      (erewrite pbind_ok by (apply checked_sint_iff; [exact Hk | exact Hb |]; split; [eassumption | reflexivity]); reflexivity).
Qed.

Lemma bin_value_iff : forall t flags b v r, bytes_ok b ->
  deserialize_bin t flags b = (Ok v, r) <-> exists w, b = w ++ r /\ bin_form t (has_flag flags UNSIGNED_FLAG) v w r.
Proof.
  intros t flags b v r Hb.
  assert (S : str_type t -> pbind checked_eat_lenenc_slice (fun x => pret (VBytes x)) b = (Ok v, r) <->
    exists w, b = w ++ r /\ bin_form t (has_flag flags UNSIGNED_FLAG) v w r).
  { intros St. split.
    - intros H. apply pbind_inv in H. destruct H as (s & b1 & E & H). injection H as <- <-. apply checked_slice_iff in E; [|exact Hb].
      destruct E as (l & L & ->). exists (l ++ s). split; [now rewrite <- app_assoc|]. now apply bf_str.
    - intros (w & -> & H). assert (E : exists s l, w = l ++ s /\ loose_int (Z.of_nat (length s)) l /\ v = VBytes s).
      { destruct St; inversion H; subst; try solve [no_form]; eauto; match goal with X : int_column _ _ _ _ |- _ => inversion X end. }
      destruct E as (s & l & -> & L & ->). rewrite <- app_assoc in *. erewrite pbind_ok by (apply checked_slice_iff; [exact Hb|]; eauto). reflexivity. }
  destruct t; cbn [deserialize_bin];
    try (apply S; constructor);
    try (eapply num_bin_iff; [constructor | exact Hb]);
    try (now apply date_bin_iff); try (now apply time_bin_iff); try (apply datetime_bin_iff; auto);
    try (split; [discriminate|]; intros (w & _ & H); inversion H; subst; no_form).
  - split.
    + intros H. apply pbind_inv in H. destruct H as (n & b1 & E & H). injection H as <- <-. apply checked_uint_iff in E; [|exact Hb].
      destruct E as (R & ->). exists (wire_uint 4 n). split; [reflexivity | now apply bf_float].
    + intros (w & -> & H). inversion H; subst; try solve [no_form].
      erewrite pbind_ok by (apply checked_uint_iff; [exact Hb|]; split; [eassumption | reflexivity]). reflexivity.
  - split.
    + intros H. apply pbind_inv in H. destruct H as (n & b1 & E & H). injection H as <- <-. apply checked_uint_iff in E; [|exact Hb].
      destruct E as (R & ->). exists (wire_uint 8 n). split; [reflexivity | now apply bf_double].
    + intros (w & -> & H). inversion H; subst; try solve [no_form].
      erewrite pbind_ok by (apply checked_uint_iff; [exact Hb|]; split; [eassumption | reflexivity]). reflexivity.
  - split.
    + intros [= <- <-]. exists []. split; [reflexivity | constructor].
    + intros (w & -> & H). inversion H; subst; try solve [no_form]. reflexivity.
Qed.

Lemma bin_value_panics : forall t flags b, fst (deserialize_bin t flags b) = Panic <-> bin_breaks t.
Proof.
  intros t flags b. split; [|apply bin_unsupported_panics]. intros H.
  destruct (in_dec column_type_eq_dec t [CNewDate; CTimestamp2; CDatetime2; CTime2; CTypedArray; CUnknown]) as [I | N]; [exact I|].
  exfalso. exact (np_deserialize_bin t flags N b H).
Qed.

(** ** Binary rows *)

Lemma mark_bit : forall bm i n, (i < n)%nat -> length bm = ((n + 9) / 8)%nat ->
  is_null false bm (Z.of_nat i) = Some (null_mark bm i).
Proof.
  intros bm i n Hi Hl. rewrite (is_null_layout false (Z.of_nat n)).
  - unfold null_mark. f_equal. f_equal; [f_equal|].
    + replace (Z.of_nat i + 2) with (Z.of_nat (i + 2)) by lia. change 8 with (Z.of_nat 8). now rewrite <- Nat2Z.inj_div, Nat2Z.id.
    + rewrite Nat2Z.inj_mod. f_equal. lia.
  - lia.
  - unfold bitmap_len, nb_offset, lenZ. rewrite Hl, Nat2Z.inj_div. f_equal. lia.
Qed.

Lemma bin_cells_iff : forall bm n cols i b vs r, bytes_ok b -> (i + length cols <= n)%nat -> length bm = ((n + 9) / 8)%nat ->
  bin_row_values bm (Z.of_nat i) cols b = (Ok vs, r) <->
  exists w, b = w ++ r /\ bin_cells bm i (map sig_of cols) vs w r.
Proof.
  intros bm n. induction cols as [|c cols IH]; intros i b vs r Hb Hi Hl; cbn [bin_row_values map length] in *.
  - split.
    + intros [= <- <-]. exists []. split; [reflexivity | constructor].
    + intros (w & -> & H). inversion H. reflexivity.
  - rewrite (mark_bit bm i n) by lia. replace (Z.of_nat i + 1) with (Z.of_nat (S i)) by lia. destruct (null_mark bm i) eqn:M.
    + split.
      * intros H. apply pbind_inv in H. destruct H as (vs1 & b1 & E & H). injection H as <- <-. apply IH in E; [|exact Hb|lia|exact Hl].
        destruct E as (w & -> & W). exists w. split; [reflexivity | now constructor].
      * intros (w & -> & H). inversion H; subst; [|congruence]. erewrite pbind_ok by (apply IH; [exact Hb | lia | exact Hl | eauto]). reflexivity.
    + split.
      * intros H. apply pbind_inv in H. destruct H as (v & b1 & E & H). apply bin_value_iff in E; [|exact Hb]. destruct E as (w1 & -> & F).
        apply pbind_inv in H. destruct H as (vs1 & b2 & E & H). injection H as <- <-.
        apply IH in E; [|unfold bytes_ok in *; rewrite Forall_app in Hb; tauto|lia|exact Hl]. destruct E as (w2 & -> & W).
        exists (w1 ++ w2). split; [now rewrite <- app_assoc | now apply bc_val].
      * intros (w & -> & H). inversion H as [|? ? ? ? ? ? ? M'|j t u cs v vs1 w1 w2 rest M' F W]; subst; [congruence|]. rewrite <- app_assoc in *.
        erewrite pbind_ok by (apply bin_value_iff; [exact Hb | eauto]).
        erewrite pbind_ok by (apply IH; [unfold bytes_ok in *; rewrite Forall_app in Hb; tauto | lia | exact Hl | eauto]). reflexivity.
Qed.

Lemma bin_cells_panic : forall bm n cols i b, bytes_ok b -> (i + length cols <= n)%nat -> length bm = ((n + 9) / 8)%nat ->
  fst (bin_row_values bm (Z.of_nat i) cols b) = Panic <->
  exists before c after vs w r, cols = before ++ c :: after /\ b = w ++ r /\
    bin_cells bm i (map sig_of before) vs w r /\ null_mark bm (i + length before) = false /\ bin_breaks (col_type c).
Proof.
  intros bm n. induction cols as [|c cols IH]; intros i b Hb Hi Hl; cbn [bin_row_values length] in *.
  - split; [discriminate|]. intros (before & c & after & vs & w & r & H & _). destruct before; discriminate.
  - rewrite (mark_bit bm i n) by lia. replace (Z.of_nat i + 1) with (Z.of_nat (S i)) by lia. split.
    + intros H. destruct (null_mark bm i) eqn:M.
      * unfold pbind in H. pose proof (proj1 (IH (S i) b Hb ltac:(lia) Hl)) as K.
        destruct (bin_row_values bm (Z.of_nat (S i)) cols b) as [[x|e|] b1] eqn:E; try discriminate.
        destruct (K eq_refl) as (before & c' & after & vs & w & r & -> & -> & W & M' & B).
        exists (c :: before), c', after, (VNull :: vs), w, r. splits; auto; [now apply bc_null|].
        cbn [length]. now replace (i + S (length before))%nat with (S i + length before)%nat by lia.
      * unfold pbind at 1 in H. destruct (deserialize_bin (col_type c) (col_flags c) b) as [[v|e|] b1] eqn:E.
        -- apply bin_value_iff in E; [|exact Hb]. destruct E as (w1 & -> & F).
           assert (B1 : bytes_ok b1) by (unfold bytes_ok in *; rewrite Forall_app in Hb; tauto).
           unfold pbind in H. pose proof (proj1 (IH (S i) b1 B1 ltac:(lia) Hl)) as K.
           destruct (bin_row_values bm (Z.of_nat (S i)) cols b1) as [[x|e|] b2] eqn:E; try discriminate.
           destruct (K eq_refl) as (before & c' & after & vs & w & r & -> & -> & W & M' & B).
           exists (c :: before), c', after, (v :: vs), (w1 ++ w), r. splits; auto; [now rewrite <- app_assoc | now apply bc_val |].
           cbn [length]. now replace (i + S (length before))%nat with (S i + length before)%nat by lia.
        -- discriminate.
        -- exists [], c, cols, [], [], b. splits; auto; [constructor | cbn [length]; now rewrite Nat.add_0_r |].
           apply (bin_value_panics _ (col_flags c) b). now rewrite E.
    + intros (before & c' & after & vs & w & r & E & -> & W & M' & B). destruct before as [|c0 before].
      * injection E as <- <-. inversion W; subst. cbn [app length] in *. rewrite Nat.add_0_r in M'. rewrite M'. unfold pbind at 1.
        pose proof (proj2 (bin_value_panics (col_type c) (col_flags c) r) B) as K.
        destruct (deserialize_bin (col_type c) (col_flags c) r) as [[v|e|] b1]; cbn [fst] in *; auto; discriminate.
      * injection E as <- ->. cbn [map length] in *.
        replace (i + S (length before))%nat with (S i + length before)%nat in M' by lia.
        inversion W as [|j t u cs vs1 w1 rest M W1|j t u cs v vs1 w1 w2 rest M F W1]; subst; rewrite M.
        -- unfold pbind. assert (K : fst (bin_row_values bm (Z.of_nat (S i)) (before ++ c' :: after) (w ++ r)) = Panic)
             by (apply (IH (S i) (w ++ r)); [exact Hb | lia | exact Hl | exists before, c', after, vs1, w, r; auto]).
           destruct (bin_row_values bm (Z.of_nat (S i)) (before ++ c' :: after) (w ++ r)) as [[x|e|] b2]; cbn [fst] in *; auto; discriminate.
        -- rewrite <- app_assoc in *. erewrite pbind_ok by (apply bin_value_iff; [exact Hb | eauto]). unfold pbind.
           assert (K : fst (bin_row_values bm (Z.of_nat (S i)) (before ++ c' :: after) (w2 ++ r)) = Panic).
           { apply (IH (S i) (w2 ++ r)); [unfold bytes_ok in *; rewrite Forall_app in Hb; tauto | lia | exact Hl |].
             exists before, c', after, vs1, w2, r; auto. }
           destruct (bin_row_values bm (Z.of_nat (S i)) (before ++ c' :: after) (w2 ++ r)) as [[x|e|] b2]; cbn [fst] in *; auto; discriminate.
Qed.

Lemma bin_row_start : forall pkt cols,
  (exists bm body, bin_packet (length cols) bm body pkt /\ read_bin_row pkt cols = fst (bin_row_values bm 0 cols body)) \/
  ((forall bm body, ~ bin_packet (length cols) bm body pkt) /\ read_bin_row pkt cols = Err peof).
Proof.
  intros pkt cols. assert (L : bitmap_len false (lenZ cols) = Z.of_nat ((length cols + 9) / 8)).
  { unfold bitmap_len, nb_offset, lenZ. rewrite Nat2Z.inj_div. f_equal. lia. }
  assert (P : (1 <= (length cols + 9) / 8)%nat) by (apply Nat.div_le_lower_bound; lia).
  unfold read_bin_row. destruct pkt as [|x pkt].
  - right. split; [intros bm body (y & H & _); discriminate|]. erewrite pbind_ok by (vm_compute; reflexivity). unfold nb_deserialize, pbind at 1. rewrite checked_eat_short; [reflexivity|]. rewrite L. unfold lenZ. cbn [length]. lia.
  - erewrite pbind_ok by apply skip_cons. unfold nb_deserialize.
    destruct (Z.lt_ge_cases (lenZ pkt) (bitmap_len false (lenZ cols))) as [S | G].
    + right. split.
      * intros bm body (y & [= <- ->] & Hl). rewrite L in S. unfold lenZ in S. rewrite app_length in S. lia.
      * unfold pbind at 1. now rewrite checked_eat_short.
    + left. exists (takeZ (bitmap_len false (lenZ cols)) pkt), (dropZ (bitmap_len false (lenZ cols)) pkt).
      assert (Hl : lenZ (takeZ (bitmap_len false (lenZ cols)) pkt) = bitmap_len false (lenZ cols)) by (apply lenZ_takeZ_le; lia).
      split.
      * exists x. split; [now rewrite take_drop|]. rewrite L in *. unfold lenZ in Hl. lia.
      * f_equal. rewrite <- (take_drop _ (bitmap_len false (lenZ cols)) pkt) at 1. erewrite pbind_ok by (apply checked_eat_app; exact Hl). reflexivity.
Qed.

Lemma app_inj_len : forall A (a a' b b' : list A), a ++ b = a' ++ b' -> length a = length a' -> a = a' /\ b = b'.
Proof.
  induction a as [|x a IH]; intros [|x' a'] b b' H L; try discriminate; [auto|]. injection H as -> H. injection L as L.
  destruct (IH _ _ _ H L) as [-> ->]. auto.
Qed.
