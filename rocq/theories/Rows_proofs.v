(** Lemmas about row decoding. *)
From Coq Require Import ZArith List Bool Lia.
From Verif Require Import Base BaseFacts Types Utf8 ParseBuf ParseBuf_proofs ValueBin ValueBin_proofs
  NullBitmap NullBitmap_proofs ValueText Rows Spec_Wire Spec_Stmt Spec_Text ValueText_proofs.
Import ListNotations.
Open Scope Z_scope.

Definition sig_of (c : column) : column_type * bool := (col_type c, has_flag (col_flags c) UNSIGNED_FLAG).

(** ** Binary rows *)

Lemma bin_enc_not_null : forall t u w, ~ bin_enc t u VNull w.
Proof. intros t u w H. inversion H. Qed.

Lemma bin_values_ok : forall cs vs w, bin_values cs vs w ->
  forall cols bm i tail, cs = map sig_of cols -> 0 <= i ->
  (forall j, (j < length vs)%nat ->
     is_null false bm (i + Z.of_nat j) = Some (match nth_error vs j with Some VNull => true | _ => false end)) ->
  bin_row_values bm i cols (w ++ tail) = (Ok vs, tail).
Proof.
  induction 1; intros cols bm i tail Ec Hi Hn; (destruct cols as [|c cols]; [try discriminate|try discriminate]).
  - reflexivity.
  - cbn [map] in Ec. injection Ec as -> -> Ec. cbn [bin_row_values].
    pose proof (Hn 0%nat ltac:(cbn; lia)) as H0. cbn [nth_error] in H0. rewrite Z.add_0_r in H0. rewrite H0.
    unfold pbind. rewrite IHbin_values; [reflexivity | assumption | lia |].
    intros j Hj. replace (i + 1 + Z.of_nat j) with (i + Z.of_nat (S j)) by lia.
    apply (Hn (S j)). cbn. lia.
  - cbn [map] in Ec. injection Ec as Et Eu Ec. cbn [bin_row_values].
    pose proof (Hn 0%nat ltac:(cbn; lia)) as H1. cbn [nth_error] in H1. rewrite Z.add_0_r in H1.
    assert (v <> VNull) by (intros ->; eapply bin_enc_not_null; eassumption).
    rewrite H1. destruct v; try congruence; cbn match; subst t u;
      rewrite <- app_assoc; unfold pbind at 1;
      (rewrite (bin_enc_decode _ _ _ _ _ _ H) by reflexivity);
      (unfold pbind; rewrite IHbin_values; [reflexivity | assumption | lia |]);
      (intros j Hj; replace (i + 1 + Z.of_nat j) with (i + Z.of_nat (S j)) by lia;
       apply (Hn (S j)); cbn; lia).
Qed.

Lemma bin_values_length : forall cs vs w, bin_values cs vs w -> length vs = length cs.
Proof. induction 1; cbn; lia. Qed.

Lemma bin_row_ok : forall cols vs pkt tail, bin_row (map sig_of cols) vs pkt ->
  read_bin_row (pkt ++ tail) cols = Ok vs.
Proof.
  intros cols vs pkt tail (bm & w & (Hlen & _ & Hbits) & Hv & ->).
  pose proof (bin_values_length _ _ _ Hv) as Hl. rewrite map_length in Hl.
  assert (Hbm : lenZ bm = bitmap_len false (lenZ cols)).
  { unfold lenZ, bitmap_len, nb_offset. rewrite Hlen, Hl.
    rewrite Nat2Z.inj_div, Nat2Z.inj_add. f_equal. lia. }
  unfold read_bin_row. unfold pbind at 1, skip. cbn [app].
  rewrite lenZ_cons. pose proof (lenZ_nonneg _ ((bm ++ w) ++ tail)).
  replace (Z.min 1 (1 + lenZ ((bm ++ w) ++ tail))) with 1 by lia.
  change (dropZ 1 (0 :: (bm ++ w) ++ tail)) with (dropZ 0 ((bm ++ w) ++ tail)). rewrite dropZ_0 by lia.
  unfold pbind at 1, nb_deserialize. rewrite <- app_assoc, checked_eat_app by assumption.
  rewrite (bin_values_ok _ _ _ Hv cols bm 0 tail); [reflexivity | reflexivity | lia |].
  intros j Hj. rewrite Z.add_0_l.
  rewrite (is_null_layout false (lenZ cols)) by (unfold lenZ in *; lia || assumption).
  specialize (Hbits j Hj). f_equal.
  replace (Z.to_nat ((Z.of_nat j + 2) / 8)) with ((j + 2) / 8)%nat.
  2:{ replace (Z.of_nat j + 2) with (Z.of_nat (j + 2)) by lia.
      change 8 with (Z.of_nat 8). rewrite <- Nat2Z.inj_div, Nat2Z.id. reflexivity. }
  replace ((Z.of_nat j + 2) mod 8) with (Z.of_nat ((j + 2) mod 8)).
  2:{ rewrite Nat2Z.inj_mod. f_equal. lia. }
  cbn match. destruct (Z.testbit _ _) eqn:T.
  - destruct Hbits as [Hb _]. rewrite (Hb eq_refl). reflexivity.
  - destruct (nth_error vs j) as [[]|]; try reflexivity. destruct Hbits as [_ Hb]. exact (Hb eq_refl).
Qed.

Lemma text_row_ok' : forall (f32_text f64_text : Z -> list Z -> Prop) (f32 f64 : str -> option Z) debug cols vs pkt tail,
  (forall x l, f32_text x l -> Forall (fun c => 0 <= c < 128) l /\ f32 l = Some x) ->
  (forall x l, f64_text x l -> Forall (fun c => 0 <= c < 128) l /\ f64 l = Some x) ->
  text_row f32_text f64_text (map sig_of cols) vs pkt ->
  Forall (fun c => col_type c <> CLongBlob) cols ->
  read_text_row debug f32 f64 (pkt ++ tail) cols = Ok vs.
Proof.
  intros. unfold read_text_row.
  rewrite (text_row_ok f32_text f64_text f32 f64) with (cs := map sig_of cols) (vs := vs); auto.
Qed.

(** ** One value per column *)

Lemma text_values_length : forall debug f32 f64 cols b vs b',
  text_values debug f32 f64 cols b = (Ok vs, b') -> length vs = length cols.
Proof.
  induction cols as [|c cols IH]; intros b vs b' H; cbn [text_values] in H.
  - injection H as <- <-. reflexivity.
  - unfold pbind at 1 in H. destruct (deserialize_text _ _ _ _ _ b) as [[v|e|] b1]; try discriminate.
    unfold pbind in H. destruct (text_values debug f32 f64 cols b1) as [[vs1|e|] b2] eqn:E; try discriminate.
    injection H as <- <-. cbn. f_equal. eapply IH; eassumption.
Qed.

Lemma bin_values_len : forall bm cols i b vs b',
  bin_row_values bm i cols b = (Ok vs, b') -> length vs = length cols.
Proof.
  induction cols as [|c cols IH]; intros i b vs b' H; cbn [bin_row_values] in H.
  - injection H as <- <-. reflexivity.
  - destruct (is_null false bm i) as [[|]|]; try discriminate.
    + unfold pbind in H. destruct (bin_row_values bm (i + 1) cols b) as [[vs1|e|] b2] eqn:E; try discriminate.
      injection H as <- <-. cbn. f_equal. eapply IH; eassumption.
    + unfold pbind at 1 in H. destruct (deserialize_bin _ _ b) as [[v|e|] b1]; try discriminate.
      unfold pbind in H. destruct (bin_row_values bm (i + 1) cols b1) as [[vs1|e|] b2] eqn:E; try discriminate.
      injection H as <- <-. cbn. f_equal. eapply IH; eassumption.
Qed.

Lemma text_row_length : forall debug f32 f64 pkt cols vs,
  read_text_row debug f32 f64 pkt cols = Ok vs -> length vs = length cols.
Proof.
  intros. unfold read_text_row in H. destruct (text_values _ _ _ _ _) as [r b] eqn:E. cbn in H. subst r.
  eapply text_values_length; eassumption.
Qed.

Lemma bin_row_length : forall pkt cols vs, read_bin_row pkt cols = Ok vs -> length vs = length cols.
Proof.
  intros. unfold read_bin_row in H. unfold pbind at 1, skip in H. unfold pbind at 1 in H.
  destruct (nb_deserialize _ _ _) as [[bm|e|] b]; try discriminate.
  destruct (bin_row_values _ _ _ _) as [r b1] eqn:E. cbn in H. subst r.
  eapply bin_values_len; eassumption.
Qed.

(** ** Panics *)

(** Column types without a decoder. *)
Definition bin_unsupported (t : column_type) : Prop :=
  In t [CNewDate; CTimestamp2; CDatetime2; CTime2; CTypedArray; CUnknown].
Definition text_unsupported (t : column_type) : Prop :=
  In t [CNull; CLongBlob; CNewDate; CTimestamp2; CDatetime2; CTime2; CTypedArray; CUnknown].
Definition has_clock (t : column_type) : Prop := In t [CTime; CDatetime; CTimestamp].

Lemma eat_uint_step : forall k b, Z.of_nat k <= lenZ b ->
  exists x, eat_uint k b = (Ok x, dropZ (Z.of_nat k) b) /\ lenZ (dropZ (Z.of_nat k) b) = lenZ b - Z.of_nat k.
Proof.
  intros k b H. exists (le_val (takeZ (Z.of_nat k) b)). split.
  - unfold eat_uint, pbind, eat. replace (lenZ b <? Z.of_nat k) with false by lia. reflexivity.
  - rewrite lenZ_dropZ by lia. lia.
Qed.

(** A parser that needs [n] bytes does not panic and takes exactly [n]. *)
Definition takes {A} (m : P A) (n : Z) : Prop :=
  forall b, n <= lenZ b -> exists a b', m b = (Ok a, b') /\ lenZ b' = lenZ b - n.

Lemma takes_eat : forall k, takes (eat_uint k) (Z.of_nat k).
Proof.
  intros k b H. destruct (eat_uint_step k b H) as (x & E & L). eexists _, _. split; eassumption.
Qed.
Lemma takes_ret : forall A (a : A), takes (pret a) 0.
Proof. intros A a b H. exists a, b. split; [reflexivity | lia]. Qed.
Lemma takes_bind : forall A B (m : P A) (f : A -> P B) n k, takes m n -> (forall a, takes (f a) k) ->
  0 <= n -> 0 <= k -> takes (pbind m f) (n + k).
Proof.
  intros A B m f n k Hm Hf Hn Hk b H. destruct (Hm b ltac:(lia)) as (a & b1 & E & L).
  destruct (Hf a b1 ltac:(lia)) as (c & b2 & E' & L').
  exists c, b2. unfold pbind. rewrite E. split; [assumption | lia].
Qed.
Lemma takes_no_panic : forall A (m : P A) n b, takes m n -> n <= lenZ b -> fst (m b) <> Panic.
Proof. intros A m n b H Hn. destruct (H b Hn) as (a & b' & E & _). rewrite E. discriminate. Qed.

Ltac takes := repeat first
  [ apply takes_bind; [ | intros | try lia | try lia ]
  | apply takes_ret | apply takes_eat ].

Lemma check_then : forall A len (m : P A) b, (len <= lenZ b -> fst (m b) <> Panic) ->
  fst (pbind (check_len len) (fun _ => m) b) <> Panic.
Proof.
  intros A len m b H. unfold pbind, check_len. destruct (lenZ b <? len) eqn:E; [discriminate|].
  apply H. lia.
Qed.

Lemma np_len_then : forall A (f : Z -> P A),
  (forall len b, len <= lenZ b -> fst (f len b) <> Panic) ->
  no_panic (pbind (checked_eat_uint 1) (fun len => pbind (check_len len) (fun _ => f len))).
Proof.
  intros A f H b. unfold pbind at 1. pose proof (np_checked_eat_uint 1 b) as Hn.
  destruct (checked_eat_uint 1 b) as [[len|e|] b1]; cbn in *; try congruence.
  apply check_then. apply H.
Qed.

Lemma np_date : no_panic deserialize_date.
Proof.
  apply np_len_then. intros len b H. destruct (len >=? 4) eqn:E; [|discriminate].
  apply (takes_no_panic _ _ (Z.of_nat 2 + (Z.of_nat 1 + (Z.of_nat 1 + 0)))); [takes | cbn; lia].
Qed.

Lemma np_datetime : no_panic deserialize_datetime.
Proof.
  apply np_len_then. intros len b H. destruct (len =? 11) eqn:E.
  - assert (len = 11) by lia. subst. cbn [Z.geb Z.compare Pos.compare Pos.compare_cont].
    apply (takes_no_panic _ _ ((Z.of_nat 2 + (Z.of_nat 1 + (Z.of_nat 1 + 0))) +
      ((Z.of_nat 1 + (Z.of_nat 1 + (Z.of_nat 1 + 0))) + (Z.of_nat 4 + 0)))); [|cbn; lia].
    apply takes_bind; [takes | intros [[? ?] ?] | lia | lia].
    apply takes_bind; [takes | intros [[? ?] ?] | lia | lia]. takes.
  - destruct (len >=? 7) eqn:E7.
    + replace (len >=? 4) with true by lia.
      apply (takes_no_panic _ _ ((Z.of_nat 2 + (Z.of_nat 1 + (Z.of_nat 1 + 0))) +
        ((Z.of_nat 1 + (Z.of_nat 1 + (Z.of_nat 1 + 0))) + (0 + 0)))); [|cbn; lia].
      apply takes_bind; [takes | intros [[? ?] ?] | lia | lia].
      apply takes_bind; [takes | intros [[? ?] ?] | lia | lia]. takes.
    + destruct (len >=? 4) eqn:E4.
      * apply (takes_no_panic _ _ ((Z.of_nat 2 + (Z.of_nat 1 + (Z.of_nat 1 + 0))) + (0 + (0 + 0)))); [|cbn; lia].
        apply takes_bind; [takes | intros [[? ?] ?] | lia | lia].
        apply takes_bind; [takes | intros [[? ?] ?] | lia | lia]. takes.
      * discriminate.
Qed.

Lemma np_time : no_panic deserialize_time.
Proof.
  apply np_len_then. intros len b H. destruct (len =? 12) eqn:E.
  - assert (len = 12) by lia. subst. cbn [Z.geb Z.compare Pos.compare Pos.compare_cont].
    apply (takes_no_panic _ _ ((Z.of_nat 1 + (Z.of_nat 4 + (Z.of_nat 1 + (Z.of_nat 1 + (Z.of_nat 1 + 0)))))
      + (Z.of_nat 4 + 0))); [|cbn; lia].
    apply takes_bind; [takes | intros [[[[? ?] ?] ?] ?] | lia | lia]. takes.
  - destruct (len >=? 8) eqn:E8.
    + apply (takes_no_panic _ _ ((Z.of_nat 1 + (Z.of_nat 4 + (Z.of_nat 1 + (Z.of_nat 1 + (Z.of_nat 1 + 0)))))
        + (0 + 0))); [|cbn; lia].
      apply takes_bind; [takes | intros [[[[? ?] ?] ?] ?] | lia | lia]. takes.
    + discriminate.
Qed.

Lemma np_deserialize_bin : forall t flags, ~ bin_unsupported t -> no_panic (deserialize_bin t flags).
Proof.
  intros t flags H. unfold bin_unsupported in H. cbn [In] in H.
  destruct t; cbn [deserialize_bin]; try tauto;
    try (exfalso; apply H; tauto);
    unfold deserialize_num; try destruct (has_flag flags UNSIGNED_FLAG);
    auto using np_date, np_datetime, np_time with np;
    (apply np_bind; auto with np; intros; auto with np).
Qed.

Lemma bin_unsupported_panics : forall t flags b, bin_unsupported t -> fst (deserialize_bin t flags b) = Panic.
Proof.
  intros t flags b H. unfold bin_unsupported in H. cbn [In] in H.
  repeat destruct H as [<-|H]; try reflexivity. contradiction.
Qed.

Lemma np_bin_values : forall bm cols i, 0 <= i -> lenZ bm = bitmap_len false (i + lenZ cols) ->
  Forall (fun c => ~ bin_unsupported (col_type c)) cols -> no_panic (bin_row_values bm i cols).
Proof.
  induction cols as [|c cols IH]; intros i Hi Hl H; cbn [bin_row_values]; [apply np_ret|].
  rewrite lenZ_cons in Hl. pose proof (lenZ_nonneg _ cols).
  inversion H; subst.
  rewrite (is_null_layout false (i + (1 + lenZ cols))) by (lia || assumption).
  destruct (Z.testbit _ _).
  - apply np_bind; [apply IH; auto; [lia | rewrite Hl; f_equal; lia] | auto with np].
  - apply np_bind; [apply np_deserialize_bin; assumption|]. intros v.
    apply np_bind; [apply IH; auto; [lia | rewrite Hl; f_equal; lia] | auto with np].
Qed.

Lemma bin_row_no_panic : forall pkt cols, Forall (fun c => ~ bin_unsupported (col_type c)) cols ->
  read_bin_row pkt cols <> Panic.
Proof.
  intros pkt cols H. unfold read_bin_row. unfold pbind at 1, skip. unfold pbind at 1.
  unfold nb_deserialize. set (b := dropZ _ pkt).
  pose proof (np_checked_eat (bitmap_len false (lenZ cols)) b) as Hn.
  destruct (checked_eat _ b) as [[bm|e|] b1] eqn:E; cbn in *; try congruence.
  apply checked_eat_inv in E.
  2:{ unfold bitmap_len, nb_offset. pose proof (lenZ_nonneg _ cols). lia. }
  destruct E as (_ & E).
  apply np_bin_values; [lia | | assumption]. rewrite Z.add_0_l. tauto.
Qed.

(** Text. *)
Lemma or_invalid_np : forall A (o : option A) t b, or_invalid o t b <> Panic.
Proof. intros A [a|] t b; discriminate. Qed.

Lemma rbind_np : forall E A B (m : res E A) (f : A -> res E B), m <> Panic -> (forall a, f a <> Panic) ->
  rbind m f <> Panic.
Proof. intros E A B [a|e|] f Hm Hf; cbn; [apply Hf | discriminate | congruence]. Qed.

Lemma date_inner_np : forall b, date_text_inner b <> Panic.
Proof.
  intros b. unfold date_text_inner, invalid_value.
  repeat match goal with |- (if ?c then _ else _) <> _ => destruct c; [discriminate|] end.
  repeat (apply rbind_np; [apply or_invalid_np | intros]). discriminate.
Qed.

Lemma time_inner_np : forall b, time_text_inner false b <> Panic.
Proof.
  intros b. unfold time_text_inner, invalid_value.
  destruct (position 58 b) as [c|]; [|discriminate].
  repeat match goal with |- (if ?c then _ else _) <> _ => destruct c; [discriminate|] end.
  repeat (apply rbind_np; [apply or_invalid_np | intros]).
  apply rbind_np; [|discriminate].
  destruct (lenZ b >? c + 7); [|discriminate].
  destruct (negb (at_ b (c + 6) =? 46)); [discriminate|]. cbv zeta.
  apply rbind_np; [apply or_invalid_np | intros m].
  unfold scale_micros. destruct (_ <=? 6); discriminate.
Qed.

Lemma text_value_np : forall debug f32 f64 t flags b, ~ text_unsupported t -> debug = false \/ ~ has_clock t ->
  text_value debug f32 f64 t flags b <> Panic.
Proof.
  intros debug f32 f64 t flags b H Hd.
  assert (D : forall A (o : option A), or_invalid_data o <> Panic) by (intros A [a|]; discriminate).
  assert (F : forall fs mk, float_text fs mk b <> Panic).
  { intros. unfold float_text. destruct (utf8_decode b); [apply D | discriminate]. }
  unfold text_unsupported, has_clock in *. cbn [In] in *.
  destruct t; cbn [text_value]; try apply D; try apply F; try (exfalso; apply H; tauto); try discriminate;
    try (destruct Hd as [->|Hd]; [|exfalso; apply Hd; tauto]).
  - unfold datetime_text, invalid_value. destruct (lenZ b <? 19); [discriminate|].
    apply rbind_np; [apply date_inner_np | intros [[? ?] ?]].
    apply rbind_np; [apply time_inner_np | intros [[[[? ?] ?] ?] ?]]. discriminate.
  - unfold date_text. apply rbind_np; [apply date_inner_np | intros [[? ?] ?]]. discriminate.
  - unfold time_text. destruct b as [|c r]; [discriminate|]. cbv zeta.
    apply rbind_np; [apply time_inner_np | intros [[[[? ?] ?] ?] ?]]. discriminate.
  - unfold datetime_text, invalid_value. destruct (lenZ b <? 19); [discriminate|].
    apply rbind_np; [apply date_inner_np | intros [[? ?] ?]].
    apply rbind_np; [apply time_inner_np | intros [[[[? ?] ?] ?] ?]]. discriminate.
Qed.

Lemma np_deserialize_text : forall debug f32 f64 t flags, ~ text_unsupported t -> debug = false \/ ~ has_clock t ->
  no_panic (deserialize_text debug f32 f64 t flags).
Proof.
  intros debug f32 f64 t flags H Hd b. unfold deserialize_text.
  destruct b as [|c r]; [discriminate|].
  destruct (c =? 251); [discriminate|].
  apply (np_bind _ _ checked_eat_lenenc_slice); [auto with np|].
  intros x b'. apply text_value_np; assumption.
Qed.

Lemma text_row_no_panic : forall debug f32 f64 pkt cols,
  Forall (fun c => ~ text_unsupported (col_type c) /\ (debug = false \/ ~ has_clock (col_type c))) cols ->
  read_text_row debug f32 f64 pkt cols <> Panic.
Proof.
  intros debug f32 f64 pkt cols H. unfold read_text_row.
  assert (G : no_panic (text_values debug f32 f64 cols)); [|apply G].
  induction H as [|c cols [Hc Hd] Hcs IH]; cbn [text_values]; [apply np_ret|].
  apply np_bind; [apply np_deserialize_text; assumption | intros v].
  apply np_bind; [apply IH | auto with np].
Qed.

(** A NULL-free packet on an unsupported column panics. *)
Lemma text_unsupported_panics : forall debug f32 f64 t flags b, text_unsupported t ->
  text_value debug f32 f64 t flags b = Panic.
Proof.
  intros debug f32 f64 t flags b H. unfold text_unsupported in H. cbn [In] in H.
  repeat destruct H as [<-|H]; try reflexivity. contradiction.
Qed.

