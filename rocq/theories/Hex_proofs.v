(** Lemmas about Hex. *)
From Coq Require Import ZArith List Bool Lia.
From Verif Require Import Base BaseFacts ValueText Hex Spec_Text Escape_proofs.
Import ListNotations.
Open Scope Z_scope.

Lemma hex_char_spec : forall c i, hex_char c i =
  match hex_val c with Some v => Ok v | None => Err (HInvalidCharacter c i) end.
Proof.
  intros c i. unfold hex_char, hex_val.
  destruct ((48 <=? c) && (c <=? 57)) eqn:A; destruct ((97 <=? c) && (c <=? 102)) eqn:B;
    destruct ((65 <=? c) && (c <=? 70)) eqn:C; try lia; try (f_equal; lia); reflexivity.
Qed.

Lemma hex_val_range : forall c v, hex_val c = Some v -> 0 <= v < 16.
Proof.
  intros c v. unfold hex_val.
  destruct ((48 <=? c) && (c <=? 57)) eqn:A; [intros H; injection H as <-; lia|].
  destruct ((97 <=? c) && (c <=? 102)) eqn:B; [intros H; injection H as <-; lia|].
  destruct ((65 <=? c) && (c <=? 70)) eqn:C; [intros H; injection H as <-; lia|]. discriminate.
Qed.

Lemma nibbles : forall h w, 0 <= h < 16 -> 0 <= w < 16 -> Z.lor (Z.shiftl h 4) w = 16 * h + w.
Proof.
  intros h w Hh Hw. rewrite Z.shiftl_mul_pow2 by lia. change (2 ^ 4) with 16.
  assert (Z.land (h * 16) w = 0) as L.
  { apply Z.bits_inj'. intros n Hn. rewrite Z.land_spec, Z.bits_0.
    destruct (Z.ltb_spec n 4).
    - change 16 with (2 ^ 4). rewrite Z.mul_pow2_bits_low by lia. reflexivity.
    - assert (Z.testbit w n = false) as ->; [|apply andb_false_r].
      destruct (Z.eq_dec w 0) as [->|]; [apply Z.bits_0|].
      apply Z.bits_above_log2; [lia|]. assert (Z.log2 w < 4) by (apply Z.log2_lt_pow2; lia). lia. }
  rewrite <- Z.lxor_lor by assumption. rewrite <- Z.add_nocarry_lxor by assumption. lia.
Qed.

Lemma decode_pairs_iff : forall n l i bs, (length l <= n)%nat ->
  (hex_decode_pairs i l = Ok bs /\ lenZ l mod 2 = 0 <-> hex_pairs bs l).
Proof.
  induction n as [|n IH]; intros l i bs Hl; (destruct l as [|a [|b l]]; cbn [length] in Hl; try lia).
  - cbn. split.
    + intros (E & _). injection E as <-. constructor.
    + intros H. inversion H. split; reflexivity.
  - cbn. split.
    + intros (E & _). injection E as <-. constructor.
    + intros H. inversion H. split; reflexivity.
  - split.
    + intros (_ & E). rewrite lenZ_cons, lenZ_nil in E. discriminate.
    + intros H. inversion H.
  - cbn [hex_decode_pairs]. rewrite !hex_char_spec.
    assert (L : lenZ (a :: b :: l) mod 2 = lenZ l mod 2) by (rewrite !lenZ_cons; lia). rewrite L.
    split.
    + intros (E & M). destruct (hex_val a) as [h|] eqn:Ha; [|discriminate]. cbn [rbind] in E.
      destruct (hex_val b) as [w|] eqn:Hb; [|discriminate]. cbn [rbind] in E.
      destruct (hex_decode_pairs (i + 2) l) as [t|e|] eqn:Ht; try discriminate.
      cbn [rbind] in E.
      rewrite (nibbles h w) in E by (eapply hex_val_range; eassumption). injection E as <-.
      constructor; auto. apply (IH l (i + 2)); [lia | split; assumption].
    + intros H. inversion H as [|a' b' h w t l' Ha Hb Ht]; subst.
      rewrite Ha, Hb. cbn [rbind]. apply (IH l (i + 2)) in Ht; [|lia]. destruct Ht as (-> & M).
      cbn [rbind]. rewrite nibbles by (eapply hex_val_range; eassumption). split; [reflexivity | assumption].
Qed.

Lemma hex_decode_iff : forall l bs, hex_decode l = Ok bs <-> hex_pairs bs l.
Proof.
  intros l bs. rewrite <- (decode_pairs_iff (length l) l 0 bs) by lia.
  unfold hex_decode. destruct (Z.eqb_spec (lenZ l mod 2) 0); cbn [negb].
  - split; [intros ->; split; auto | tauto].
  - split; [discriminate | intros (_ & H); congruence].
Qed.

Lemma hex_decode_np : forall l, hex_decode l <> Panic.
Proof.
  intros l. unfold hex_decode. destruct (negb _); [discriminate|].
  assert (G : forall n l i, (length l <= n)%nat -> hex_decode_pairs i l <> Panic).
  { clear. induction n as [|n IH]; intros l i Hl; (destruct l as [|a [|b l]]; cbn [length] in Hl; try lia);
      try discriminate.
    cbn [hex_decode_pairs]. rewrite !hex_char_spec.
    destruct (hex_val a); [|discriminate]. destruct (hex_val b); [|discriminate]. cbn [rbind].
    specialize (IH l (i + 2) ltac:(lia)). destruct (hex_decode_pairs (i + 2) l); try discriminate. congruence. }
  apply (G (length l)). lia.
Qed.

Lemma decode_pairs_invalid : forall n l i c k, (length l <= n)%nat -> lenZ l mod 2 = 0 ->
  (hex_decode_pairs i l = Err (HInvalidCharacter c k) <->
   exists a r, l = a ++ c :: r /\ i + lenZ a = k /\ Forall (fun x => hex_val x <> None) a /\ hex_val c = None).
Proof.
  induction n as [|n IH]; intros l i c k Hl Ev; (destruct l as [|x [|y l]]; cbn [length] in Hl; try lia).
  1,2: split; [discriminate|]; intros ([|? ?] & r & E & _); discriminate E.
  - rewrite lenZ_cons, lenZ_nil in Ev. discriminate Ev.
  - cbn [hex_decode_pairs]. rewrite !hex_char_spec. destruct (hex_val x) as [h|] eqn:X; cbn [rbind].
    + destruct (hex_val y) as [w|] eqn:Y; cbn [rbind].
      * assert (Ev' : lenZ l mod 2 = 0).
        { rewrite !lenZ_cons in Ev. replace (1 + (1 + lenZ l)) with (lenZ l + 1 * 2) in Ev by ring.
          now rewrite Z.mod_add in Ev by lia. }
        specialize (IH l (i + 2) c k ltac:(lia) Ev'). transitivity (hex_decode_pairs (i + 2) l = Err (HInvalidCharacter c k)).
        { destruct (hex_decode_pairs (i + 2) l); cbn [rbind]; [split; discriminate|reflexivity|reflexivity]. }
        rewrite IH. clear IH. split.
        -- intros (a & r & -> & E & F & C). exists (x :: y :: a), r. rewrite !lenZ_cons.
           repeat split; auto; [lia|]. repeat constructor; auto; congruence.
        -- intros (a & r & E & K & F & C). destruct a as [|x' [|y' a]]; cbn [app] in E; injection E as; subst; try congruence.
           exists a, r. rewrite !lenZ_cons. inversion F as [|? ? _ F1]; subst. inversion F1; subst. repeat split; auto; lia.
      * split.
        -- intros [= <- <-]. exists [x], l. repeat split; auto. repeat constructor. congruence.
        -- intros (a & r & E & K & F & C). destruct a as [|x' [|y' a]]; cbn [app] in E; injection E as; subst; try congruence.
           ++ reflexivity.
           ++ inversion F as [|? ? _ F1]; subst. inversion F1; subst. congruence.
    + split.
      * intros [= <- <-]. exists [], (y :: l). rewrite lenZ_nil. repeat split; auto; lia.
      * intros (a & r & E & K & F & C). destruct a as [|x' a]; cbn [app] in E; injection E as; subst.
        -- rewrite lenZ_nil. now rewrite Z.add_0_r.
        -- inversion F; subst. congruence.
Qed.

Lemma decode_pairs_odd : forall n l i, (length l <= n)%nat -> hex_decode_pairs i l <> Err HOddLength.
Proof.
  induction n as [|n IH]; intros l i Hl; (destruct l as [|x [|y l]]; cbn [length] in Hl; try lia); try discriminate.
  cbn [hex_decode_pairs]. rewrite !hex_char_spec. specialize (IH l (i + 2) ltac:(lia)).
  destruct (hex_val x); [|discriminate]. destruct (hex_val y); [|discriminate]. cbn [rbind].
  destruct (hex_decode_pairs (i + 2) l); cbn [rbind]; congruence.
Qed.

Lemma from_str_digits : forall s t, hex_digits_of s t -> hex_from_str s = hex_decode t.
Proof.
  intros s t [->|[->|(<- & A & B)]]; unfold hex_from_str; cbv zeta.
  - rewrite starts_with_app. cbn [orb]. now rewrite (dropZ_app_exact _ 2 [48; 120] t eq_refl).
  - rewrite starts_with_app, orb_true_r. now rewrite (dropZ_app_exact _ 2 [48; 88] t eq_refl).
  - destruct (starts_with s [48; 120]) eqn:E1; [apply starts_with_spec in E1 as (r & E1); now apply A in E1|].
    destruct (starts_with s [48; 88]) eqn:E2; [apply starts_with_spec in E2 as (r & E2); now apply B in E2|]. reflexivity.
Qed.

Lemma from_str_errors : forall s t, hex_digits_of s t ->
  (hex_from_str s = Err HOddLength <-> lenZ t mod 2 <> 0) /\
  (forall c i, hex_from_str s = Err (HInvalidCharacter c i) <-> lenZ t mod 2 = 0 /\
    exists a r, t = a ++ c :: r /\ lenZ a = i /\ Forall (fun x => hex_val x <> None) a /\ hex_val c = None).
Proof.
  intros s t H. rewrite (from_str_digits s t H). unfold hex_decode.
  destruct (Z.eqb_spec (lenZ t mod 2) 0) as [E|E]; cbn [negb].
  - split.
    + split; [|contradiction]. intros X. now apply decode_pairs_odd with (n := length t) in X; [|lia].
    + intros c i. rewrite (decode_pairs_invalid (length t)) by (auto; lia). split; [intros X; split; [exact E|exact X]|intros (_ & X); exact X].
  - split; [tauto|]. intros c i. split; [discriminate|tauto].
Qed.

Lemma no_prefix : forall bs t x, hex_pairs bs t -> x = 120 \/ x = 88 -> starts_with t [48; x] = false.
Proof.
  intros bs t x H Hx. destruct H as [|a b h l bs t Ha Hb Ht]; [reflexivity|].
  cbn [starts_with]. destruct (Z.eqb_spec b x); [|destruct (a =? 48); reflexivity].
  subst b. destruct Hx; subst x; discriminate.
Qed.

Lemma from_str_iff : forall s bs, hex_from_str s = Ok bs <-> hex_text bs s.
Proof.
  intros s bs. unfold hex_from_str. cbv zeta. split.
  - intros H.
    destruct (starts_with s [48; 120]) eqn:E1; [|destruct (starts_with s [48; 88]) eqn:E2]; cbn [orb] in H.
    + apply starts_with_spec in E1. destruct E1 as (t & ->).
      rewrite (dropZ_app_exact _ 2 [48; 120] t eq_refl) in H.
      apply hex_decode_iff in H. exists t. tauto.
    + apply starts_with_spec in E2. destruct E2 as (t & ->).
      rewrite (dropZ_app_exact _ 2 [48; 88] t eq_refl) in H.
      apply hex_decode_iff in H. exists t. tauto.
    + apply hex_decode_iff in H. exists s. tauto.
  - intros (t & H & [->|[->| ->]]).
    + rewrite (no_prefix bs t 120), (no_prefix bs t 88) by auto. now apply hex_decode_iff.
    + rewrite starts_with_app. cbn [orb]. rewrite (dropZ_app_exact _ 2 [48; 120] t eq_refl).
      now apply hex_decode_iff.
    + rewrite starts_with_app. rewrite orb_true_r. rewrite (dropZ_app_exact _ 2 [48; 88] t eq_refl).
      now apply hex_decode_iff.
Qed.

Lemma from_str_np : forall s, hex_from_str s <> Panic.
Proof. intros s. unfold hex_from_str. apply hex_decode_np. Qed.

Lemma hex_round_trip : forall b, bytes_ok b -> hex_from_str (hex_display b) = Ok b.
Proof.
  intros b H. apply from_str_iff. exists (hex_encode b). split; [now apply hex_encode_pairs|]. right; left; reflexivity.
Qed.

Lemma take2_starts : forall s x, 2 <= lenZ s -> list_eqb (takeZ 2 s) [48; x] = starts_with s [48; x].
Proof.
  intros s x H. destruct s as [|a [|b s]]; rewrite ?lenZ_cons, ?lenZ_nil in H; try lia.
  replace (takeZ 2 (a :: b :: s)) with [a; b]; [reflexivity|].
  symmetry. exact (takeZ_app_exact _ 2 [a; b] s eq_refl).
Qed.

Lemma try_from_hex_same : forall s, 2 <= lenZ s -> hex_try_from_hex s = hex_from_str s.
Proof.
  intros s H. unfold hex_try_from_hex, hex_from_str.
  replace (lenZ s <? 2) with false by lia. rewrite !take2_starts by assumption. reflexivity.
Qed.

Lemma try_from_hex_panic : forall s, hex_try_from_hex s = Panic <-> lenZ s < 2.
Proof.
  intros s. destruct (Z.ltb_spec (lenZ s) 2).
  - split; [auto|]. intros _. unfold hex_try_from_hex. replace (lenZ s <? 2) with true by lia. reflexivity.
  - split; [|lia]. rewrite try_from_hex_same by lia. intros E. now apply from_str_np in E.
Qed.
