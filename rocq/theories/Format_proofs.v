(** Proofs about format specifications. *)
From Coq Require Import String ZArith List Bool Lia Arith.
From Verif Require Import Base BaseFacts Types ValueText Hex FormatSpec Spec_Wire Spec_Stmt Spec_Text Spec_Format
  ValueText_proofs Escape_proofs Hex_proofs.
Import ListNotations.
Open Scope Z_scope.

(** The side that is filled for an alignment, or by default. *)
Definition side_of (a : option alignment) (default : side) : side :=
  match a with None => default | Some ALeft => After | Some ARight => Before | Some ACenter => Around end.

Lemma padding_placed : forall fill a w (s : str), lenZ s < w ->
  placed fill (match a with ALeft => After | ARight => Before | ACenter => Around end) (Z.to_nat w) s (padding fill a (w - lenZ s) s).
Proof.
  intros fill a w s H. unfold placed, padding, repeatZ, lenZ in *. destruct a.
  - exists O, (Z.to_nat (w - Z.of_nat (length s))). cbn [repeat app]. splits; try reflexivity. lia.
  - exists (Z.to_nat ((w - Z.of_nat (length s)) / 2)), (Z.to_nat ((w - Z.of_nat (length s) + 1) / 2)).
    splits; try reflexivity; lia.
  - exists (Z.to_nat (w - Z.of_nat (length s))), O. cbn [repeat]. rewrite app_nil_r. splits; try reflexivity. lia.
Qed.

Lemma placed_wide : forall fill sd w t, (w <= length t)%nat -> placed fill sd w t t.
Proof.
  intros fill sd w t H. exists O, O. cbn [repeat app]. rewrite app_nil_r. splits; try reflexivity; try lia.
  destruct sd; try reflexivity. lia.
Qed.

Lemma placed_alone : forall fill sd t out, placed fill sd 0 t out <-> out = t.
Proof.
  intros fill sd t out. split.
  - intros (b & a & -> & H & _). assert (b = O /\ a = O) as [-> ->] by lia. cbn [repeat app]. now rewrite app_nil_r.
  - intros ->. apply placed_wide. lia.
Qed.

Lemma pad_number_spec : forall f sign s,
  match fm_width f with
  | None => pad_number f sign s = sign ++ s
  | Some w =>
    if fm_zero f then with_zeros (Z.to_nat w) sign s (pad_number f sign s)
    else placed (fm_fill f) (side_of (fm_align f) Before) (Z.to_nat w) (sign ++ s) (pad_number f sign s)
  end.
Proof.
  intros f sign s. unfold pad_number. destruct (fm_width f) as [w|]; [|reflexivity]. cbv zeta.
  destruct (lenZ sign + lenZ s >=? w) eqn:E.
  - assert (L : (Z.to_nat w <= length sign + length s)%nat) by (unfold lenZ in E; lia).
    destruct (fm_zero f).
    + exists O. cbn [repeat app]. split; [reflexivity | lia].
    + apply placed_wide. rewrite app_length. lia.
  - assert (L : lenZ sign + lenZ s < w) by lia. destruct (fm_zero f).
    + unfold with_zeros, padding, repeatZ. eexists. split; [reflexivity|]. unfold lenZ in *. lia.
    + assert (K : lenZ (sign ++ s) < w) by (unfold lenZ in *; rewrite app_length; lia).
      pose proof (padding_placed (fm_fill f) (align_or (fm_align f) ARight) w (sign ++ s) K) as P.
      replace (lenZ (sign ++ s)) with (lenZ sign + lenZ s) in P by (unfold lenZ; rewrite app_length; lia).
      destruct (fm_align f) as [[]|]; exact P.
Qed.

Lemma reads_spaces : forall b a l n, reads_number l n -> reads_number (repeat 32 b ++ l ++ repeat 32 a) n.
Proof.
  intros b a l n H. revert l H.
  induction b as [|b IH]; intros l H; cbn [repeat app].
  - revert l H. induction a as [|a IA]; intros l H; cbn [repeat].
    + now rewrite app_nil_r.
    + change (32 :: repeat 32 a) with ([32] ++ repeat 32 a). rewrite app_assoc. apply IA. now constructor.
  - constructor. now apply IH.
Qed.

Lemma zeros_val : forall k l, dec_val (repeat 48 k ++ l) = dec_val l.
Proof. intros k l. exact (dval_zeros k l). Qed.

Lemma sign_reads : forall plus n k d, nat_text (Z.abs n) d -> reads_number (sign_of plus n ++ repeat 48 k ++ d) n.
Proof.
  intros plus n k d (A & B & C). unfold sign_of.
  assert (NE : repeat 48 k ++ d <> []) by (intros H; apply app_eq_nil in H; tauto).
  assert (FD : Forall digit (repeat 48 k ++ d)).
  { apply Forall_app. split; [|exact B]. apply Forall_forall. intros x Hx. apply repeat_spec in Hx. subst. unfold digit. lia. }
  assert (V : dec_val (repeat 48 k ++ d) = Z.abs n) by (now rewrite zeros_val).
  destruct (n <? 0) eqn:E.
  - replace n with (- dec_val (repeat 48 k ++ d)) at 1 by lia. cbn [app]. now constructor.
  - replace n with (dec_val (repeat 48 k ++ d)) at 1 by lia.
    destruct plus; cbn [app]; now constructor.
Qed.

Lemma format_int_spec : forall f n, exists digits, nat_text (Z.abs n) digits /\ dec (Z.abs n) = digits /\
  match fm_width f with
  | None => format_int f n = sign_of (fm_plus f) n ++ digits
  | Some w =>
    if fm_zero f then with_zeros (Z.to_nat w) (sign_of (fm_plus f) n) digits (format_int f n)
    else placed (fm_fill f) (side_of (fm_align f) Before) (Z.to_nat w) (sign_of (fm_plus f) n ++ digits) (format_int f n)
  end /\
  (fm_fill f = 32 \/ fm_zero f = true \/ fm_width f = None -> reads_number (format_int f n) n).
Proof.
  intros f n. exists (dec (Z.abs n)).
  pose proof (dec_nat (Z.abs n) (Z.abs_nonneg n)) as D.
  pose proof (pad_number_spec f (sign_of (fm_plus f) n) (dec (Z.abs n))) as P.
  assert (W : format_int f n = pad_number f (sign_of (fm_plus f) n) (dec (Z.abs n))) by reflexivity.
  rewrite W. split; [exact D|]. split; [reflexivity|]. split; [exact P|].
  intros G. destruct (fm_width f) as [w|].
  - destruct (fm_zero f).
    + destruct P as (zeros & -> & _). now apply sign_reads.
    + destruct P as (b & a & -> & _). destruct G as [-> | [G | G]]; try discriminate.
      apply reads_spaces. apply (sign_reads _ _ 0). exact D.
  - rewrite P. apply (sign_reads _ _ 0). exact D.
Qed.

Lemma dec_val_bound : forall l, Forall digit l -> dec_val l < 10 ^ Z.of_nat (length l).
Proof.
  intros l. induction l as [|c l IH] using rev_ind; intros H; [reflexivity|].
  apply Forall_app in H. destruct H as [A B]. inversion B as [|? ? D ?]; subst. specialize (IH A).
  unfold dec_val in *. rewrite fold_left_app. cbn [fold_left]. rewrite app_length. cbn [length].
  rewrite Nat.add_1_r, Nat2Z.inj_succ, Z.pow_succ_r by lia. unfold digit in D. lia.
Qed.

Lemma hex_len : forall b, length (hex_encode b) = (2 * length b)%nat.
Proof. induction b as [|x b IH]; [reflexivity|]. unfold hex_encode in *. cbn [flat_map app length]. rewrite IH. lia. Qed.

Lemma pad_str_spec : forall f s,
  placed (fm_fill f) (side_of (fm_align f) After) (match fm_width f with Some w => Z.to_nat w | None => O end)
    (match fm_precision f with Some n => firstn (Z.to_nat n) s | None => s end) (pad_str f s).
Proof.
  intros f s. unfold pad_str. cbv zeta.
  replace (match fm_precision f with Some n => takeZ n s | None => s end)
    with (match fm_precision f with Some n => firstn (Z.to_nat n) s | None => s end)
    by (destruct (fm_precision f); [now rewrite takeZ_firstn | reflexivity]).
  set (s' := match fm_precision f with Some n => firstn (Z.to_nat n) s | None => s end).
  destruct (fm_width f) as [w|]; [|apply placed_wide; lia].
  destruct (lenZ s' >=? w) eqn:E.
  - apply placed_wide. unfold lenZ in E. lia.
  - pose proof (padding_placed (fm_fill f) (align_or (fm_align f) ALeft) w s' ltac:(lia)) as P.
    destruct (fm_align f) as [[]|]; exact P.
Qed.

Lemma bytes_guarded : forall f b, bytes_ok b -> fm_fill f = 32 ->
  (forall n, fm_precision f = Some n -> 2 * Z.of_nat (length b) <= n) ->
  (forall w, fm_width f = Some w -> w <= 2 * Z.of_nat (length b) \/ fm_align f = None \/ fm_align f = Some ALeft) ->
  exists t spaces, [48; 120] ++ pad_str f (hex_encode b) = t ++ repeat 32 spaces /\ (hex_literal b t <-> b <> []).
Proof.
  intros f b Hb Hf Hp Hw. pose proof (pad_str_spec f (hex_encode b)) as P.
  assert (S : match fm_precision f with Some n => firstn (Z.to_nat n) (hex_encode b) | None => hex_encode b end = hex_encode b).
  { destruct (fm_precision f) as [n|]; [|reflexivity]. specialize (Hp n eq_refl). apply firstn_all2. rewrite hex_len. lia. }
  rewrite S, Hf in P. destruct P as (before & after & E & L & D).
  assert (before = O) as ->.
  { destruct (fm_width f) as [w|]; [|lia]. destruct (Hw w eq_refl) as [K | K].
    - rewrite hex_len in L. lia.
    - unfold side_of in D. destruct K as [K | K]; rewrite K in D; exact D. }
  exists ([48; 120] ++ hex_encode b), after. split.
  - rewrite E. cbn [repeat app]. reflexivity.
  - destruct (display_bytes false (fun _ => []) (fun _ => []) b Hb) as (t & T & I). cbn [value_display] in T.
    injection T as <-. exact I.
Qed.
