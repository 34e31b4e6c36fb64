(** Lemmas about the texts that are read as values. *)
From Coq Require Import ZArith List Bool Lia.
From Verif Require Import Base BaseFacts Types Utf8 ParseBuf ParseBuf_proofs ValueBin ValueBin_proofs
  ValueText Rows Spec_Wire Spec_Stmt Spec_Text ValueText_proofs Escape_proofs Spec_TextForms.
Import ListNotations.
Open Scope Z_scope.

Ltac no := try (unfold invalid_value in *; discriminate).

Lemma position_inv : forall c l i, position c l = Some i -> exists a r, l = a ++ c :: r /\ lenZ a = i.
Proof.
  induction l as [|x l IH]; intros i H; cbn [position] in H; [discriminate|].
  destruct (Z.eqb_spec x c) as [->|N].
  - injection H as <-. exists [], l. split; reflexivity.
  - destruct (position c l) as [j|]; [|discriminate]. injection H as <-. destruct (IH j eq_refl) as (a & r & -> & L).
    exists (x :: a), r. split; [reflexivity|]. rewrite lenZ_cons. lia.
Qed.

Lemma or_invalid_ok : forall A (o : option A) t b a, or_invalid o t b = Ok a -> o = Some a.
Proof. intros A [x|] t b a H; unfold or_invalid, invalid_value in H; congruence. Qed.

Lemma rbind_ok : forall A B E (r : res E A) (f : A -> res E B) b, rbind r f = Ok b -> exists a, r = Ok a /\ f a = Ok b.
Proof. intros A B E [a|e|] f b H; cbn in H; try discriminate. eauto. Qed.

Lemma btou_two : forall max x y n, 0 <= max -> btou max [x; y] = Some n -> fixed_text 2 n [x; y].
Proof. intros max x y n Hm H. apply btou_iff in H; [|exact Hm]. destruct H as ((_ & D & E) & _). split; [reflexivity|]. auto. Qed.

Lemma date_inner_inv : forall l y m d, date_text_inner l = Ok (y, m, d) -> spec_date y m d l.
Proof.
  intros l y m d H. unfold date_text_inner in H.
  destruct (Z.eqb_spec (lenZ l) 10) as [L|]; [|no]. unfold lenZ in L. cbn [negb] in H.
  destruct l as [|y0 [|y1 [|y2 [|y3 [|h1 [|m0 [|m1 [|h2 [|d0 [|d1 [|x r]]]]]]]]]]]; cbn [length] in L; try lia. clear L.
  change (at_ [y0; y1; y2; y3; h1; m0; m1; h2; d0; d1] 4) with h1 in H.
  change (at_ [y0; y1; y2; y3; h1; m0; m1; h2; d0; d1] 7) with h2 in H.
  destruct (Z.eqb_spec h1 45) as [->|]; [|no]. destruct (Z.eqb_spec h2 45) as [->|]; [|no]. cbn [negb] in H.
  change (slice [y0; y1; y2; y3; 45; m0; m1; 45; d0; d1] 0 4) with [y0; y1; y2; y3] in H.
  change (slice [y0; y1; y2; y3; 45; m0; m1; 45; d0; d1] 5 7) with [m0; m1] in H.
  change (slice [y0; y1; y2; y3; 45; m0; m1; 45; d0; d1] 8 10) with [d0; d1] in H.
  apply rbind_ok in H as (a & A & H). apply rbind_ok in H as (b & B & H). apply rbind_ok in H as (c & C & H).
  apply or_invalid_ok in A, B, C. injection H as <- <- <-.
  exists [y0; y1; y2; y3], [m0; m1], [d0; d1]. split; [reflexivity|].
  split; [|split; apply (btou_two 255); auto; lia].
  apply btou_iff in A; [|lia]. destruct A as ((_ & D & E) & _). split; [reflexivity|]. auto.
Qed.

Definition clock_result (h m s u : Z) : Z * Z * Z * Z * Z := (h / 24, h mod 24, m, s, u).

Lemma clock_inner_inv : forall debug l t, time_text_inner debug l = Ok t ->
  exists h m s u, t = clock_result h m s u /\ clock_form (negb debug) h m s u l.
Proof.
  intros debug l t H. unfold time_text_inner in H.
  destruct (position 58 l) as [n|] eqn:P; [|no]. apply position_inv in P as (a & r & -> & La).
  pose proof (lenZ_nonneg _ a) as La0.
  destruct (Z.ltb_spec (lenZ (a ++ 58 :: r)) (n + 6)) as [|L]; [no|].
  rewrite lenZ_app, lenZ_cons in L. assert (Lr : 5 <= lenZ r) by lia. unfold lenZ in Lr.
  destruct r as [|b0 [|b1 [|x [|c0 [|c1 f]]]]]; cbn [length] in Lr; try lia. clear Lr L.
  set (v := a ++ 58 :: b0 :: b1 :: x :: c0 :: c1 :: f) in *.
  assert (X : at_ v (n + 3) = x).
  { replace v with ((a ++ [58; b0; b1]) ++ x :: c0 :: c1 :: f) by (unfold v; rewrite <- app_assoc; reflexivity).
    apply at_mid. rewrite lenZ_app, La. reflexivity. }
  rewrite X in H. destruct (Z.eqb_spec x 58) as [->|]; [|no]. cbn [negb] in H. clear X.
  assert (S1 : slice v 0 n = a) by (apply (slice_mid [] a); [reflexivity|lia]).
  assert (S2 : slice v (n + 1) (n + 3) = [b0; b1]).
  { replace v with ((a ++ [58]) ++ [b0; b1] ++ 58 :: c0 :: c1 :: f) by (unfold v; rewrite <- !app_assoc; reflexivity).
    apply slice_mid; [rewrite lenZ_app, La; reflexivity|]. rewrite !lenZ_cons, lenZ_nil. lia. }
  assert (S3 : slice v (n + 4) (n + 6) = [c0; c1]).
  { replace v with ((a ++ [58; b0; b1; 58]) ++ [c0; c1] ++ f) by (unfold v; rewrite <- !app_assoc; reflexivity).
    apply slice_mid; [rewrite lenZ_app, La; reflexivity|]. rewrite !lenZ_cons, lenZ_nil. lia. }
  rewrite S1, S2, S3 in H.
  apply rbind_ok in H as (h & A & H). apply rbind_ok in H as (m & B & H). apply rbind_ok in H as (s & C & H).
  apply rbind_ok in H as (u & U & H). injection H as <-. apply or_invalid_ok in A, B, C.
  apply btou_iff in A; [|lia]. destruct A as (A & Ah). apply btou_two in B; [|lia]. apply btou_two in C; [|lia].
  exists h, m, s, u. split; [reflexivity|]. exists a, [b0; b1], [c0; c1], f. split; [reflexivity|]. split; [exact A|].
  split; [lia|]. split; [exact B|]. split; [exact C|].
  assert (Lv : lenZ v = n + 6 + lenZ f) by (unfold v; rewrite lenZ_app, La, !lenZ_cons; lia).
  rewrite Lv in U. destruct (Z.gtb_spec (n + 6 + lenZ f) (n + 7)) as [G|G].
  - right. destruct f as [|p f]; [rewrite lenZ_nil in G; lia|].
    assert (X : at_ v (n + 6) = p).
    { replace v with ((a ++ [58; b0; b1; 58; c0; c1]) ++ p :: f) by (unfold v; rewrite <- app_assoc; reflexivity).
      apply at_mid. rewrite lenZ_app, La. reflexivity. }
    rewrite X in U. destruct (Z.eqb_spec p 46) as [->|]; [|no]. cbn [negb] in U. cbn zeta in U.
    assert (D : dropZ (n + 7) v = f).
    { replace v with ((a ++ [58; b0; b1; 58; c0; c1; 46]) ++ f) by (unfold v; rewrite <- app_assoc; reflexivity).
      apply dropZ_app_exact. rewrite lenZ_app, La. reflexivity. }
    rewrite D in U. apply rbind_ok in U as (k & K & U). apply or_invalid_ok in K. apply btou_iff in K; [|lia].
    destruct K as ((F1 & F2 & F3) & F4). exists f. split; [reflexivity|]. split; [exact F1|]. split; [exact F2|]. split; [lia|].
    unfold scale_micros in U. destruct (Z.leb_spec (lenZ f) 6) as [L|L]; unfold lenZ in L.
    + injection U as <-. left. split; [lia|]. now rewrite F3.
    + destruct debug; [no|]. injection U as <-. right. split; [lia|]. auto.
  - left. injection U as <-. split; [reflexivity|]. unfold lenZ in G. lia.
Qed.

Lemma clock_inner_form : forall debug h m s u l, clock_form (negb debug) h m s u l ->
  time_text_inner debug l = Ok (clock_result h m s u).
Proof.
  intros debug h m s u l (a & b & c & f & -> & Ha & Hh & Hb & Hc & Hf).
  destruct b as [|b0 [|b1 [|x b]]]; try (destruct Hb as (Hb & _); discriminate Hb).
  destruct c as [|c0 [|c1 [|x c]]]; try (destruct Hc as (Hc & _); discriminate Hc).
  pose proof (lenZ_nonneg _ a) as La0. pose proof (lenZ_nonneg _ f) as Lf0. unfold time_text_inner.
  change ([58] ++ [b0; b1] ++ [58] ++ [c0; c1] ++ f) with (58 :: b0 :: b1 :: 58 :: c0 :: c1 :: f).
  rewrite (position_app 58 a); [|destruct Ha as (_ & Da & _); apply digits_no; [assumption|unfold digit; lia]].
  set (v := a ++ 58 :: b0 :: b1 :: 58 :: c0 :: c1 :: f). remember (lenZ a) as n eqn:La.
  assert (Lv : lenZ v = n + 6 + lenZ f) by (unfold v; rewrite lenZ_app, <- La, !lenZ_cons; lia).
  rewrite Lv. destruct (Z.ltb_spec (n + 6 + lenZ f) (n + 6)); [lia|].
  assert (X : at_ v (n + 3) = 58).
  { replace v with ((a ++ [58; b0; b1]) ++ 58 :: c0 :: c1 :: f) by (unfold v; rewrite <- app_assoc; reflexivity).
    apply at_mid. rewrite lenZ_app, <- La. reflexivity. }
  rewrite X. change (negb (58 =? 58)) with false. cbn match.
  assert (S1 : slice v 0 n = a) by (apply (slice_mid [] a); [reflexivity|lia]).
  assert (S2 : slice v (n + 1) (n + 3) = [b0; b1]).
  { replace v with ((a ++ [58]) ++ [b0; b1] ++ 58 :: c0 :: c1 :: f) by (unfold v; rewrite <- !app_assoc; reflexivity).
    apply slice_mid; [rewrite lenZ_app, <- La; reflexivity|]. rewrite !lenZ_cons, lenZ_nil. lia. }
  assert (S3 : slice v (n + 4) (n + 6) = [c0; c1]).
  { replace v with ((a ++ [58; b0; b1; 58]) ++ [c0; c1] ++ f) by (unfold v; rewrite <- !app_assoc; reflexivity).
    apply slice_mid; [rewrite lenZ_app, <- La; reflexivity|]. rewrite !lenZ_cons, lenZ_nil. lia. }
  rewrite S1, S2, S3. rewrite (btou_ok _ _ _ Ha) by lia. rewrite (btou_fixed2 _ _ Hb), (btou_fixed2 _ _ Hc).
  cbn [or_invalid rbind].
  destruct Hf as [(-> & Lf)|(g & -> & G1 & G2 & G3 & G4)].
  - destruct (Z.gtb_spec (n + 6 + lenZ f) (n + 7)) as [G|G]; [unfold lenZ in G; lia|]. reflexivity.
  - assert (Lg : 1 <= lenZ g) by (destruct g; [congruence|]; rewrite lenZ_cons; pose proof (lenZ_nonneg _ g); lia).
    rewrite lenZ_cons. destruct (Z.gtb_spec (n + 6 + (1 + lenZ g)) (n + 7)) as [_|]; [|lia].
    assert (Y : at_ v (n + 6) = 46).
    { replace v with ((a ++ [58; b0; b1; 58; c0; c1]) ++ 46 :: g) by (unfold v; rewrite <- app_assoc; reflexivity).
      apply at_mid. rewrite lenZ_app, <- La. reflexivity. }
    rewrite Y. change (negb (46 =? 46)) with false. cbn match. cbn zeta.
    assert (D : dropZ (n + 7) v = g).
    { replace v with ((a ++ [58; b0; b1; 58; c0; c1; 46]) ++ g) by (unfold v; rewrite <- app_assoc; reflexivity).
      apply dropZ_app_exact. rewrite lenZ_app, <- La. reflexivity. }
    rewrite D. rewrite (btou_ok _ g (dec_val g)); [|split; auto|lia]. cbn [or_invalid rbind]. unfold scale_micros.
    destruct G4 as [(L & ->)|(L & Hd & ->)].
    + destruct (Z.leb_spec (lenZ g) 6) as [_|N]; [|unfold lenZ in N; lia]. reflexivity.
    + destruct (Z.leb_spec (lenZ g) 6) as [N|_]; [unfold lenZ in N; lia|]. destruct debug; [discriminate|]. reflexivity.
Qed.

Lemma clock_form_head : forall long h m s u x l, clock_form long h m s u (x :: l) -> x <> 45.
Proof.
  intros long h m s u x l (a & b & c & f & E & (Na & Da & _) & _) ->. destruct a as [|y a]; [congruence|].
  injection E as <- _. inversion Da as [|? ? D _]; subst. unfold digit in D. lia.
Qed.

Lemma time_iff : forall debug l v, time_text debug l = Ok v <-> time_form (negb debug) v l.
Proof.
  intros debug l v. split.
  - intros H. unfold time_text in H. destruct l as [|x l]; [discriminate|]. cbn zeta in H.
    apply rbind_ok in H as (t & T & H). apply clock_inner_inv in T as (h & m & s & u & -> & C). cbn in H. injection H as <-.
    destruct (Z.eqb_spec x 45) as [->|N].
    + exists true, h, m, s, u, l. auto.
    + exists false, h, m, s, u, (x :: l). auto.
  - intros (neg & h & m & s & u & l' & -> & -> & C). unfold time_text. destruct neg.
    + cbn [app]. change (45 =? 45) with true. cbn match. rewrite (clock_inner_form debug _ _ _ _ _ C). reflexivity.
    + cbn [app]. destruct l' as [|x l']; [destruct C as ([|] & b & c & f & E & _); discriminate|].
      pose proof (clock_form_head _ _ _ _ _ _ _ C). destruct (Z.eqb_spec x 45); [contradiction|].
      rewrite (clock_inner_form debug _ _ _ _ _ C). reflexivity.
Qed.

Lemma date_iff : forall l v, date_text l = Ok v <-> exists y m d, v = VDate y m d /\ spec_date y m d l.
Proof.
  intros l v. split.
  - intros H. unfold date_text in H. apply rbind_ok in H as (((y & m) & d) & D & H). injection H as <-.
    exists y, m, d. split; [reflexivity|]. now apply date_inner_inv.
  - intros (y & m & d & -> & H). now apply date_ok.
Qed.

Lemma datetime_iff : forall debug l v, datetime_text debug l = Ok v <-> datetime_form (negb debug) v l.
Proof.
  intros debug l v. split.
  - intros H. unfold datetime_text in H. destruct (Z.ltb_spec (lenZ l) 19) as [|L]; [no|].
    apply rbind_ok in H as (((y & mo) & d) & D & H). apply rbind_ok in H as (t & T & H).
    apply clock_inner_inv in T as (h & m & s & u & -> & C). cbn in H. injection H as <-. apply date_inner_inv in D.
    exists y, mo, d, h, m, s, u, (takeZ 10 l), (nth 10 l 0), (dropZ 11 l). split; [reflexivity|]. split; [|split; [unfold lenZ in L; lia|auto]].
    unfold lenZ in L. do 11 (destruct l as [|? l]; [cbn [length] in L; lia|]). clear.
    rewrite (takeZ_app_exact _ 10 [z; z0; z1; z2; z3; z4; z5; z6; z7; z8] (z9 :: l) eq_refl : takeZ 10 (z :: z0 :: z1 :: z2 :: z3 :: z4 :: z5 :: z6 :: z7 :: z8 :: z9 :: l) = _).
    rewrite (dropZ_app_exact _ 11 [z; z0; z1; z2; z3; z4; z5; z6; z7; z8; z9] l eq_refl : dropZ 11 (z :: z0 :: z1 :: z2 :: z3 :: z4 :: z5 :: z6 :: z7 :: z8 :: z9 :: l) = _). reflexivity.
  - intros (y & mo & d & h & m & s & u & a & x & b & -> & -> & L & D & C). unfold datetime_text.
    destruct (Z.ltb_spec (lenZ (a ++ [x] ++ b)) 19) as [N|_]; [unfold lenZ in N; lia|].
    pose proof (spec_date_len _ _ _ _ D) as La. rewrite takeZ_app_exact by exact La.
    rewrite (date_inner_ok _ _ _ _ D). cbn [rbind].
    replace (dropZ 11 (a ++ [x] ++ b)) with b by (rewrite app_assoc; symmetry; apply dropZ_app_exact; rewrite lenZ_app, La; reflexivity).
    rewrite (clock_inner_form debug _ _ _ _ _ C). reflexivity.
Qed.

Lemma btoi_iff : forall min max l n, min <= 0 <= max -> (btoi min max l = Some n <-> min <= n <= max /\ integer_form n l).
Proof.
  intros min max l n Hr. split; [now apply btoi_inv|]. intros (R & [H|(l' & -> & H)]); [now apply btoi_ok|].
  unfold btoi. change (43 =? 43) with true. cbn match. apply btou_ok; [exact H|lia].
Qed.
