(** Lemmas for C125. *)
From Coq Require Import ZArith List Bool Lia.
From Verif Require Import Base Types ValueEq Spec_Wire Spec_Stmt Spec_Stored Spec_ValueEq.
Import ListNotations.
Open Scope Z_scope.

Ltac split_all := repeat match goal with |- _ /\ _ => split end.

Section Float.
  Variables m w : Z.
  Hypothesis Hm : 1 <= m.
  Hypothesis Hw : 2 <= w.

  Lemma fields_exist : forall x, 0 <= x < 2 ^ (m + w + 1) ->
    fields m w x (x / 2 ^ (m + w)) ((x / 2 ^ m) mod 2 ^ w) (x mod 2 ^ m).
  Proof.
    intros x Hx. unfold fields.
    assert (Pm : 0 < 2 ^ m) by (apply Z.pow_pos_nonneg; lia). assert (Pw : 0 < 2 ^ w) by (apply Z.pow_pos_nonneg; lia).
    assert (E : 2 ^ (m + w) = 2 ^ m * 2 ^ w) by (apply Z.pow_add_r; lia).
    assert (E1 : 2 ^ (m + w + 1) = 2 ^ (m + w) * 2) by (rewrite Z.pow_add_r by lia; reflexivity).
    pose proof (Z.div_mod x (2 ^ m) ltac:(lia)) as A. pose proof (Z.div_mod (x / 2 ^ m) (2 ^ w) ltac:(lia)) as B.
    rewrite Z.div_div in B by lia. rewrite <- E in B.
    split_all.
    - rewrite E in *. rewrite A at 1. rewrite B at 1. ring.
    - apply Z.div_pos; lia.
    - assert (x / 2 ^ (m + w) < 2); [|lia]. apply Z.div_lt_upper_bound; lia.
    - apply Z.mod_pos_bound; lia.
    - apply Z.mod_pos_bound; lia.
    - apply Z.mod_pos_bound; lia.
    - apply Z.mod_pos_bound; lia.
  Qed.

  Lemma fields_ex : forall x, 0 <= x < 2 ^ (m + w + 1) -> exists s e f, fields m w x s e f.
  Proof. intros x Hx. do 3 eexists. apply fields_exist. exact Hx. Qed.

  Lemma fields_unique : forall x s e f s' e' f', fields m w x s e f -> fields m w x s' e' f' -> s = s' /\ e = e' /\ f = f'.
  Proof.
    intros x s e f s' e' f' (E & S & Ee & F) (E' & S' & Ee' & F').
    assert (Pm : 0 < 2 ^ m) by (apply Z.pow_pos_nonneg; lia). assert (Pw : 0 < 2 ^ w) by (apply Z.pow_pos_nonneg; lia).
    rewrite Z.pow_add_r in * by lia. set (M := 2 ^ m) in *. set (W := 2 ^ w) in *.
    assert (X : M * (s * W + e) + f = M * (s' * W + e') + f') by lia.
    destruct (Z.div_mod_unique M _ _ _ _ (or_introl F) (or_introl F') X) as (Q & ->).
    assert (Y : W * s + e = W * s' + e') by lia.
    destruct (Z.div_mod_unique W _ _ _ _ (or_introl Ee) (or_introl Ee') Y) as (-> & ->). auto.
  Qed.

  Definition mag (e f : Z) : Z := if e =? 0 then f else (2 ^ m + f) * 2 ^ (e - 1).

  Lemma mag_lt : forall e f e' f', 0 <= e < e' -> 0 <= f < 2 ^ m -> 0 <= f' < 2 ^ m -> mag e f < mag e' f'.
  Proof.
    intros e f e' f' He F F'. unfold mag. assert (Pm : 0 < 2 ^ m) by (apply Z.pow_pos_nonneg; lia).
    replace (e' =? 0) with false by lia.
    assert (P1 : 1 <= 2 ^ (e' - 1)) by (apply Z.lt_pred_le, Z.pow_pos_nonneg; lia).
    destruct (e =? 0) eqn:E0.
    - apply Z.lt_le_trans with (2 ^ m); [lia|]. rewrite <- (Z.mul_1_r (2 ^ m)) at 1. apply Z.mul_le_mono_nonneg; lia.
    - assert (P : 2 ^ (e - 1) * 2 <= 2 ^ (e' - 1)).
      { rewrite Z.mul_comm, <- Z.pow_succ_r by lia. apply Z.pow_le_mono_r; lia. }
      assert (P0 : 0 < 2 ^ (e - 1)) by (apply Z.pow_pos_nonneg; lia).
      apply Z.lt_le_trans with (2 ^ m * 2 * 2 ^ (e - 1)).
      + apply Z.mul_lt_mono_pos_r; lia.
      + replace (2 ^ m * 2 * 2 ^ (e - 1)) with (2 ^ m * (2 ^ (e - 1) * 2)) by ring. apply Z.mul_le_mono_nonneg; lia.
  Qed.

  Lemma mag_inj : forall e f e' f', 0 <= e -> 0 <= e' -> 0 <= f < 2 ^ m -> 0 <= f' < 2 ^ m -> mag e f = mag e' f' -> e = e' /\ f = f'.
  Proof.
    intros e f e' f' He He' F F' X. destruct (Z.lt_trichotomy e e') as [L | [-> | L]].
    - pose proof (mag_lt e f e' f' ltac:(lia) F F'). lia.
    - split; [reflexivity|]. unfold mag in X. destruct (e' =? 0) eqn:E; [exact X|].
      apply Z.mul_reg_r in X; [lia|]. apply Z.pow_nonzero; lia.
    - pose proof (mag_lt e' f' e f ltac:(lia) F' F). lia.
  Qed.

  Lemma mag_nonneg : forall e f, 0 <= f -> 0 <= mag e f.
  Proof.
    intros e f F. unfold mag. destruct (e =? 0); [exact F|]. apply Z.mul_nonneg_nonneg; [|apply Z.pow_nonneg; lia].
    assert (0 < 2 ^ m) by (apply Z.pow_pos_nonneg; lia). lia.
  Qed.
  Lemma mag_zero : forall e f, 0 <= e -> 0 <= f < 2 ^ m -> mag e f = 0 -> e = 0 /\ f = 0.
  Proof.
    intros e f He F X. assert (Pm : 0 < 2 ^ m) by (apply Z.pow_pos_nonneg; lia).
    apply (mag_inj e f 0 0); try lia. exact X.
  Qed.

  Lemma zero_fields : forall x s e f, fields m w x s e f -> (is_zero m w x = true <-> e = 0 /\ f = 0).
  Proof.
    intros x s e f (E & S & Ee & F). unfold is_zero.
    assert (Pm : 0 < 2 ^ m) by (apply Z.pow_pos_nonneg; lia). assert (Pw : 0 < 2 ^ w) by (apply Z.pow_pos_nonneg; lia).
    assert (EE : 2 ^ (m + w) = 2 ^ m * 2 ^ w) by (apply Z.pow_add_r; lia).
    assert (B : 0 <= e * 2 ^ m + f < 2 ^ (m + w)).
    { rewrite EE. split; [apply Z.add_nonneg_nonneg; [apply Z.mul_nonneg_nonneg|]; lia|].
      apply Z.lt_le_trans with ((e + 1) * 2 ^ m); [lia|]. rewrite Z.mul_comm. apply Z.mul_le_mono_nonneg_l; lia. }
    replace (x mod 2 ^ (m + w)) with (e * 2 ^ m + f).
    2:{ apply (Z.mod_unique x (2 ^ (m + w)) s); [now left|]. lia. }
    rewrite Z.eqb_eq. split; [|intros (-> & ->); lia].
    intros X. assert (0 <= e * 2 ^ m) by (apply Z.mul_nonneg_nonneg; lia). assert (f = 0) by lia. split; [|assumption].
    assert (Y : e * 2 ^ m = 0) by lia. apply Z.mul_eq_0 in Y. lia.
  Qed.

  Lemma nan_fields : forall x s e f, 0 <= x < 2 ^ (m + w + 1) -> fields m w x s e f ->
    (is_nan m w x = true <-> e = 2 ^ w - 1 /\ f <> 0).
  Proof.
    intros x s e f Hx H. destruct (fields_unique _ _ _ _ _ _ _ H (fields_exist x Hx)) as (_ & -> & ->).
    unfold is_nan. rewrite andb_true_iff, negb_true_iff, Z.eqb_eq, Z.eqb_neq. reflexivity.
  Qed.

  Lemma float_same : forall x y, 0 <= x < 2 ^ (m + w + 1) -> 0 <= y < 2 ^ (m + w + 1) ->
    (float_eqb m w x y = true <-> same_float m w x y).
  Proof.
    intros x y Hx Hy. destruct (fields_ex x Hx) as (s & e & f & Fx). destruct (fields_ex y Hy) as (s' & e' & f' & Fy).
    pose proof (nan_fields x s e f Hx Fx) as Nx. pose proof (nan_fields y s' e' f' Hy Fy) as Ny.
    pose proof (zero_fields x s e f Fx) as Zx. pose proof (zero_fields y s' e' f' Fy) as Zy.
    assert (Pm : 0 < 2 ^ m) by (apply Z.pow_pos_nonneg; lia).
    assert (Pw : 4 <= 2 ^ w) by (change 4 with (2 ^ 2); apply Z.pow_le_mono_r; lia).
    unfold float_eqb. rewrite !andb_true_iff, !negb_true_iff, orb_true_iff, andb_true_iff, Z.eqb_eq. split.
    - intros ((A & B) & C). apply not_true_iff_false in A, B. rewrite Nx in A. rewrite Ny in B. destruct C as [<- | (C & C')].
      + destruct (Z.eq_dec e (2 ^ w - 1)) as [E | E].
        * right. exists s. assert (f = 0) as F0 by (destruct (Z.eq_dec f 0); [assumption | exfalso; auto]).
          unfold infinite. rewrite E, F0 in Fx. auto.
        * left. eexists. split; exists s, e, f; split_all; try eassumption; reflexivity.
      + apply Zx in C. apply Zy in C'. destruct C as (C1 & C2), C' as (C3 & C4). rewrite C1, C2 in Fx. rewrite C3, C4 in Fy.
        left. exists 0. split; [exists s, 0, 0 | exists s', 0, 0]; split_all; try assumption; try lia; cbn; ring.
    - intros [(n & (s1 & e1 & f1 & F1 & E1 & V1) & (s2 & e2 & f2 & F2 & E2 & V2)) | (t & I & I')].
      + destruct (fields_unique _ _ _ _ _ _ _ Fx F1) as (<- & <- & <-). destruct (fields_unique _ _ _ _ _ _ _ Fy F2) as (<- & <- & <-).
        split; [split; apply not_true_iff_false; [rewrite Nx | rewrite Ny]; tauto|].
        destruct Fx as (Xx & Ss & Ee & Ff). destruct Fy as (Xy & Ss' & Ee' & Ff').
        change (if e =? 0 then f else (2 ^ m + f) * 2 ^ (e - 1)) with (mag e f) in V1.
        change (if e' =? 0 then f' else (2 ^ m + f') * 2 ^ (e' - 1)) with (mag e' f') in V2.
        pose proof (mag_nonneg e f ltac:(lia)). pose proof (mag_nonneg e' f' ltac:(lia)).
        assert (M : mag e f = mag e' f') by (assert (s = 0 \/ s = 1) as [S1 | S1] by lia; assert (s' = 0 \/ s' = 1) as [S2 | S2] by lia; rewrite S1, S2 in *; lia).
        destruct (Z.eq_dec s s') as [S | S].
        * left. apply mag_inj in M; lia.
        * right. assert (Z0 : mag e f = 0) by (assert (s = 0 \/ s = 1) as [S1 | S1] by lia; assert (s' = 0 \/ s' = 1) as [S2 | S2] by lia; rewrite S1, S2 in *; lia).
          split; [apply Zx; apply mag_zero; lia | apply Zy; apply mag_zero; lia].
      + destruct (fields_unique _ _ _ _ _ _ _ Fx I) as (_ & E & F0). destruct (fields_unique _ _ _ _ _ _ _ Fy I') as (_ & E' & F0').
        split; [split; apply not_true_iff_false; [rewrite Nx | rewrite Ny]; tauto|]. left. destruct I as (-> & _). destruct I' as (-> & _). reflexivity.
  Qed.

  Lemma same_refl : forall x, 0 <= x < 2 ^ (m + w + 1) -> (same_float m w x x <-> ~ no_number m w x).
  Proof.
    intros x Hx. rewrite <- float_same by assumption. pose proof (fields_exist x Hx) as Fx.
    pose proof (nan_fields x _ _ _ Hx Fx) as Nx. unfold float_eqb. rewrite Z.eqb_refl. cbn [orb]. rewrite andb_true_r, andb_diag, negb_true_iff.
    rewrite <- not_true_iff_false, Nx. split; intros H N; apply H.
    - destruct N as (s & f & F & Z0). destruct (fields_unique _ _ _ _ _ _ _ Fx F) as (_ & -> & ->). auto.
    - destruct N as (E & Z0). rewrite E in Fx. now exists (x / 2 ^ (m + w)), (x mod 2 ^ m).
  Qed.
End Float.

From Verif Require Import BaseFacts.

Lemma bits32 : forall x, unsigned_ok 4 x -> 0 <= x < 2 ^ (23 + 8 + 1).
Proof. unfold unsigned_ok. intros x H. change (2 ^ (23 + 8 + 1)) with (2 ^ (8 * 4)). lia. Qed.
Lemma bits64 : forall x, unsigned_ok 8 x -> 0 <= x < 2 ^ (52 + 11 + 1).
Proof. unfold unsigned_ok. intros x H. change (2 ^ (52 + 11 + 1)) with (2 ^ (8 * 8)). lia. Qed.

Lemma same_eq : forall v w, (forall x, v <> VFloat x) -> (forall x, v <> VDouble x) -> (same_value v w <-> v = w).
Proof.
  intros v w A B. split.
  - intros H. destruct H; [now elim (A x) | now elim (B x) | reflexivity].
  - intros <-. now constructor.
Qed.

Lemma eqb_same : forall v w, value_ok v -> value_ok w -> (value_eqb v w = true <-> same_value v w).
Proof.
  intros v w Hv Hw.
  destruct v; try (rewrite same_eq by discriminate; destruct w; cbn [value_eqb];
    try (split; [discriminate | intros; discriminate]); try (rewrite Z.eqb_eq; split; congruence)).
  - split; reflexivity.
  - destruct w; cbn [value_eqb]; try (split; [discriminate | intros X; inversion X]).
    cbn [value_ok] in Hv, Hw. rewrite float_same by (try lia; now apply bits32). split; [now constructor|].
    intros X. inversion X; subst; [assumption | congruence].
  - destruct w; cbn [value_eqb]; try (split; [discriminate | intros X; inversion X]).
    cbn [value_ok] in Hv, Hw. rewrite float_same by (try lia; now apply bits64). split; [now constructor|].
    intros X. inversion X; subst; [assumption | congruence].
  - rewrite list_eqb_eq. split; congruence.
  - rewrite !andb_true_iff, !Z.eqb_eq. split; [intros ((-> & ->) & ->); reflexivity | intros [= -> -> ->]; auto].
  - rewrite !andb_true_iff, !Z.eqb_eq, Bool.eqb_true_iff.
    split; [intros (((((-> & ->) & ->) & ->) & ->) & ->); reflexivity | intros [= -> -> -> -> -> ->]; auto 10].
  - rewrite !andb_true_iff, !Z.eqb_eq.
    split; [intros ((((((-> & ->) & ->) & ->) & ->) & ->) & ->); reflexivity | intros [= -> -> -> -> -> -> ->]; auto 10].
Qed.

Lemma eqb_refl : forall v, value_ok v -> (value_eqb v v = true <-> is_number v).
Proof.
  intros v Hv. rewrite eqb_same by assumption. unfold is_number.
  destruct v; try (rewrite same_eq by discriminate; split; [intros _; split; discriminate | reflexivity]).
  - cbn [value_ok] in Hv. pose proof (same_refl 23 8 ltac:(lia) ltac:(lia) _ (bits32 _ Hv)) as R. split.
    + intros X. inversion X; subst; [|congruence]. split; [intros ? [= <-]; now apply R | discriminate].
    + intros (A & _). constructor. now apply R, A.
  - cbn [value_ok] in Hv. pose proof (same_refl 52 11 ltac:(lia) ltac:(lia) _ (bits64 _ Hv)) as R. split.
    + intros X. inversion X; subst; [|congruence]. split; [discriminate | intros ? [= <-]; now apply R].
    + intros (_ & A). constructor. now apply R, A.
Qed.

Lemma same_float_sym : forall m w x y, same_float m w x y -> same_float m w y x.
Proof. intros m w x y [(n & A & B) | (s & A & B)]; [left; now exists n | right; now exists s]. Qed.
Lemma same_sym : forall v w, same_value v w -> same_value w v.
Proof. intros v w H. destruct H; constructor; auto using same_float_sym. Qed.

Lemma finite_unique : forall m w x n n', 1 <= m -> 2 <= w -> finite m w x n -> finite m w x n' -> n = n'.
Proof.
  intros m w x n n' Hm Hw (s & e & f & F & _ & ->) (s' & e' & f' & F' & _ & ->).
  destruct (fields_unique m w Hm Hw _ _ _ _ _ _ _ F F') as (-> & -> & ->). reflexivity.
Qed.
Lemma same_float_trans : forall m w x y z, 1 <= m -> 2 <= w -> same_float m w x y -> same_float m w y z -> same_float m w x z.
Proof.
  intros m w x y z Hm Hw [(n & A & B) | (s & A & B)] [(n' & C & D) | (s' & C & D)].
  - rewrite (finite_unique m w y n n' Hm Hw B C) in A. left. now exists n'.
  - exfalso. destruct B as (t & e & f & F & E & _). destruct (fields_unique m w Hm Hw _ _ _ _ _ _ _ F C) as (_ & -> & _). auto.
  - exfalso. destruct C as (t & e & f & F & E & _). destruct (fields_unique m w Hm Hw _ _ _ _ _ _ _ F B) as (_ & -> & _). auto.
  - destruct (fields_unique m w Hm Hw _ _ _ _ _ _ _ B C) as (-> & _). right. now exists s'.
Qed.
Lemma same_trans : forall u v w, same_value u v -> same_value v w -> same_value u w.
Proof.
  intros u v w A B. destruct A.
  - inversion B; subst; [|congruence]. constructor. eapply same_float_trans; eauto; lia.
  - inversion B; subst; [|congruence]. constructor. eapply same_float_trans; eauto; lia.
  - exact B.
Qed.

Lemma value_eqb_content : forall c d d' v v', holds c d -> holds c d' -> stands_for c d v -> stands_for c d' v' ->
  (value_eqb v v' = true <-> same_content d d').
Proof.
  intros c d d' v v' H H' S S'.
  assert (O : forall d, (forall x, d <> DFloat x) -> (forall x, d <> DDouble x) -> forall d', same_content d d' <-> d = d').
  { intros a A B b. split; [intros X; destruct X; [now elim (A x) | now elim (B x) | reflexivity] | intros <-; now constructor]. }
  destruct S; inversion H; subst; try (rewrite O by discriminate);
    inversion S'; subst; cbn [value_eqb]; try (split; [discriminate | intros X; first [discriminate | inversion X]]);
    try (rewrite Z.eqb_eq; split; congruence); try (inversion H'; subst; discriminate).
  1: split; reflexivity.
  1-20: exfalso; repeat match goal with X : _ \/ _ |- _ => destruct X end; subst; try discriminate; try congruence;
    repeat match goal with X : str_type _ |- _ => inversion X; clear X end.
  - inversion H'; subst. rewrite float_same by (try lia; unfold u32 in *; cbn; lia). split; [now constructor|].
    intros X. inversion X; subst; [assumption | congruence].
  - inversion H'; subst. rewrite float_same by (try lia; unfold u64 in *; cbn; lia). split; [now constructor|].
    intros X. inversion X; subst; [assumption | congruence].
  - rewrite list_eqb_eq. split; congruence.
  - rewrite !andb_true_iff, !Z.eqb_eq. split; [intros ((-> & ->) & ->); reflexivity | intros [= -> -> ->]; auto].
  - rewrite !andb_true_iff, !Z.eqb_eq.
    split; [intros ((((((-> & ->) & ->) & ->) & ->) & ->) & ->); reflexivity | intros [= -> -> -> -> -> -> ->]; auto 10].
  - rewrite !andb_true_iff, !Z.eqb_eq, Bool.eqb_true_iff.
    split; [intros (((((-> & ->) & ->) & ->) & ->) & ->); reflexivity | intros [= -> E -> -> ->]; splits; auto; lia].
Qed.
