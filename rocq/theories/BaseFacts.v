(** Lemmas about [Base]. *)
From Coq Require Import ZArith List Bool Lia.
From Coq Require Export ZifyBool ZifyNat ZifyN.
From Verif Require Import Base.
Import ListNotations.
Open Scope Z_scope.

Global Arguments lenZ : simpl never.
Global Arguments Z.mul : simpl never.
Global Arguments Z.add : simpl never.
Global Arguments Z.sub : simpl never.
Global Arguments Z.pow : simpl never.
Global Arguments Z.modulo : simpl never.
Global Arguments Z.div : simpl never.

Ltac Zify.zify_post_hook ::= Z.div_mod_to_equations.

Ltac splits := repeat match goal with |- _ /\ _ => split end.

Lemma lenZ_nonneg : forall A (l : list A), 0 <= lenZ l.
Proof. intros; unfold lenZ; lia. Qed.
Global Hint Resolve lenZ_nonneg : core.

Lemma lenZ_nil : forall A, @lenZ A [] = 0.
Proof. reflexivity. Qed.

Lemma lenZ_cons : forall A (x : A) l, lenZ (x :: l) = 1 + lenZ l.
Proof. intros; unfold lenZ; cbn [length]; lia. Qed.

Lemma lenZ_app : forall A (l r : list A), lenZ (l ++ r) = lenZ l + lenZ r.
Proof. intros; unfold lenZ; rewrite app_length; lia. Qed.

Lemma lenZ_map : forall A B (f : A -> B) l, lenZ (map f l) = lenZ l.
Proof. intros; unfold lenZ; rewrite map_length; lia. Qed.

Lemma lenZ_0 : forall A (l : list A), lenZ l = 0 -> l = [].
Proof. intros A [|x l]; [auto|]. rewrite lenZ_cons. pose proof (lenZ_nonneg _ l). lia. Qed.

Lemma takeZ_firstn : forall A (l : list A) n, takeZ n l = firstn (Z.to_nat n) l.
Proof.
  induction l as [|x l IH]; intros n; cbn [takeZ].
  - now rewrite firstn_nil.
  - destruct (n <=? 0) eqn:E.
    + replace (Z.to_nat n) with 0%nat by lia. reflexivity.
    + replace (Z.to_nat n) with (S (Z.to_nat (n - 1))) by lia.
      cbn [firstn]. now rewrite IH.
Qed.

Lemma dropZ_skipn : forall A (l : list A) n, dropZ n l = skipn (Z.to_nat n) l.
Proof.
  induction l as [|x l IH]; intros n; cbn [dropZ].
  - now rewrite skipn_nil.
  - destruct (n <=? 0) eqn:E.
    + replace (Z.to_nat n) with 0%nat by lia. reflexivity.
    + replace (Z.to_nat n) with (S (Z.to_nat (n - 1))) by lia.
      cbn [skipn]. now rewrite IH.
Qed.

Lemma take_drop : forall A n (l : list A), takeZ n l ++ dropZ n l = l.
Proof. intros; rewrite takeZ_firstn, dropZ_skipn; apply firstn_skipn. Qed.

Lemma lenZ_takeZ : forall A n (l : list A), 0 <= n -> lenZ (takeZ n l) = Z.min n (lenZ l).
Proof. intros; rewrite takeZ_firstn; unfold lenZ; rewrite firstn_length; lia. Qed.

Lemma lenZ_takeZ_le : forall A n (l : list A), 0 <= n <= lenZ l -> lenZ (takeZ n l) = n.
Proof. intros; rewrite lenZ_takeZ; lia. Qed.

Lemma lenZ_dropZ : forall A n (l : list A), 0 <= n -> lenZ (dropZ n l) = Z.max 0 (lenZ l - n).
Proof. intros; rewrite dropZ_skipn; unfold lenZ; rewrite skipn_length; lia. Qed.

Lemma takeZ_all : forall A n (l : list A), lenZ l <= n -> takeZ n l = l.
Proof. intros A n l H; rewrite takeZ_firstn; apply firstn_all2; unfold lenZ in H; lia. Qed.

Lemma dropZ_all : forall A n (l : list A), lenZ l <= n -> dropZ n l = [].
Proof. intros A n l H; rewrite dropZ_skipn; apply skipn_all2; unfold lenZ in H; lia. Qed.

Lemma takeZ_0 : forall A n (l : list A), n <= 0 -> takeZ n l = [].
Proof. intros; rewrite takeZ_firstn; replace (Z.to_nat n) with 0%nat by lia; reflexivity. Qed.

Lemma dropZ_0 : forall A n (l : list A), n <= 0 -> dropZ n l = l.
Proof. intros; rewrite dropZ_skipn; replace (Z.to_nat n) with 0%nat by lia; reflexivity. Qed.

Lemma takeZ_app_exact : forall A n (l r : list A), lenZ l = n -> takeZ n (l ++ r) = l.
Proof.
  intros A n l r H; rewrite takeZ_firstn. unfold lenZ in H.
  replace (Z.to_nat n) with (length l + 0)%nat by lia.
  rewrite firstn_app_2. cbn. apply app_nil_r.
Qed.

Lemma dropZ_app_exact : forall A n (l r : list A), lenZ l = n -> dropZ n (l ++ r) = r.
Proof.
  intros A n l r H; rewrite dropZ_skipn. unfold lenZ in H.
  replace (Z.to_nat n) with (length l) by lia.
  rewrite skipn_app, skipn_all, Nat.sub_diag. reflexivity.
Qed.

Lemma takeZ_app_le : forall A n (l r : list A), n <= lenZ l -> takeZ n (l ++ r) = takeZ n l.
Proof.
  intros A n l r H; rewrite !takeZ_firstn. unfold lenZ in H.
  rewrite firstn_app. replace (Z.to_nat n - length l)%nat with 0%nat by lia.
  cbn. apply app_nil_r.
Qed.

Lemma dropZ_app_le : forall A n (l r : list A), n <= lenZ l -> dropZ n (l ++ r) = dropZ n l ++ r.
Proof.
  intros A n l r H; rewrite !dropZ_skipn. unfold lenZ in H.
  rewrite skipn_app. replace (Z.to_nat n - length l)%nat with 0%nat by lia.
  reflexivity.
Qed.

Lemma takeZ_app_ge : forall A n (l r : list A), lenZ l <= n -> takeZ n (l ++ r) = l ++ takeZ (n - lenZ l) r.
Proof.
  intros A n l r H; rewrite !takeZ_firstn. unfold lenZ in *.
  rewrite firstn_app, firstn_all2 by lia. f_equal. f_equal. lia.
Qed.

Lemma dropZ_app_ge : forall A n (l r : list A), lenZ l <= n -> dropZ n (l ++ r) = dropZ (n - lenZ l) r.
Proof.
  intros A n l r H; rewrite !dropZ_skipn. unfold lenZ in *.
  rewrite skipn_app, skipn_all2 by lia. cbn. f_equal. lia.
Qed.

Lemma Forall_takeZ : forall A (P : A -> Prop) n l, Forall P l -> Forall P (takeZ n l).
Proof.
  intros A P n l H. revert n. induction H; intros n; cbn [takeZ]; auto.
  destruct (n <=? 0); auto.
Qed.

Lemma Forall_dropZ : forall A (P : A -> Prop) n l, Forall P l -> Forall P (dropZ n l).
Proof.
  intros A P n l H. revert n. induction H; intros n; cbn [dropZ]; auto.
  destruct (n <=? 0); auto.
Qed.

Lemma index_opt_0 : forall A (x : A) l, index_opt (x :: l) 0 = Some x.
Proof. reflexivity. Qed.

Lemma index_opt_some : forall A (l : list A) i, 0 <= i < lenZ l -> exists x, index_opt l i = Some x.
Proof.
  intros A l i H. unfold index_opt, lenZ in *. destruct (i <? 0) eqn:E; [lia|].
  destruct (nth_error l (Z.to_nat i)) eqn:F; [eauto|].
  apply nth_error_None in F. lia.
Qed.

Lemma lenZ_repeatZ : forall A (x : A) n, 0 <= n -> lenZ (repeatZ x n) = n.
Proof. intros; unfold lenZ, repeatZ; rewrite repeat_length; lia. Qed.

(** Little-endian codec. *)
Lemma le_bytes_length : forall k n, length (le_bytes k n) = k.
Proof. induction k; intros; cbn [le_bytes length]; auto. Qed.

Lemma lenZ_le_bytes : forall k n, lenZ (le_bytes k n) = Z.of_nat k.
Proof. intros; unfold lenZ; now rewrite le_bytes_length. Qed.

Lemma le_bytes_ok : forall k n, bytes_ok (le_bytes k n).
Proof.
  induction k; intros; cbn [le_bytes]; constructor; auto.
  - unfold byte_ok. apply Z.mod_pos_bound. lia.
  - apply IHk.
Qed.
Global Hint Resolve le_bytes_ok : core.

Lemma pow256_S : forall k, 256 ^ Z.of_nat (S k) = 256 * 256 ^ Z.of_nat k.
Proof. intros; rewrite Nat2Z.inj_succ, Z.pow_succ_r; lia. Qed.

Lemma pow256_pos : forall k, 0 < 256 ^ Z.of_nat k.
Proof. intros; apply Z.pow_pos_nonneg; lia. Qed.

Lemma le_val_bytes_mod : forall k n, le_val (le_bytes k n) = n mod 256 ^ Z.of_nat k.
Proof.
  induction k; intros n.
  - cbn [le_bytes le_val]. change (256 ^ Z.of_nat 0) with 1. now rewrite Z.mod_1_r.
  - cbn [le_bytes le_val]. rewrite IHk, pow256_S.
    pose proof (pow256_pos k).
    rewrite Z.rem_mul_r by lia. reflexivity.
Qed.

Lemma le_val_bytes : forall k n, unsigned_ok k n -> le_val (le_bytes k n) = n.
Proof. intros; rewrite le_val_bytes_mod. apply Z.mod_small; auto. Qed.

Lemma le_val_range : forall l, bytes_ok l -> 0 <= le_val l < 256 ^ lenZ l.
Proof.
  induction 1 as [|b l Hb Hl IH]; cbn [le_val].
  - unfold lenZ; cbn; lia.
  - rewrite lenZ_cons, Z.add_comm, Z.pow_add_r by (auto; lia).
    change (256 ^ 1) with 256. unfold byte_ok in Hb. nia.
Qed.

Lemma le_bytes_val : forall l, bytes_ok l -> le_bytes (length l) (le_val l) = l.
Proof.
  induction 1 as [|b l Hb Hl IH]; cbn [le_val le_bytes length]; auto.
  unfold byte_ok in Hb.
  replace ((b + 256 * le_val l) mod 256) with b.
  - f_equal. replace ((b + 256 * le_val l) / 256) with (le_val l); auto.
    rewrite Z.mul_comm, Z.div_add, Z.div_small; lia.
  - rewrite Z.mul_comm, Z.mod_add, Z.mod_small; lia.
Qed.

Lemma pow256_even : forall k, (0 < k)%nat -> 256 ^ Z.of_nat k = 2 * (256 ^ Z.of_nat k / 2).
Proof.
  intros k Hk. destruct k; [lia|]. rewrite pow256_S.
  replace (256 * 256 ^ Z.of_nat k) with ((128 * 256 ^ Z.of_nat k) * 2) by lia.
  rewrite Z.div_mul; lia.
Qed.

Lemma to_signed_bytes : forall k n, (0 < k)%nat -> signed_ok k n ->
  to_signed k (le_val (le_bytes k n)) = n.
Proof.
  intros k n Hk H. rewrite le_val_bytes_mod. unfold to_signed, signed_ok in *.
  pose proof (pow256_even k Hk) as He. pose proof (pow256_pos k) as Hp.
  set (M := 256 ^ Z.of_nat k) in *. clearbody M.
  set (h := M / 2) in *. clearbody h.
  destruct (Z_lt_ge_dec n 0).
  - replace (n mod M) with (n + M).
    + destruct (n + M <? h) eqn:E; lia.
    + symmetry. rewrite <- (Z.mod_small (n + M) M) by lia.
      rewrite <- (Z.mul_1_l M) at 2. now rewrite Z.mod_add by lia.
  - rewrite Z.mod_small by lia. destruct (n <? h) eqn:E; lia.
Qed.

Lemma to_signed_range : forall k n, (0 < k)%nat -> unsigned_ok k n -> signed_ok k (to_signed k n).
Proof.
  intros k n Hk H. unfold to_signed, signed_ok, unsigned_ok in *.
  pose proof (pow256_even k Hk) as He. pose proof (pow256_pos k) as Hp.
  set (M := 256 ^ Z.of_nat k) in *. clearbody M.
  set (h := M / 2) in *. clearbody h.
  destruct (n <? h) eqn:E; lia.
Qed.

Lemma list_eqb_eq : forall a b, list_eqb a b = true <-> a = b.
Proof.
  induction a as [|x a IH]; destruct b as [|y b]; cbn [list_eqb]; split; intro H;
    try discriminate; auto.
  - apply andb_true_iff in H as [H1 H2]. apply Z.eqb_eq in H1. apply IH in H2. congruence.
  - injection H as -> ->. rewrite Z.eqb_refl. cbn. now apply IH.
Qed.

Lemma list_eqb_refl : forall a, list_eqb a a = true.
Proof. intros; now apply list_eqb_eq. Qed.

Lemma list_eqb_neq : forall a b, list_eqb a b = false <-> a <> b.
Proof.
  intros a b; split; intro H.
  - intros ->. rewrite list_eqb_refl in H. discriminate.
  - destruct (list_eqb a b) eqn:E; auto. apply list_eqb_eq in E. contradiction.
Qed.

Lemma starts_with_app : forall p l, starts_with (p ++ l) p = true.
Proof. induction p; intros; cbn [app starts_with]; auto. rewrite Z.eqb_refl. apply IHp. Qed.

Lemma starts_with_spec : forall p l, starts_with l p = true <-> exists r, l = p ++ r.
Proof.
  induction p as [|y p IH]; intros l; cbn [starts_with].
  - split; [intros _; exists l; reflexivity | auto].
  - destruct l as [|x l]; split; intro H; try discriminate.
    + destruct H as [r H]; discriminate.
    + apply andb_true_iff in H as [H1 H2]. apply Z.eqb_eq in H1. apply IH in H2 as [r ->].
      exists r. subst; reflexivity.
    + destruct H as [r H]. cbn in H. injection H as -> ->.
      rewrite Z.eqb_refl. cbn. apply IH. eauto.
Qed.

Lemma bytes_ok_app : forall a b, bytes_ok (a ++ b) <-> bytes_ok a /\ bytes_ok b.
Proof. intros; unfold bytes_ok; apply Forall_app. Qed.
