(** C125: comparing values. *)
From Coq Require Import String ZArith List Bool Lia.
From Verif Require Import Base BaseFacts Types ValueText ValueEq Spec_Wire Spec_Stmt Spec_Stored Spec_ValueEq ValueEq_proofs.
Import ListNotations.
Open Scope Z_scope.

(** [==] says whether two values have the same type and the same content; floating-point numbers are
    compared by the numbers their bits stand for. *)
Theorem C125_equal : forall v w, value_ok v -> value_ok w -> (value_eqb v w = true <-> same_value v w).
Proof. exact eqb_same. Qed.
Print Assumptions C125_equal.

(** Zeros of both signs are equal, 1.5 is not 1.25 (as f32), and minus infinity (as f64) is itself. *)
Example C125_equal_case :
  same_value (VFloat 0) (VFloat 2147483648) /\ ~ same_value (VFloat 1069547520) (VFloat 1067450368) /\
  same_value (VDouble 18442240474082181120) (VDouble 18442240474082181120).
Proof.
  splits.
  - constructor. left. exists 0. split; [exists 0, 0, 0 | exists 1, 0, 0]; unfold fields; splits; (reflexivity || lia || discriminate).
  - intros H. apply C125_equal in H; [vm_compute in H; discriminate | unfold value_ok, unsigned_ok; cbn; lia..].
  - constructor. right. exists 1. unfold infinite, fields. splits; (reflexivity || lia || discriminate).
Qed.

(** It is symmetric and transitive; a value equals itself unless it is NaN. *)
Theorem C125_equivalence : forall u v w, value_ok u -> value_ok v -> value_ok w ->
  (value_eqb v v = true <-> is_number v) /\ value_eqb u v = value_eqb v u /\
  (value_eqb u v = true -> value_eqb v w = true -> value_eqb u w = true).
Proof.
  intros u v w Hu Hv Hw. splits.
  - now apply eqb_refl.
  - apply eq_true_iff_eq. rewrite !eqb_same by assumption. split; apply same_sym.
  - rewrite !eqb_same by assumption. apply same_trans.
Qed.
Print Assumptions C125_equivalence.

Example C125_equivalence_case :
  value_ok (VDouble 9221120237041090560) /\ ~ is_number (VDouble 9221120237041090560) /\ is_number (VDouble 4609434218613702656) /\
  is_number (VBytes [97]).
Proof.
  assert (N : forall x, value_ok (VDouble x) -> value_eqb (VDouble x) (VDouble x) = true -> is_number (VDouble x)) by (intros x Hx; now apply eqb_refl).
  assert (V : value_ok (VDouble 9221120237041090560)) by (unfold value_ok, unsigned_ok; lia).
  splits.
  - exact V.
  - intros H. apply (eqb_refl _ V) in H. vm_compute in H. discriminate.
  - apply N; [unfold value_ok, unsigned_ok; lia | reflexivity].
  - split; discriminate.
Qed.

(** The values of two contents of one column are equal if and only if the contents are the same.
    Missing: values of columns of different types (refuted below). *)
Theorem C125_column_partial : forall c d d' v v', holds c d -> holds c d' -> stands_for c d v -> stands_for c d' v' ->
  (value_eqb v v' = true <-> same_content d d').
Proof. exact value_eqb_content. Qed.
Print Assumptions C125_column_partial.

(** Times of 30 hours and of 6 hours. *)
Example C125_column_case :
  let c := mkSqlColumn CTime false 0 in
  holds c (DTime false 30 0 0 0) /\ holds c (DTime false 6 0 0 0) /\
  stands_for c (DTime false 30 0 0 0) (VTime false 1 6 0 0 0) /\ stands_for c (DTime false 6 0 0 0) (VTime false 0 6 0 0 0).
Proof.
  cbv zeta. splits.
  - constructor; try lia. split; [lia|]. exists 0. cbn. lia.
  - constructor; try lia. split; [lia|]. exists 0. cbn. lia.
  - apply (sf_time _ false 1 6 0 0 0). lia.
  - apply (sf_time _ false 0 6 0 0 0). lia.
Qed.

(** The same number in an INT column and in a BIGINT column is not equal. *)
Theorem C125_number_refuted : exists c c' d v v', holds c d /\ holds c' d /\ stands_for c d v /\ stands_for c' d v' /\
  value_ok v /\ value_ok v' /\ value_eqb v v' = false.
Proof.
  exists (mkSqlColumn CLong false 0), (mkSqlColumn CLongLong false 0), (DNumber 1), (VInt 1), (VLong 1). splits.
  - eapply holds_signed; [reflexivity | lia].
  - eapply holds_signed; [reflexivity | lia].
  - constructor. auto.
  - constructor.
  - cbn. unfold signed_ok. lia.
  - cbn. unfold signed_ok. lia.
  - reflexivity.
Qed.
Print Assumptions C125_number_refuted.

(** Times that are written alike (a day, and 24 hours) need not be equal. *)
Theorem C125_time_refuted : forall debug f32 f64, exists d h d' h' t,
  value_ok (VTime false d h 0 0 0) /\ value_ok (VTime false d' h' 0 0 0) /\
  value_display debug f32 f64 (VTime false d h 0 0 0) = Some t /\ value_display debug f32 f64 (VTime false d' h' 0 0 0) = Some t /\
  value_eqb (VTime false d h 0 0 0) (VTime false d' h' 0 0 0) = false.
Proof.
  intros debug f32 f64. exists 1, 0, 0, 24. eexists. splits.
  - cbn. unfold unsigned_ok. lia.
  - cbn. unfold unsigned_ok. lia.
  - destruct debug; vm_compute; reflexivity.
  - destruct debug; vm_compute; reflexivity.
  - reflexivity.
Qed.
Print Assumptions C125_time_refuted.
