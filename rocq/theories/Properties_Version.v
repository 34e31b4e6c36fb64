(** C88: the text of a migration version. *)
From Coq Require Import String ZArith List Bool Lia.
From Verif Require Import Base BaseFacts Types ValueText Migrator Spec_Text Escape_proofs Debug_proofs.
Import ListNotations.
Open Scope Z_scope.

(** A version: three numbers (u16 in the program). *)
Definition version_ok (v : version) : Prop := 0 <= v_0 v < 65536 /\ 0 <= v_1 v < 65536 /\ 0 <= v_2 v < 65536.

(** C88: the text is the three numbers in decimal, separated by dots, in parentheses. *)
Theorem C88_version_text : forall v, version_ok v ->
  exists a b c, version_display v = [40] ++ a ++ [46] ++ b ++ [46] ++ c ++ [41] /\
    nat_text (v_0 v) a /\ nat_text (v_1 v) b /\ nat_text (v_2 v) c.
Proof.
  intros v (H0 & H1 & H2). exists (dec (v_0 v)), (dec (v_1 v)), (dec (v_2 v)).
  split; [reflexivity|]. split; [|split]; apply dec_nat; lia.
Qed.
Print Assumptions C88_version_text.

(** C88: two versions with the same text are the same. *)
Theorem C88_version_text_injective : forall v w, version_ok v -> version_ok w -> version_display v = version_display w -> v = w.
Proof.
  intros [a b c] [a2 b2 c2] (H0 & H1 & H2) (K0 & K1 & K2) E. cbn [v_0 v_1 v_2] in *.
  unfold version_display in E. cbn [v_0 v_1 v_2] in E. apply app_inv_head in E.
  assert (P : forall x, exists d r, s2l "." ++ x = d :: r /\ ~ digit d).
  { intros x. exists 46, x. split; [reflexivity|]. unfold digit. lia. }
  apply dec_cut in E as (-> & E); try lia; try apply P. apply app_inv_head in E.
  apply dec_cut in E as (-> & E); try lia; try apply P. apply app_inv_head in E.
  apply dec_cut in E as (-> & _); try lia; [reflexivity| |]; (exists 41, []; split; [reflexivity|]; unfold digit; lia).
Qed.
Print Assumptions C88_version_text_injective.

Example C88_case : version_ok (mkVersion 1 20 300) /\ version_display (mkVersion 1 20 300) = s2l "(1.20.300)".
Proof. split; [unfold version_ok; cbn; lia | reflexivity]. Qed.
