(** Escaped strings where backslashes are ordinary characters. *)
From Coq Require Import String ZArith List Bool Lia.
From Verif Require Import Base BaseFacts Types ParseBuf ValueText Spec_Text Spec_NoBackslash ValueText_proofs Escape_proofs.
Import ListNotations.
Open Scope Z_scope.

Lemma escape_plain : forall c, ~ In c marked -> escape_char c = [c].
Proof.
  intros c H. unfold escape_char. repeat match goal with
  | |- context [if ?x =? ?y then _ else _] => destruct (Z.eqb_spec x y); [subst; exfalso; apply H; unfold marked; cbn [In]; tauto|]
  end. reflexivity.
Qed.

Lemma escape_marked : forall c, In c marked -> exists d, escape_char c = [92; d] /\ (c <> 34 -> d <> 34).
Proof.
  intros c H. unfold marked in H. cbn [In] in H.
  repeat (destruct H as [<-|H]; [eexists; split; [reflexivity|try discriminate; intros X; contradiction]|]). destruct H.
Qed.

Lemma marked_dec : forall c, In c marked \/ ~ In c marked.
Proof. intros c. destruct (in_dec Z.eq_dec c marked); auto. Qed.

Lemma escape_no_quote : forall s, ~ In 34 s -> ~ In 34 (write_escaped_chars s).
Proof.
  intros s H I. unfold write_escaped_chars in I. apply in_flat_map in I. destruct I as (c & Hc & I).
  assert (N : c <> 34) by (intros ->; contradiction). destruct (marked_dec c) as [M|M].
  - destruct (escape_marked c M) as (d & E & D). rewrite E in I. cbn [In] in I. destruct I as [I|[I|[]]]; [discriminate|]. now apply D in N.
  - rewrite escape_plain in I by exact M. cbn [In] in I. destruct I as [I|[]]. now apply N.
Qed.

Lemma escape_length : forall s, (length s <= length (write_escaped_chars s))%nat /\
  (length (write_escaped_chars s) = length s <-> Forall (fun c => ~ In c marked) s).
Proof.
  induction s as [|c s [I1 I2]]; [split; [cbn; lia|split; intros; [constructor|reflexivity]]|].
  cbn [write_escaped_chars flat_map]. fold (write_escaped_chars s). rewrite app_length. destruct (marked_dec c) as [M|M].
  - destruct (escape_marked c M) as (d & -> & _). cbn [length]. split; [lia|]. split; [lia|]. intros F. inversion F. contradiction.
  - rewrite escape_plain by exact M. cbn [length]. split; [lia|]. rewrite Nat.add_1_l. split.
    + intros E. constructor; [exact M|]. apply I2. lia.
    + intros F. inversion_clear F. f_equal. apply I2. assumption.
Qed.

Lemma escape_same : forall s, write_escaped_chars s = s <-> Forall (fun c => ~ In c marked) s.
Proof.
  intros s. split.
  - intros E. apply escape_length. now rewrite E.
  - induction 1 as [|c s M _ IH]; [reflexivity|]. cbn [write_escaped_chars flat_map]. fold (write_escaped_chars s).
    rewrite escape_plain by exact M. now rewrite IH.
Qed.

Lemma lex_through : forall a l, ~ In 34 a -> lex_quoted false 34 (a ++ l) =
  match lex_quoted false 34 l with Some (s, rest) => Some (a ++ s, rest) | None => None end.
Proof.
  induction a as [|c a IH]; intros l H; [cbn [app]; destruct (lex_quoted false 34 l) as [[s r]|]; reflexivity|].
  cbn [app lex_quoted andb]. destruct (Z.eqb_spec c 34) as [->|N]; [exfalso; apply H; now left|].
  rewrite IH by (intros X; apply H; now right). destruct (lex_quoted false 34 l) as [[s r]|]; reflexivity.
Qed.

Lemma lex_shorter : forall n l s r, (length l <= n)%nat -> lex_quoted false 34 l = Some (s, r) -> (length r < length l)%nat.
Proof.
  induction n as [|n IH]; intros [|c l] s r L E; cbn [length] in *; try discriminate; [lia|].
  cbn [lex_quoted andb] in E. destruct (c =? 34).
  - destruct l as [|d l]; [injection E as <- <-; cbn; lia|]. destruct (d =? 34).
    + destruct (lex_quoted false 34 l) as [[s' r']|] eqn:K; [|discriminate]. injection E as <- <-.
      cbn [length] in *. apply IH in K; lia.
    + injection E as <- <-. cbn [length]. lia.
  - destruct (lex_quoted false 34 l) as [[s' r']|] eqn:K; [|discriminate]. injection E as <- <-. apply IH in K; lia.
Qed.

Lemma first_quote : forall s, ~ In 34 s \/ exists a b, s = a ++ 34 :: b /\ ~ In 34 a.
Proof.
  induction s as [|c s IH]; [left; intros []|]. destruct (Z.eq_dec c 34) as [->|N]; [right; exists [], s; split; [reflexivity|intros []]|].
  destruct IH as [IH|(a & b & -> & H)]; [left; intros [X|X]; auto|]. right. exists (c :: a), b. split; [reflexivity|]. intros [X|X]; auto.
Qed.

Lemma escape_first : forall c b, exists x r, write_escaped_chars (c :: b) = x :: r /\ x <> 34.
Proof.
  intros c b. cbn [write_escaped_chars flat_map]. destruct (marked_dec c) as [M|M].
  - destruct (escape_marked c M) as (d & -> & _). exists 92, (d :: flat_map escape_char b). split; [reflexivity|discriminate].
  - rewrite escape_plain by exact M. exists c, (flat_map escape_char b). split; [reflexivity|]. intros ->. apply M. unfold marked. cbn. tauto.
Qed.

Lemma no_quote_lex : forall s rest, not_starting 34 rest -> ~ In 34 s ->
  lex_string false (string_escape s ++ rest) = Some (write_escaped_chars s, rest).
Proof.
  intros s rest R H. unfold string_escape. rewrite <- !app_assoc. cbn [app lex_string]. rewrite lex_through by now apply escape_no_quote.
  rewrite lex_close by (assumption || discriminate). now rewrite app_nil_r.
Qed.

Lemma quote_lex : forall a b rest, ~ In 34 a -> lex_string false (string_escape (a ++ 34 :: b) ++ rest) =
  match b with
  | [] => match lex_quoted false 34 rest with Some (s, r) => Some (write_escaped_chars a ++ [92; 34] ++ s, r) | None => None end
  | _ => Some (write_escaped_chars a ++ [92], write_escaped_chars b ++ [34] ++ rest)
  end.
Proof.
  intros a b rest H. unfold string_escape.
  replace (write_escaped_chars (a ++ 34 :: b)) with (write_escaped_chars a ++ [92; 34] ++ write_escaped_chars b)
    by (unfold write_escaped_chars; rewrite flat_map_app; reflexivity).
  rewrite <- !app_assoc. cbn [app lex_string]. rewrite lex_through by now apply escape_no_quote.
  cbn [lex_quoted andb Z.eqb]. change (92 =? 34) with false. change (34 =? 34) with true. cbn iota.
  destruct b as [|c b].
  - cbn [write_escaped_chars flat_map app]. change (34 =? 34) with true. cbn iota. destruct (lex_quoted false 34 rest) as [[s r]|]; reflexivity.
  - destruct (escape_first c b) as (x & r & -> & X). cbn [app]. destruct (Z.eqb_spec x 34); [contradiction|]. reflexivity.
Qed.
