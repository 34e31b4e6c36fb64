(** Property C123: values written with a width or a precision. *)
From Coq Require Import String ZArith List Bool Lia.
From Verif Require Import Base BaseFacts Types ValueText Hex FormatSpec Spec_Wire Spec_Stmt Spec_Text Spec_Format
  Escape_proofs Format_proofs.
Import ListNotations.
Open Scope Z_scope.

(** Without a format specification the text is the one of [value_display]. *)
Theorem C123_plain : forall debug ff32 ff64 v, value_ok v ->
  value_format debug ff32 ff64 no_format v =
    value_display debug (fun x => fst (ff32 None false x) ++ snd (ff32 None false x))
      (fun x => fst (ff64 None false x) ++ snd (ff64 None false x)) v.
Proof.
  intros debug ff32 ff64 v Hv.
  assert (I : forall x, format_int no_format x = dec_signed x).
  { intros x. unfold format_int, dec_signed, pad_number, no_format. cbn [fm_width fm_plus].
    destruct (x <? 0) eqn:E; cbn [app]; [rewrite Z.abs_neq by lia | rewrite Z.abs_eq by lia]; reflexivity. }
  assert (N : forall x, 0 <= x -> dec_signed x = dec x).
  { intros x Hx. unfold dec_signed. replace (x <? 0) with false by lia. reflexivity. }
  destruct v as [|x|x|x|x|x|x|x|x|x|x|x| | |]; cbn [value_format value_display]; try reflexivity; rewrite ?I; try reflexivity.
  all: try (rewrite N; [reflexivity | cbn [value_ok] in Hv; unfold unsigned_ok in Hv; lia]).
  - unfold no_format. cbn [fm_precision fm_plus]. destruct (ff32 None false x). reflexivity.
  - unfold no_format. cbn [fm_precision fm_plus]. destruct (ff64 None false x). reflexivity.
Qed.
Print Assumptions C123_plain.

(** An integer is its sign and digits, put into the width asked for with the fill character on the sides
    the alignment says (before it by default), or with zeros after the sign; if it is filled with spaces
    or zeros it is still read as the same number. *)
Theorem C123_integers : forall debug ff32 ff64 f v n k u, int_value v = Some (n, k, u) ->
  exists digits text, value_format debug ff32 ff64 f v = Some text /\ nat_text (Z.abs n) digits /\
    (forall other, nat_text (Z.abs n) other -> (length digits <= length other)%nat) /\
    match fm_width f with
    | None => text = sign_of (fm_plus f) n ++ digits
    | Some w =>
      if fm_zero f then with_zeros (Z.to_nat w) (sign_of (fm_plus f) n) digits text
      else placed (fm_fill f) (side_of (fm_align f) Before) (Z.to_nat w) (sign_of (fm_plus f) n ++ digits) text
    end /\
    (fm_fill f = 32 \/ fm_zero f = true \/ fm_width f = None -> reads_number text n).
Proof.
  intros debug ff32 ff64 f v n k u Hi. destruct (format_int_spec f n) as (digits & D & E & P & R).
  exists digits, (format_int f n). splits; auto.
  - destruct v; cbn [int_value] in Hi; try discriminate; injection Hi as -> _ _; reflexivity.
  - intros other (A & B & C). subst digits. apply dec_len; [lia | |].
    + destruct other; [congruence | cbn [length]; lia].
    + rewrite <- C. apply dec_val_bound. exact B.
Qed.
Print Assumptions C123_integers.

(** A floating-point number is treated in the same way; its digits are those for the precision. *)
Theorem C123_floats : forall debug ff32 ff64 f x, forall v ff, (v, ff) = (VFloat x, ff32) \/ (v, ff) = (VDouble x, ff64) ->
  exists text, value_format debug ff32 ff64 f v = Some text /\
    forall sign s, ff (fm_precision f) (fm_plus f) x = (sign, s) ->
    match fm_width f with
    | None => text = sign ++ s
    | Some w =>
      if fm_zero f then with_zeros (Z.to_nat w) sign s text
      else placed (fm_fill f) (side_of (fm_align f) Before) (Z.to_nat w) (sign ++ s) text
    end.
Proof.
  intros debug ff32 ff64 f x v ff [H | H]; injection H as -> ->; cbn [value_format].
  - destruct (ff32 (fm_precision f) (fm_plus f) x) as [sign s] eqn:E. eexists. split; [reflexivity|].
    intros sign0 s0 H. injection H as <- <-. apply pad_number_spec.
  - destruct (ff64 (fm_precision f) (fm_plus f) x) as [sign s] eqn:E. eexists. split; [reflexivity|].
    intros sign0 s0 H. injection H as <- <-. apply pad_number_spec.
Qed.
Print Assumptions C123_floats.

(** NULL, dates and times are written in the same way whatever is asked for. *)
Theorem C123_unaffected : forall debug ff32 ff64 f v g32 g64,
  match v with VNull | VDate _ _ _ | VTime _ _ _ _ _ _ | VDatetime _ _ _ _ _ _ _ => True | _ => False end ->
  value_format debug ff32 ff64 f v = value_display debug g32 g64 v.
Proof. intros debug ff32 ff64 f v g32 g64 H. destruct v; try destruct H; reflexivity. Qed.
Print Assumptions C123_unaffected.

(** A byte string is 0x and its digits cut to the precision, with the fill characters between 0x and the
    digits or after them. *)
Theorem C123_bytes : forall debug ff32 ff64 f b, bytes_ok b -> exists digits text, hex_pairs b digits /\
  value_format debug ff32 ff64 f (VBytes b) = Some ([48; 120] ++ text) /\ hex_format f b = [48; 120] ++ text /\
  placed (fm_fill f) (side_of (fm_align f) After) (match fm_width f with Some w => Z.to_nat w | None => O end)
    (match fm_precision f with Some n => firstn (Z.to_nat n) digits | None => digits end) text.
Proof.
  intros debug ff32 ff64 f b Hb. exists (hex_encode b), (pad_str f (hex_encode b)).
  splits; [now apply hex_encode_pairs | reflexivity | reflexivity | apply pad_str_spec].
Qed.
Print Assumptions C123_bytes.

(** So it is still a literal for these bytes, with spaces after it, if nothing is cut off and nothing is
    filled in before the digits.  Missing: other precisions, and widths with an alignment to the right
    or to the middle; and empty byte strings (C21). *)
Theorem C123_literal_partial : forall debug ff32 ff64 f b, bytes_ok b -> fm_fill f = 32 ->
  (forall n, fm_precision f = Some n -> 2 * Z.of_nat (length b) <= n) ->
  (forall w, fm_width f = Some w -> w <= 2 * Z.of_nat (length b) \/ fm_align f = None \/ fm_align f = Some ALeft) ->
  exists t spaces, value_format debug ff32 ff64 f (VBytes b) = Some (t ++ repeat 32 spaces) /\
    hex_format f b = t ++ repeat 32 spaces /\ (hex_literal b t <-> b <> []).
Proof.
  intros debug ff32 ff64 f b Hb Hf Hp Hw. destruct (bytes_guarded f b Hb Hf Hp Hw) as (t & spaces & E & I).
  exists t, spaces. splits; [| exact E | exact I]. cbn [value_format]. f_equal. exact E.
Qed.
Print Assumptions C123_literal_partial.

(** [{:>6}] puts spaces between 0x and the digits: no literal.  [{:.2}] and [{:0>6}] give literals for
    other bytes. *)
Theorem C123_literal_refuted : forall debug ff32 ff64, exists b,
  value_format debug ff32 ff64 (mkFormat 32 (Some ARight) false false (Some 6) None) (VBytes b) = Some (s2l "0x  aabb") /\
  (forall any, ~ hex_literal any (s2l "0x  aabb")) /\
  (exists t other, value_format debug ff32 ff64 (mkFormat 32 None false false None (Some 2)) (VBytes b) = Some t /\
    hex_literal other t /\ other <> b) /\
  (exists t other, value_format debug ff32 ff64 (mkFormat 48 (Some ARight) false false (Some 6) None) (VBytes b) = Some t /\
    hex_literal other t /\ other <> b).
Proof.
  intros debug ff32 ff64. exists [170; 187]. splits.
  - vm_compute. reflexivity.
  - intros any H. change (s2l "0x  aabb") with [48; 120; 32; 32; 97; 97; 98; 98] in H.
    inversion H; subst; repeat match goal with P : hex_pairs _ (_ :: _) |- _ => inversion P; subst; clear P end; discriminate.
  - exists (s2l "0xaa"), [170]. splits; [vm_compute; reflexivity | | discriminate].
    apply (hl_even [170] [97; 97]); [discriminate|]. exact (hex_encode_pairs [170] ltac:(repeat constructor; lia)).
  - exists (s2l "0x00aabb"), [0; 170; 187]. splits; [vm_compute; reflexivity | | discriminate].
    apply (hl_even [0; 170; 187] [48; 48; 97; 97; 98; 98]); [discriminate|].
    exact (hex_encode_pairs [0; 170; 187] ltac:(repeat constructor; lia)).
Qed.
Print Assumptions C123_literal_refuted.

(** A table of values with columns of a given width does not line up: NULL, dates and times take less, byte
    strings take two characters more. *)
Theorem C123_width_refuted : forall debug ff32 ff64, exists f w,
  fm_width f = Some w /\
  (exists text, value_format debug ff32 ff64 f VNull = Some text /\ lenZ text < w) /\
  (exists text, value_format debug ff32 ff64 f (VDate 2038 1 19) = Some text /\ lenZ text < w) /\
  (exists text, value_format debug ff32 ff64 f (VTime false 0 1 2 3 0) = Some text /\ lenZ text < w) /\
  (exists text, value_format debug ff32 ff64 f (VDatetime 2038 1 19 3 14 7 0) = Some text /\ lenZ text < w) /\
  (exists text, value_format debug ff32 ff64 f (VBytes [170; 187]) = Some text /\ lenZ text = w + 2).
Proof.
  intros debug ff32 ff64. exists (mkFormat 32 (Some ARight) false false (Some 24) None), 24.
  splits; try (eexists; split; [vm_compute; reflexivity | reflexivity]). reflexivity.
Qed.
Print Assumptions C123_width_refuted.

Example C123_case : forall debug ff32 ff64,
  value_format debug ff32 ff64 (mkFormat 32 None false false (Some 6) None) (VInt (-42)) = Some (s2l "   -42") /\
  value_format debug ff32 ff64 (mkFormat 32 None true true (Some 6) None) (VInt 42) = Some (s2l "+00042") /\
  value_format debug ff32 ff64 (mkFormat 42 (Some ACenter) false false (Some 7) None) (VUTiny 42) = Some (s2l "**42***") /\
  value_format debug ff32 ff64 (mkFormat 32 None false false (Some 6) (Some 9)) (VBytes [170; 187]) = Some (s2l "0xaabb  ") /\
  reads_number (s2l "   -42") (-42) /\ reads_number (s2l "+00042") 42.
Proof.
  intros debug ff32 ff64. splits; try (vm_compute; reflexivity).
  - change (s2l "   -42") with [32; 32; 32; 45; 52; 50]. do 3 constructor.
    exact (rn_minus [52; 50] ltac:(discriminate) ltac:(repeat constructor; lia)).
  - change (s2l "+00042") with (43 :: [48; 48; 48; 52; 50]).
    exact (rn_plus [48; 48; 48; 52; 50] ltac:(discriminate) ltac:(repeat constructor; lia)).
Qed.
