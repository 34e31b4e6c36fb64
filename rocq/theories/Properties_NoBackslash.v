(** Property C16 in SQL mode NO_BACKSLASH_ESCAPES. *)
From Coq Require Import String ZArith List Bool Lia.
From Verif Require Import Base BaseFacts Types ParseBuf ValueText Spec_Text Spec_NoBackslash ValueText_proofs Escape_proofs NoBackslash_proofs.
Import ListNotations.
Open Scope Z_scope.

(** In this mode the text after the escaped string is untouched exactly if there is no double quote in it, and
    it is the string exactly if none of its characters is one that is escaped. *)
Theorem C16_no_backslash_exactly : forall s rest, not_starting 34 rest ->
  ((exists content, lex_string false (string_escape s ++ rest) = Some (content, rest)) <-> ~ In 34 s) /\
  (lex_string false (string_escape s ++ rest) = Some (s, rest) <-> Forall (fun c => ~ In c marked) s).
Proof.
  intros s rest R. destruct (first_quote s) as [N|(a & b & -> & N)].
  - rewrite (no_quote_lex s rest R N). split; [split; [intros _; exact N|eauto]|]. rewrite <- escape_same. split; [intros E; now injection E|congruence].
  - rewrite (quote_lex a b rest N).
    assert (K : forall content, match b with
      | [] => match lex_quoted false 34 rest with Some (s, r) => Some (write_escaped_chars a ++ [92; 34] ++ s, r) | None => None end
      | _ => Some (write_escaped_chars a ++ [92], write_escaped_chars b ++ [34] ++ rest)
      end <> Some (content, rest)).
    { intros content E. destruct b as [|c b].
      - destruct (lex_quoted false 34 rest) as [[s' r']|] eqn:L; [|discriminate]. injection E as _ ->. apply lex_shorter with (n := length rest) in L; lia.
      - injection E as _ E. apply (f_equal (@length Z)) in E. rewrite !app_length in E. cbn [length] in E. lia. }
    split; split.
    + intros (content & E). now apply K in E.
    + intros H. exfalso. apply H. apply in_or_app. right. now left.
    + intros E. now apply K in E.
    + intros F. exfalso. rewrite Forall_forall in F. apply (F 34); [apply in_or_app; right; now left|]. unfold marked. cbn. tauto.
Qed.
Print Assumptions C16_no_backslash_exactly.

(** What follows the first double quote stands outside of the literal, unless it is the last character: then
    the literal goes on in the text after it. *)
Theorem C16_no_backslash_left : forall a b rest, ~ In 34 a ->
  (b <> [] -> exists content out, lex_string false (string_escape (a ++ 34 :: b) ++ rest) = Some (content, out ++ [34] ++ rest) /\
     (Forall (fun c => ~ In c marked) b -> out = b)) /\
  (b = [] -> (forall content after, lex_quoted false 34 rest = Some (content, after) ->
       exists before, lex_string false (string_escape (a ++ 34 :: b) ++ rest) = Some (before ++ content, after)) /\
     (lex_quoted false 34 rest = None -> lex_string false (string_escape (a ++ 34 :: b) ++ rest) = None)).
Proof.
  intros a b rest N. rewrite (quote_lex a b rest N). split.
  - intros Hb. destruct b as [|c b]; [contradiction|]. exists (write_escaped_chars a ++ [92]), (write_escaped_chars (c :: b)). split; [reflexivity|].
    apply escape_same.
  - intros ->. split.
    + intros content after E. rewrite E. exists (write_escaped_chars a ++ [92; 34]). now rewrite <- app_assoc.
    + intros E. now rewrite E.
Qed.
Print Assumptions C16_no_backslash_left.

(** A name with an apostrophe, a quoted word, and a quote at the end. *)
Example C16_no_backslash_case :
  lex_string false (string_escape (s2l "plain") ++ s2l ";") = Some (s2l "plain", s2l ";") /\
  lex_string false (string_escape (s2l "O'Brien") ++ s2l ";") = Some (s2l "O\'Brien", s2l ";") /\
  lex_string false (string_escape (s2l "a" ++ [34] ++ s2l " or 1") ++ s2l ";") = Some (s2l "a\", s2l " or 1" ++ [34] ++ s2l ";") /\
  lex_string false (string_escape (s2l "a" ++ [34]) ++ s2l ", " ++ string_escape (s2l " or 1")) =
    Some (s2l "a\" ++ [34] ++ s2l ", ", s2l " or 1" ++ [34]) /\
  lex_string false (string_escape (s2l "a" ++ [34]) ++ s2l ";") = None.
Proof. splits; vm_compute; reflexivity. Qed.
