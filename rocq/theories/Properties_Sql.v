(** C121: the tokens of a statement assembled from escaped strings, identifiers and displayed values. *)
From Coq Require Import String ZArith List Bool Lia.
From Verif Require Import Base BaseFacts Types ParseBuf ValueText Spec_Wire Spec_Stmt Spec_Text Spec_Sql Sql_proofs.
Import ListNotations.
Open Scope Z_scope.

(** Whatever strings, identifiers and values are put between the fixed texts of a statement, the server
    divides it into the tokens of the fixed texts and one token (two for negative numbers) for each of
    them, and in no other way; these mean what was put in exactly when it can be expressed.  Missing:
    nothing may follow that continues a token ([assembled]), and an identifier without quotes must have
    a permitted character ([hole_ok]). *)
Theorem C121_statement_partial : forall debug f32 f64 parts fixed_tokens last last_tokens text,
  assembled (fun h x => hole_text debug f32 f64 h = Some x) parts last text ->
  Forall (hole_ok f32 f64) (map snd parts) ->
  Forall2 fixed (map fst parts) fixed_tokens -> reads last last_tokens [] ->
  exists hole_tokens, Forall2 shape (map snd parts) hole_tokens /\
    Forall2 (fun h ts => means h ts <-> expressible h) (map snd parts) hole_tokens /\
    forall ts, reads text ts [] <-> ts = in_order fixed_tokens hole_tokens last_tokens.
Proof.
  intros debug f32 f64 parts fts last lts text Ha Hok HF Hl.
  destruct (statement_reads debug f32 f64 parts last text Ha Hok fts lts HF Hl) as (hts & S & M & R).
  exists hts. splits; auto. intros ts. split; [intros H; eapply reads_unique; eassumption | intros ->; exact R].
Qed.
Print Assumptions C121_statement_partial.

(** Two escaped strings with nothing between them are one string to the server. *)
Theorem C121_adjacent_refuted : exists a b, forall debug f32 f64 x y,
  hole_text debug f32 f64 (HString a) = Some x -> hole_text debug f32 f64 (HString b) = Some y ->
  reads (x ++ y) [TString (a ++ [34] ++ b)] [].
Proof.
  exists [97], [98]. intros debug f32 f64 x y E1 E2. injection E1 as <-. injection E2 as <-.
  apply reads_one. vm_compute. reflexivity.
Qed.
Print Assumptions C121_adjacent_refuted.

(** An identifier without quotes of which no character is permitted leaves nothing: the word after it
    is taken for it. *)
Theorem C121_unquoted_refuted : exists s before after ts, forall debug f32 f64 x, hole_text debug f32 f64 (HUnquoted s) = Some x ->
  fixed before ts /\ reads (before ++ x ++ after) (ts ++ [TWord (s2l "where")]) [] /\ may_follow (HUnquoted s) after.
Proof.
  exists (s2l "-."), (s2l "from "), (s2l " where"), [TWord (s2l "from")]. intros debug f32 f64 x E. injection E as <-. split; [|split].
  - intros rest. eapply reads_token; [reflexivity|]. eapply reads_pass; [reflexivity | constructor].
  - eapply reads_token; [reflexivity|]. eapply reads_pass; [reflexivity|]. eapply reads_pass; [reflexivity|].
    eapply reads_token; [reflexivity | constructor].
  - split; reflexivity.
Qed.
Print Assumptions C121_unquoted_refuted.

(** Control+Z in a string, and an empty byte string, are not read back. *)
Theorem C121_meaning_refuted : exists h1 h2, forall debug f32 f64 x1 x2,
  hole_ok f32 f64 h1 /\ hole_ok f32 f64 h2 /\
  (hole_text debug f32 f64 h1 = Some x1 -> forall ts, reads x1 ts [] -> ~ means h1 ts) /\
  (hole_text debug f32 f64 h2 = Some x2 -> forall ts, reads x2 ts [] -> ~ means h2 ts).
Proof.
  exists (HString [97; 26]), (HValue (VBytes [])). intros debug f32 f64 x1 x2.
  assert (K1 : hole_ok f32 f64 (HString [97; 26])) by exact I.
  assert (K2 : hole_ok f32 f64 (HValue (VBytes []))) by (split; [constructor | split; vm_compute; [discriminate | reflexivity]]).
  splits; auto; intros E ts Hts Hm.
  - destruct (hole_is_read _ _ _ _ _ K1 E) as (ts' & _ & M & R). specialize (R [] eq_refl). rewrite app_nil_r in R.
    assert (ts = ts') as -> by (eapply reads_unique; eassumption). apply M in Hm. apply Hm. right. left. reflexivity.
  - destruct (hole_is_read _ _ _ _ _ K2 E) as (ts' & _ & M & R). specialize (R [] ltac:(repeat split)). rewrite app_nil_r in R.
    assert (ts = ts') as -> by (eapply reads_unique; eassumption). apply M in Hm. now apply Hm.
Qed.
Print Assumptions C121_meaning_refuted.

Local Ltac tokens := cbn [app s2l map list_ascii_of_string];
  repeat first [eapply reads_token; [reflexivity|] | eapply reads_pass; [reflexivity|]]; apply reads_none.

(** A query with a name of a table, a string with a quote and a comment in it, and a negative number. *)
Example C121_statement_case :
  let parts := [(s2l "select * from ", HName (s2l "a`; drop table b")); (s2l " where x = ", HString (s2l """ or 1 = 1 -- "));
                (s2l " and y < ", HValue (VTiny (-5)))] in
  assembled (fun h x => hole_text true (fun _ => []) (fun _ => []) h = Some x) parts (s2l " limit 1")
    (s2l "select * from `a``; drop table b` where x = ""\"" or 1 = 1 -- "" and y < -5 limit 1") /\
  Forall (hole_ok (fun _ => []) (fun _ => [])) (map snd parts) /\
  Forall2 fixed (map fst parts) [[TWord (s2l "select"); TMark 42; TWord (s2l "from")];
    [TWord (s2l "where"); TWord (s2l "x"); TMark 61]; [TWord (s2l "and"); TWord (s2l "y"); TMark 60]] /\
  reads (s2l " limit 1") [TWord (s2l "limit"); TWord (s2l "1")] [].
Proof.
  cbv zeta. split; [|split; [|split]].
  - assert (H : forall a b c, hole_text true (fun _ => []) (fun _ => []) (HName (s2l "a`; drop table b")) = Some a ->
      hole_text true (fun _ => []) (fun _ => []) (HString (s2l """ or 1 = 1 -- ")) = Some b ->
      hole_text true (fun _ => []) (fun _ => []) (HValue (VTiny (-5))) = Some c ->
      may_follow (HName (s2l "a`; drop table b")) (s2l " where x = " ++ b ++ s2l " and y < " ++ c ++ s2l " limit 1") ->
      may_follow (HString (s2l """ or 1 = 1 -- ")) (s2l " and y < " ++ c ++ s2l " limit 1") ->
      may_follow (HValue (VTiny (-5))) (s2l " limit 1") ->
      assembled (fun h x => hole_text true (fun _ => []) (fun _ => []) h = Some x) [(s2l "select * from ", HName (s2l "a`; drop table b")); (s2l " where x = ", HString (s2l """ or 1 = 1 -- "));
                (s2l " and y < ", HValue (VTiny (-5)))] (s2l " limit 1")
        (s2l "select * from " ++ a ++ s2l " where x = " ++ b ++ s2l " and y < " ++ c ++ s2l " limit 1")).
    { intros a b c Ea Eb Ec Fa Fb Fc. repeat (apply assembled_part; [assumption | assumption|]). apply assembled_last. }
    apply (H (s2l "`a``; drop table b`") (s2l """\"" or 1 = 1 -- """) (s2l "-5")); try reflexivity; repeat split.
  - cbn [map snd]. constructor; [exact I|]. constructor; [exact I|]. constructor; [split; vm_compute; congruence | constructor].
  - cbn [map fst]. constructor; [intros rest; tokens|]. constructor; [intros rest; tokens|]. constructor; [intros rest; tokens | constructor].
  - tokens.
Qed.
