(** Proofs about the tokens of assembled statements (C121). *)
From Coq Require Import String ZArith List Bool Lia.
From Verif Require Import Base BaseFacts Types ParseBuf ValueText Hex Spec_Wire Spec_Stmt Spec_Text
  ValueText_proofs Escape_proofs Hex_proofs Spec_Sql.
Import ListNotations.
Open Scope Z_scope.

(** The text of what is put in. *)
Definition hole_text (debug : bool) (f32 f64 : Z -> str) (h : hole) : option str :=
  match h with
  | HString s => Some (string_escape s)
  | HName s => Some (identifier_escape s)
  | HUnquoted s => Some (unquoted_identifier_escape s)
  | HValue v => value_display debug f32 f64 v
  end.

(** Values in the range of their types; identifiers without quotes have a permitted character. *)
Definition hole_ok (f32 f64 : Z -> str) (h : hole) : Prop :=
  match h with
  | HUnquoted s => exists c, In c s /\ unquoted_allowed c
  | HValue (VFloat x) => float_text (f32 x)
  | HValue (VDouble x) => float_text (f64 x)
  | HValue v => value_ok v
  | _ => True
  end.

(** ** Reading *)

Lemma reads_app : forall l ts r ts' rest, reads l ts r -> reads r ts' rest -> reads l (ts ++ ts') rest.
Proof. intros l ts r ts' rest H. induction H; intros K; [exact K | eapply reads_pass; eauto | eapply reads_token; eauto]. Qed.

Lemma reads_unique : forall l ts, reads l ts [] -> forall ts', reads l ts' [] -> ts' = ts.
Proof.
  intros l ts H. remember (@nil Z) as none eqn:En. induction H as [l|l r ts rest Hn Hr IH|l t r ts rest Hn Hr IH]; subst.
  - intros ts' H'. inversion H' as [?|? ? ? ? E ?|? ? ? ? ? E ?]; subst; [reflexivity | discriminate | discriminate].
  - intros ts' H'. inversion H' as [?|? ? ? ? E ?|? ? ? ? ? E ?]; subst; [discriminate | |congruence].
    assert (r0 = r) by congruence. subst. auto.
  - intros ts' H'. inversion H' as [?|? ? ? ? E ?|? ? ? ? ? E ?]; subst; [discriminate | congruence|].
    assert (r0 = r /\ t0 = t) as [-> ->] by (split; congruence). f_equal. auto.
Qed.

Lemma reads_one : forall l t r, next_token l = Some (Some t, r) -> reads l [t] r.
Proof. intros l t r H. eapply reads_token; [exact H | constructor]. Qed.

Lemma starts_not : forall q rest, starts (Z.eqb q) rest = false -> not_starting q rest.
Proof. intros q [|c rest] H; [exact I|]. cbn [starts not_starting] in *. lia. Qed.

(** ** Words *)

Lemma run_all : forall (p : Z -> bool) w rest, Forall (fun c => p c = true) w -> starts p rest = false -> run p (w ++ rest) = (w, rest).
Proof.
  intros p w rest H Hr. induction H as [|c w Hc Hw IH]; cbn [app run].
  - destruct rest as [|c rest]; [reflexivity|]. cbn [run starts] in *. now rewrite Hr.
  - now rewrite Hc, IH.
Qed.

Lemma lex_word_simple : forall w rest, Forall (fun c => word_char c = true) w -> starts word_char rest = false ->
  starts (Z.eqb 46) rest = false -> lex_word (w ++ rest) = (w, rest).
Proof.
  intros w rest Hw H1 H2. unfold lex_word. rewrite (run_all word_char w rest Hw H1).
  destruct rest as [|c rest]; [reflexivity|]. cbn [starts] in H2. destruct (Z.eq_dec c 46) as [->|N]; [discriminate|].
  destruct c as [|p|p]; try reflexivity.
  repeat (destruct p as [p|p|]; try reflexivity; try (exfalso; apply N; reflexivity)).
Qed.

Lemma digit_is : forall c, digit c -> is_digit c = true.
Proof. unfold digit, is_digit. intros. lia. Qed.
Lemma digits_are : forall l, Forall digit l -> Forall (fun c => is_digit c = true) l.
Proof. intros l H. eapply Forall_impl; [|exact H]. intros; now apply digit_is. Qed.
Lemma digit_word : forall c, digit c -> word_char c = true.
Proof. unfold digit, word_char, is_digit. intros. lia. Qed.
Lemma digits_word : forall l, Forall digit l -> Forall (fun c => word_char c = true) l.
Proof. intros l H. eapply Forall_impl; [|exact H]. intros; now apply digit_word. Qed.

Lemma not_word_digit : forall rest, starts word_char rest = false -> starts is_digit rest = false.
Proof.
  intros [|c rest] H; [reflexivity|]. cbn [starts] in *. unfold word_char in H.
  destruct (is_digit c); [discriminate | reflexivity].
Qed.

Lemma lex_word_decimal : forall w d rest, w <> [] -> Forall digit w -> d <> [] -> Forall digit d -> starts word_char rest = false ->
  lex_word (w ++ 46 :: d ++ rest) = (w ++ 46 :: d, rest).
Proof.
  intros w d rest Hw Dw Hd Dd Hr. unfold lex_word.
  rewrite (run_all word_char w (46 :: d ++ rest) (digits_word w Dw)) by reflexivity.
  destruct d as [|x d]; [contradiction|]. cbn [app]. inversion Dd as [|? ? Dx Dd']; subst.
  assert (A : forallb is_digit w = true) by (apply forallb_forall; intros c Hc; rewrite Forall_forall in Dw; apply digit_is; auto).
  rewrite A, (digit_is x Dx). cbn [andb tl].
  change (x :: d ++ rest) with ((x :: d) ++ rest).
  rewrite (run_all is_digit (x :: d) rest (digits_are _ Dd) (not_word_digit _ Hr)). reflexivity.
Qed.

Lemma word_not : forall c, word_char c = true ->
  blank c = false /\ ((c =? 34) || (c =? 39)) = false /\ (c =? 96) = false /\ (c =? 35) = false /\ (c =? 45) = false /\ (c =? 47) = false.
Proof. intros c H. unfold word_char, is_digit, blank in *. lia. Qed.

Lemma next_word : forall l c r w rest, l = c :: r -> word_char c = true -> lex_word l = (w, rest) ->
  next_token l = Some (Some (TWord w), rest).
Proof.
  intros l c r w rest -> Hc Hw. destruct (word_not c Hc) as (A & B & C & D & E & F).
  unfold next_token. rewrite A, B, C, D, E, F, Hc, Hw. reflexivity.
Qed.

Lemma reads_word : forall w rest, w <> [] -> Forall (fun c => word_char c = true) w -> starts word_char rest = false ->
  starts (Z.eqb 46) rest = false -> reads (w ++ rest) [TWord w] rest.
Proof.
  intros w rest Hn Hw H1 H2. apply reads_one. destruct w as [|c w]; [contradiction|].
  eapply next_word; [reflexivity | now inversion Hw | now apply lex_word_simple].
Qed.

Lemma reads_decimal : forall w d rest, w <> [] -> Forall digit w -> d <> [] -> Forall digit d -> starts word_char rest = false ->
  reads ((w ++ 46 :: d) ++ rest) [TWord (w ++ 46 :: d)] rest.
Proof.
  intros w d rest Hw Dw Hd Dd Hr. apply reads_one. rewrite <- app_assoc. cbn [app].
  pose proof (lex_word_decimal w d rest Hw Dw Hd Dd Hr) as E. destruct w as [|c w]; [contradiction|].
  eapply next_word; [reflexivity | apply digit_word; now inversion Dw | exact E].
Qed.

(** A minus sign before a word. *)
Lemma reads_minus : forall l ts rest, starts word_char l = true -> reads l ts rest -> reads (45 :: l) (TMark 45 :: ts) rest.
Proof.
  intros [|c l] ts rest Hs H; [discriminate|]. eapply reads_token; [|exact H]. cbn [starts] in Hs.
  unfold next_token. change (blank 45) with false. cbn [Z.eqb]. cbn [Pos.eqb orb andb starts].
  replace (45 =? c) with false by (destruct (word_not c Hs) as (_ & _ & _ & _ & E & _); lia). reflexivity.
Qed.

(** A literal in double quotes. *)
Lemma reads_string : forall l s rest, lex_string true (34 :: l) = Some (s, rest) -> reads (34 :: l) [TString s] rest.
Proof. intros l s rest H. apply reads_one. unfold next_token. change (blank 34) with false. cbn [Z.eqb Pos.eqb orb]. now rewrite H. Qed.

Lemma reads_plain : forall t rest, plain t -> starts (Z.eqb 34) rest = false -> reads (([34] ++ t ++ [34]) ++ rest) [TString t] rest.
Proof.
  intros t rest Hp Hr. cbn [app]. rewrite <- app_assoc. cbn [app]. apply reads_string.
  apply lex_plain; [exact Hp | now apply starts_not].
Qed.

(** ** Strings and identifiers *)

Lemma reads_escaped : forall s rest, starts (Z.eqb 34) rest = false ->
  reads (string_escape s ++ rest) [TString (read_back s)] rest.
Proof.
  intros s rest H. pose proof (string_escape_lex s rest (starts_not _ _ H)) as E.
  unfold string_escape in *. cbn [app] in *. now apply reads_string.
Qed.

Lemma reads_ident : forall s rest, starts (Z.eqb 96) rest = false ->
  reads (identifier_escape s ++ rest) [TName (ident_kept s)] rest.
Proof.
  intros s rest H. pose proof (identifier_lex s rest (starts_not _ _ H)) as E.
  unfold identifier_escape in *. cbn [app] in *. apply reads_one. unfold next_token.
  change (blank 96) with false. cbn [Z.eqb Pos.eqb orb]. now rewrite E.
Qed.

Lemma selects_forall : forall P s w, selects P s w -> Forall P w.
Proof. intros P s w H. induction H; auto. Qed.

Lemma unquoted_word : forall c, unquoted_allowed c -> word_char c = true.
Proof. intros c. unfold unquoted_allowed, word_char, is_digit. lia. Qed.

Lemma reads_unquoted : forall s rest, (exists c, In c s /\ unquoted_allowed c) -> starts word_char rest = false ->
  starts (Z.eqb 46) rest = false -> reads (unquoted_identifier_escape s ++ rest) [TWord (unquoted_identifier_escape s)] rest.
Proof.
  intros s rest (c & Hc & Ha) H1 H2. apply reads_word; auto.
  - rewrite unquoted_filter. intros E. apply unquoted_iff in Ha.
    assert (I : In c (filter unquoted_char_valid s)) by (apply filter_In; auto). rewrite E in I. contradiction.
  - eapply Forall_impl; [|eapply selects_forall, unquoted_selects]. exact unquoted_word.
Qed.

(** ** Numbers *)

Lemma nat_starts : forall n w rest, nat_text n w -> starts word_char (w ++ rest) = true.
Proof.
  intros n w rest (Hn & Hd & _). destruct w as [|c w]; [contradiction|]. cbn [app starts].
  apply digit_word. now inversion Hd.
Qed.

Lemma reads_nat : forall n w rest, nat_text n w -> starts word_char rest = false -> starts (Z.eqb 46) rest = false ->
  reads (w ++ rest) [TWord w] rest.
Proof. intros n w rest (Hn & Hd & _) H1 H2. apply reads_word; auto. now apply digits_word. Qed.

Lemma hex_digit_word : forall n, 0 <= n < 16 -> word_char (hex_digit n) = true.
Proof. intros n H. unfold hex_digit, word_char, is_digit. destruct (n <? 10) eqn:E; lia. Qed.

Lemma hex_words : forall b, bytes_ok b -> Forall (fun c => word_char c = true) (hex_encode b).
Proof.
  intros b H. induction H as [|x b Hx Hb IH]; [constructor|]. cbn [hex_encode flat_map app].
  unfold byte_ok in Hx. constructor; [apply hex_digit_word; lia | constructor; [apply hex_digit_word; lia | exact IH]].
Qed.

(** ** Dates and times *)

Lemma plain_pad : forall w n, 0 <= n -> (0 < w)%nat -> plain (pad0 (Z.of_nat w) (dec n)).
Proof. intros w n Hn Hw. apply plain_digits. now destruct (pad_nat n w Hn Hw) as ((_ & A & _) & _). Qed.

Lemma plain_app : forall a b, plain a -> plain b -> plain (a ++ b).
Proof. intros. apply Forall_app. auto. Qed.
Lemma plain_one : forall c, c <> 34 -> c <> 92 -> plain [c].
Proof. intros. constructor; auto. Qed.

Lemma plain_format_date : forall y m d, 0 <= y -> 0 <= m -> 0 <= d -> plain (format_date y m d).
Proof.
  intros y m d Hy Hm Hd. unfold format_date.
  apply plain_app; [apply (plain_pad 4); lia|]. apply plain_app; [apply plain_one; lia|].
  apply plain_app; [apply (plain_pad 2); lia|]. apply plain_app; [apply plain_one; lia | apply (plain_pad 2); lia].
Qed.

Lemma plain_format_time : forall h m s u, 0 <= h -> 0 <= m -> 0 <= s -> 0 <= u -> plain (format_time h m s u).
Proof.
  intros h m s u Hh Hm Hs Hu. unfold format_time.
  apply plain_app; [apply (plain_pad 2); lia|]. apply plain_app; [apply plain_one; lia|].
  apply plain_app; [apply (plain_pad 2); lia|]. apply plain_app; [apply plain_one; lia|].
  apply plain_app; [apply (plain_pad 2); lia|]. destruct (u =? 0); [constructor|]. apply plain_app; [apply plain_one; lia | apply (plain_pad 6); lia].
Qed.

Lemma date_bounds : forall y m d t, spec_date y m d t -> y < 10000 /\ m < 100 /\ d < 100.
Proof.
  intros y m d t (a & b & c & _ & A & B & C). apply fixed_lt in A, B, C.
  change (10 ^ Z.of_nat 4) with 10000 in *. change (10 ^ Z.of_nat 2) with 100 in *. auto.
Qed.

Lemma clock_bounds : forall h m s u t, spec_clock h m s u t -> m < 100 /\ s < 100 /\ u < 1000000.
Proof.
  intros h m s u t (a & b & c & f & _ & _ & _ & B & C & F). apply fixed_lt in B, C.
  change (10 ^ Z.of_nat 2) with 100 in *. splits; auto. destruct F as [(-> & _)|(g & _ & L & D & ->)]; [lia|].
  assert (G : fixed_text (length g) (dec_val g) g) by (split; auto). apply fixed_lt in G.
  assert (P : 0 < 10 ^ (6 - Z.of_nat (length g))) by (apply Z.pow_pos_nonneg; lia).
  change 1000000 with (10 ^ 6). replace (10 ^ 6) with (10 ^ Z.of_nat (length g) * 10 ^ (6 - Z.of_nat (length g))).
  - apply Z.mul_lt_mono_pos_r; assumption.
  - rewrite <- Z.pow_add_r by lia. f_equal. lia.
Qed.

Lemma total_hours_nonneg : forall debug d h t, 0 <= d -> 0 <= h -> total_hours debug d h = Some t -> 0 <= t.
Proof.
  intros debug d h t Hd Hh H. unfold total_hours, u32_checked in H.
  destruct debug, (d * 24 <? 4294967296); try discriminate;
    (match type of H with (if ?c then _ else _) = _ => destruct c end); try discriminate; injection H as <-; lia.
Qed.
Lemma total_hours_exact : forall debug d h, 0 <= d -> 0 <= h -> d * 24 + h < 2 ^ 32 -> total_hours debug d h = Some (d * 24 + h).
Proof.
  intros debug d h Hd Hh H. change (2 ^ 32) with 4294967296 in H. unfold total_hours, u32_checked.
  replace (d * 24 <? 4294967296) with true by lia. replace (d * 24 + h <? 4294967296) with true by lia. reflexivity.
Qed.

(** ** What is put in *)

Definition hole_reads (h : hole) (x : list Z) : Prop :=
  exists ts, shape h ts /\ (means h ts <-> expressible h) /\ forall rest, may_follow h rest -> reads (x ++ rest) ts rest.

Lemma nat_hole : forall v n, int_of v = Some n -> 0 <= n -> hole_reads (HValue v) (dec n).
Proof.
  intros v n Hv Hn. pose proof (dec_nat n Hn) as Hd. exists [TWord (dec n)]. split; [constructor|]. split.
  - split; [intros _; destruct v; try discriminate Hv; exact I | intros _; econstructor; eassumption].
  - intros rest (_ & H1 & H2). eapply reads_nat; eassumption.
Qed.

Lemma int_hole : forall v n, int_of v = Some n -> hole_reads (HValue v) (dec_signed n).
Proof.
  intros v n Hv. unfold dec_signed. destruct (n <? 0) eqn:E; [|apply nat_hole; [assumption | lia]].
  assert (Hn : 0 <= - n) by lia. pose proof (dec_nat (- n) Hn) as Hd.
  exists [TMark 45; TWord (dec (- n))]. split; [constructor|]. split.
  - split; [intros _; destruct v; try discriminate Hv; exact I | intros _; eapply means_negative; [eassumption | lia | exact Hd]].
  - intros rest (_ & H1 & H2). cbn [app]. apply reads_minus; [eapply nat_starts; eassumption | eapply reads_nat; eassumption].
Qed.

Lemma float_hole : forall v t, (exists x, v = VFloat x \/ v = VDouble x) -> float_text t -> hole_reads (HValue v) t.
Proof.
  intros v t (x & Hv) Ht.
  assert (R : exists ts, (exists w, ts = [TWord w] \/ ts = [TMark 45; TWord w]) /\
    forall rest, may_follow (HValue v) rest -> reads (t ++ rest) ts rest).
  { destruct Ht as [(w & f & Hw & Dw & Hf & Ht) | [-> | [-> | -> ] ] ].
    - assert (S : forall rest, may_follow (HValue v) rest -> reads ((w ++ f) ++ rest) [TWord (w ++ f)] rest).
      { intros rest (_ & H1 & H2). destruct Hf as [->|(d & Hd & Dd & ->)].
        - rewrite app_nil_r. apply reads_word; auto. now apply digits_word.
        - now apply reads_decimal. }
      destruct Ht as [-> | -> ].
      + eexists. split; [eexists; left; reflexivity | exact S].
      + eexists. split; [eexists; right; reflexivity|]. intros rest Hr. cbn [app]. apply reads_minus; [|now apply S].
        destruct w as [|c w]; [contradiction|]. cbn [app starts]. apply digit_word. now inversion Dw.
    - eexists. split; [eexists; left; reflexivity|]. intros rest (_ & H1 & H2). apply reads_word; auto; try discriminate; repeat constructor.
    - eexists. split; [eexists; left; reflexivity|]. intros rest (_ & H1 & H2). apply reads_word; auto; try discriminate; repeat constructor.
    - eexists. split; [eexists; right; reflexivity|]. intros rest (_ & H1 & H2). cbn [app]. apply reads_minus; [reflexivity|].
      apply (reads_word [105; 110; 102]); auto; try discriminate; repeat constructor. }
  destruct R as (ts & Hs & R). exists ts. split; [destruct Hs as (w & [-> | -> ]); constructor|]. split; [|exact R].
  split; intros H; [|destruct Hv as [-> | -> ]; destruct H].
  exfalso. destruct Hv as [-> | -> ]; inversion H; subst; discriminate.
Qed.

Lemma lit_hole : forall v t (P : Prop), plain t -> (means (HValue v) [TString t] <-> P) -> (P <-> expressible (HValue v)) ->
  hole_reads (HValue v) ([34] ++ t ++ [34]).
Proof.
  intros v t P Hp Hm He. exists [TString t]. split; [constructor|]. split; [tauto|].
  intros rest (H & _). now apply reads_plain.
Qed.

Lemma bytes_hole : forall b, bytes_ok b -> hole_reads (HValue (VBytes b)) ([48; 120] ++ hex_encode b).
Proof.
  intros b Hb. destruct (display_bytes false (fun _ => []) (fun _ => []) b Hb) as (t & E & L). injection E as <-.
  exists [TWord ([48; 120] ++ hex_encode b)]. split; [constructor|]. split.
  - split; intros H; [inversion H; subst; [discriminate | now apply L] | constructor; now apply L].
  - intros rest (_ & H1 & H2). apply reads_word; auto; [discriminate|].
    constructor; [reflexivity | constructor; [reflexivity | now apply hex_words]].
Qed.

Lemma hole_is_read : forall debug f32 f64 h x, hole_ok f32 f64 h -> hole_text debug f32 f64 h = Some x -> hole_reads h x.
Proof.
  intros debug f32 f64 h x Hok Hx. destruct h as [s|s|s|v]; cbn [hole_text hole_ok] in *.
  - injection Hx as <-. exists [TString (read_back s)]. split; [constructor|]. split.
    + split; intros H.
      * apply read_back_id. inversion H; congruence.
      * apply read_back_id in H. rewrite H. constructor.
    + intros rest H. now apply reads_escaped.
  - injection Hx as <-. exists [TName (ident_kept s)]. split; [constructor; apply ident_kept_allowed|]. split.
    + split; intros H.
      * apply ident_name_iff. now inversion H.
      * constructor. now apply ident_name_iff.
    + intros rest H. now apply reads_ident.
  - injection Hx as <-. exists [TWord (unquoted_identifier_escape s)].
    split; [constructor; eapply selects_forall, unquoted_selects|]. split.
    + split; intros _; [exact I | constructor; apply unquoted_selects].
    + intros rest (H1 & H2). now apply reads_unquoted.
  - destruct v as [|x0|x0|x0|x0|x0|x0|x0|x0|x0|x0|b|y m d|neg days h m s u|y mo d h mi s u]; cbn [value_display] in Hx;
      try (injection Hx as <-; eapply int_hole; reflexivity);
      try (injection Hx as <-; eapply nat_hole; [reflexivity | destruct Hok; assumption]);
      try (injection Hx as <-; apply float_hole; [eauto | exact Hok]).
    + injection Hx as <-. exists [TWord [78; 85; 76; 76]]. split; [constructor|]. split; [split; intros _; [exact I | constructor]|].
      intros rest (_ & H1 & H2). apply (reads_word [78; 85; 76; 76]); auto; try discriminate; repeat constructor.
    + injection Hx as <-. apply bytes_hole. apply Hok.
    + injection Hx as <-. destruct Hok as ((Hy & _) & (Hm & _) & (Hd & _)).
      apply (lit_hole _ _ (spec_date y m d (format_date y m d))).
      * now apply plain_format_date.
      * split; intros H; [inversion H; subst; assumption | now constructor].
      * cbn [expressible]. split; intros H; [eapply date_bounds; exact H | apply format_date_spec; lia].
    + destruct Hok as ((Hd & _) & (Hh & _) & (Hm & _) & (Hs & _) & (Hu & _)).
      destruct (total_hours debug days h) as [t|] eqn:Et; [|discriminate]. injection Hx as <-.
      pose proof (total_hours_nonneg _ _ _ _ Hd Hh Et) as Ht.
      rewrite (app_assoc (if neg then [45] else [])).
      set (x := (if neg then [45] else []) ++ format_time t m s u).
      change (34 :: x ++ [34]) with ([34] ++ x ++ [34]).
      apply (lit_hole _ _ (spec_time (VTime neg days h m s u) x)).
      * unfold x. apply plain_app; [destruct neg; [apply plain_one; lia | constructor] | now apply plain_format_time].
      * split; intros H; [inversion H; subst; assumption | now constructor].
      * cbn [expressible]. split; intros H.
        -- inversion H as [? ? ? ? ? ? Ha Hb Hc Hcl|? ? ? ? ? ? Ha Hb Hc Hcl]; subst; apply clock_bounds in Hcl; tauto.
        -- destruct H as (Ha & Hb & Hc & Hf & Hg). rewrite (total_hours_exact debug days h Hd Hh Hb) in Et. injection Et as <-.
           unfold x. destruct neg; constructor; auto; apply format_time_spec; auto; lia.
    + destruct Hok as ((Hy & _) & (Hmo & _) & (Hd & _) & (Hh & _) & (Hm & _) & (Hs & _) & (Hu & _)).
      injection Hx as <-.
      set (x := format_date y mo d ++ [32] ++ format_time h mi s u).
      match goal with |- hole_reads _ ?g => replace g with ([34] ++ x ++ [34]) end.
      2:{ unfold x. cbn [app]. rewrite <- app_assoc. reflexivity. }
      apply (lit_hole _ _ (spec_datetime y mo d h mi s u x)).
      * unfold x. apply plain_app; [now apply plain_format_date | apply plain_app; [apply plain_one; lia | now apply plain_format_time]].
      * split; intros H; [inversion H; subst; assumption | now constructor].
      * cbn [expressible]. split; intros H.
        -- destruct H as (a & b & _ & Hda & Hhh & Hcl & _). apply date_bounds in Hda. apply clock_bounds in Hcl. tauto.
        -- destruct H as (A & B & C & D & E & F & G). unfold x. eexists _, _. split; [reflexivity|].
           split; [apply format_date_spec; lia|]. split; [lia|]. split; [apply format_time_spec; lia|].
           unfold format_time. eexists _, _. split; [reflexivity|]. apply (pad_fixed h 2); cbn; lia.
Qed.

(** ** Statements *)

Lemma statement_reads : forall debug f32 f64 parts last text, assembled (fun h x => hole_text debug f32 f64 h = Some x) parts last text ->
  Forall (hole_ok f32 f64) (map snd parts) -> forall fts lts, Forall2 fixed (map fst parts) fts -> reads last lts [] ->
  exists hts, Forall2 shape (map snd parts) hts /\
    Forall2 (fun h ts => means h ts <-> expressible h) (map snd parts) hts /\
    reads text (in_order fts hts lts) [].
Proof.
  intros debug f32 f64 parts last text H. induction H as [last|t h x parts last rest Hx Hf Ha IH]; intros Hok fts lts HF Hl.
  - inversion HF; subst. exists []. cbn [map in_order]. splits; [constructor | constructor | exact Hl].
  - cbn [map fst snd] in *. inversion Hok as [|? ? Hh Hok']; subst. inversion HF as [|? ft ? fts' Hft HF']; subst.
    destruct (IH Hok' fts' lts HF' Hl) as (hts & S & M & R).
    destruct (hole_is_read debug f32 f64 h x Hh Hx) as (ts & Hs & Hm & Hr).
    exists (ts :: hts). splits; [now constructor | now constructor|]. cbn [in_order].
    eapply reads_app; [apply Hft|]. eapply reads_app; [apply Hr; exact Hf | exact R].
Qed.
